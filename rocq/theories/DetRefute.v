(** * DetRefute.v: with several executor threads the same events do not give the same behaviour *)
From Verif Require Import RaceSpec StuckProofs Demo22 Witness.

(** the first thread processes both events *)
Definition run_first : world := after E13 w13 [(c0, 200); (wk 0, 4); (wk 0, 200); (wk2 0, 200)].
(** the first thread takes e0, and goes on when the second has processed e1 *)
Definition run_second : world := after E13 w13 [(c0, 200); (wk 0, 4); (wk2 0, 200); (wk 0, 200)].
Lemma p_C70_more_threads_refuted :
  ~ forall E w0 w1 w2, init_mem E w0 -> reach E w0 w1 -> reach E w0 w2 ->
    forall m h r1 r2, private_queue E m -> tr (wm w1) = h ++ r1 -> tr (wm w2) = h ++ r2 -> calm E m h r1 -> calm E m h r2 ->
      nothing_threw (h ++ r1) -> nothing_threw (h ++ r2) ->
      none_waiting (queue_of E m) (h ++ r1) -> none_waiting (queue_of E m) (h ++ r2) ->
      taken (queue_of E m) (h ++ r1) = taken (queue_of E m) (h ++ r2) ->
      (forall i, i < n_workers E (exec_of E m) -> rests (queue_of E m) (TWorker (exec_of E m) i) h /\
         rests (queue_of E m) (TWorker (exec_of E m) i) (h ++ r1) /\ rests (queue_of E m) (TWorker (exec_of E m) i) (h ++ r2)) ->
      mstate_at m (h ++ r1) = mstate_at m (h ++ r2).
Proof.
  intro H. pose (T1 := tr (wm run_first)). pose (T2 := tr (wm run_second)).
  assert (X : mstate_at 0 (part 0 15 T1 ++ part 15 500 T1) = mstate_at 0 (part 0 15 T1 ++ part 15 500 T2)).
  { apply (H E13 w13 run_first run_second (demo_init _ _ _ _ _) (after_reach _ _ _) (after_reach _ _ _) 0 (part 0 15 T1) (part 15 500 T1) (part 15 500 T2)).
    - intros m' Hm. exact Hm.
    - vm_compute. reflexivity.
    - vm_compute. reflexivity.
    - apply calm_ok. vm_compute. reflexivity.
    - apply calm_ok. vm_compute. reflexivity.
    - apply quiet_ok. vm_compute. reflexivity.
    - apply quiet_ok. vm_compute. reflexivity.
    - vm_compute. reflexivity.
    - vm_compute. reflexivity.
    - vm_compute. reflexivity.
    - intros [|[|i]] Hi; [| |exfalso; simpl in Hi; lia]; (split; [|split]; apply rests_ok; vm_compute; reflexivity). }
  vm_compute in X. discriminate.
Qed.
