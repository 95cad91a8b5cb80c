(** * PropsDet.v: the same events, the same behaviour (C70) *)
From Verif Require Import Sched RaceSpec DetSpec DetProofs Demo22 DetRefute Witness.

(** ** C70: a machine's behaviour depends on its events only *)
(** Two executions, of the same program or of two programs that set up machine m
    alike.  In a period of each, m is not interfered with.  It starts from the same
    state with the same configuration, listener and actions, and takes events of the
    same names.  If callbacks end alike, m makes the same callbacks in the same order
    with the same changes of state in between, the same tasks die of the same
    exceptions, and it ends in the same state.  Threads, schedules, other machines,
    payloads and event objects have no influence. *)
Theorem C70_same_events :
  forall E1 E2 w01 w02 w1 w2, init_mem E1 w01 -> reach E1 w01 w1 -> init_mem E2 w02 -> reach E2 w02 w2 ->
  forall m, same_setup E1 E2 m -> private_queue E1 m -> one_thread E1 m -> private_queue E2 m -> one_thread E2 m ->
  forall h1 r1 h2 r2 conf vs1 vs2, tr (wm w1) = h1 ++ r1 -> tr (wm w2) = h2 ++ r2 ->
    period E1 w01 m h1 r1 conf vs1 -> period E2 w02 m h2 r2 conf vs2 -> same_start w01 w02 m h1 h2 ->
    map name_of_view vs1 = map name_of_view vs2 ->
  forall F, answers F vs1 -> answers F vs2 ->
    vs1 = vs2 /\ mstate_at m (h1 ++ r1) = mstate_at m (h2 ++ r2).
Proof. exact same_events. Qed.
Print Assumptions C70_same_events.

(** Callbacks that do not throw end alike. *)
Theorem C70_same_events_no_throw :
  forall E1 E2 w01 w02 w1 w2, init_mem E1 w01 -> reach E1 w01 w1 -> init_mem E2 w02 -> reach E2 w02 w2 ->
  forall m, same_setup E1 E2 m -> private_queue E1 m -> one_thread E1 m -> private_queue E2 m -> one_thread E2 m ->
  forall h1 r1 h2 r2 conf vs1 vs2, tr (wm w1) = h1 ++ r1 -> tr (wm w2) = h2 ++ r2 ->
    period E1 w01 m h1 r1 conf vs1 -> period E2 w02 m h2 r2 conf vs2 -> same_start w01 w02 m h1 h2 ->
    map name_of_view vs1 = map name_of_view vs2 ->
    (forall n os z c x, In (n, os, z) (vs1 ++ vs2) -> In (OBack c x) os -> x = None) ->
    vs1 = vs2 /\ mstate_at m (h1 ++ r1) = mstate_at m (h2 ++ r2).
Proof. exact same_events_no_throw. Qed.
Print Assumptions C70_same_events_no_throw.

(** The same in terms of the events accepted: nothing waits at the beginning and at
    the end, and the events accepted in between have the same names. *)
Theorem C70_same_acceptance :
  forall E1 E2 w01 w02 w1 w2, init_mem E1 w01 -> reach E1 w01 w1 -> init_mem E2 w02 -> reach E2 w02 w2 ->
  forall m, same_setup E1 E2 m -> private_queue E1 m -> one_thread E1 m -> private_queue E2 m -> one_thread E2 m ->
  forall h1 r1 h2 r2 conf vs1 vs2, tr (wm w1) = h1 ++ r1 -> tr (wm w2) = h2 ++ r2 ->
    period E1 w01 m h1 r1 conf vs1 -> period E2 w02 m h2 r2 conf vs2 -> same_start w01 w02 m h1 h2 ->
    none_waiting (queue_of E1 m) h1 -> none_waiting (queue_of E1 m) (h1 ++ r1) ->
    none_waiting (queue_of E2 m) h2 -> none_waiting (queue_of E2 m) (h2 ++ r2) ->
    accepted_names (fun e => name_at E1 w01 e (h1 ++ r1)) (queue_of E1 m) r1 =
    accepted_names (fun e => name_at E2 w02 e (h2 ++ r2)) (queue_of E2 m) r2 ->
  forall F, answers F vs1 -> answers F vs2 ->
    vs1 = vs2 /\ mstate_at m (h1 ++ r1) = mstate_at m (h2 ++ r2).
Proof. exact same_acceptance. Qed.
Print Assumptions C70_same_acceptance.

(** one client, all events fired before the worker starts; and two clients, a
    second machine, copies of events with payloads, the worker running in between *)
Example C70_example :
  let T1 := tr (wm run_one) in let T2 := tr (wm run_two) in
  let h1 := part 0 21 T1 in let r1 := part 21 500 T1 in let h2 := part 0 21 T2 in let r2 := part 21 500 T2 in
  let conf := spec_of (sname E50) (ename0 E50) 0 abc in
  let vs1 := map (view_of (fun e => name_at E50 w50 e T1)) (completed 0 (wk 0) T1) in
  let vs2 := map (view_of (fun e => name_at E51 w51 e T2)) (completed 0 (wk 0) T2) in
  reach E50 w50 run_one /\ reach E51 w51 run_two /\ same_setup E50 E51 0 /\
  private_queue E50 0 /\ one_thread E50 0 /\ private_queue E51 0 /\ one_thread E51 0 /\ T1 = h1 ++ r1 /\ T2 = h2 ++ r2 /\
  period E50 w50 0 h1 r1 conf vs1 /\ period E51 w51 0 h2 r2 conf vs2 /\ same_start w50 w51 0 h1 h2 /\
  none_waiting 0 h1 /\ none_waiting 0 (h1 ++ r1) /\ none_waiting 0 h2 /\ none_waiting 0 (h2 ++ r2) /\
  map name_of_view vs1 = ["e1"; "e0"; "e2"; "e1"]%string /\ map name_of_view vs2 = ["e1"; "e0"; "e2"; "e1"]%string /\
  answers (fun _ _ _ => thrown) vs1 /\ answers (fun _ _ _ => thrown) vs2 /\
  map event_of (completed 0 (wk 0) T1) = [(0, Some (EUser 1, 0)); (1, Some (EUser 0, 0)); (2, Some (EUser 2, 0)); (3, Some (EUser 1, 0))] /\
  map event_of (completed 0 (wk 0) T2) = [(0, Some (ECopy 0, 0)); (1, Some (EUser 0, 0)); (0, Some (EUser 2, 0)); (3, Some (ECopy 1, 0))] /\
  map snd vs1 = [ODone 0 0 (Some (XUser 3)); ODone 0 0 (Some (XError 1)); ODone 0 0 (Some (XUser 3)); ODone 0 0 None] /\
  mstate_at 0 T1 = (Some (SEnd 0), true).
Proof.
  cbv zeta. split; [apply after_reach|]. split; [apply after_reach|].
  split; [split; [reflexivity|]; split; [reflexivity|]; split; reflexivity|].
  split; [intros m' H; exact H|]. split; [vm_compute; repeat constructor|]. split; [intros m' H; exact H|]. split; [vm_compute; repeat constructor|].
  split; [vm_compute; reflexivity|]. split; [vm_compute; reflexivity|].
  split.
  { split; [apply calm_ok; vm_compute; reflexivity|]. split; [apply taken_exist_ok; vm_compute; reflexivity|]. split; [apply (demo_conf_same E50 (fun _ => abc)); vm_compute; reflexivity|].
    split; [apply rests_ok; vm_compute; reflexivity|]. split; [apply rests_ok; vm_compute; reflexivity|].
    exists (completed 0 (wk 0) (tr (wm run_one))). split; vm_compute; reflexivity. }
  split.
  { split; [apply calm_ok; vm_compute; reflexivity|]. split; [apply taken_exist_ok; vm_compute; reflexivity|]. split; [apply (demo_conf_same E51 (fun _ => abc)); vm_compute; reflexivity|].
    split; [apply rests_ok; vm_compute; reflexivity|]. split; [apply rests_ok; vm_compute; reflexivity|].
    exists (completed 0 (wk 0) (tr (wm run_two))). split; vm_compute; reflexivity. }
  split; [split; [vm_compute; reflexivity|split; [|vm_compute; reflexivity]]; intros en s; rewrite !acts_same by (vm_compute; reflexivity); reflexivity|].
  split; [vm_compute; reflexivity|]. split; [vm_compute; reflexivity|]. split; [vm_compute; reflexivity|]. split; [vm_compute; reflexivity|].
  split; [vm_compute; reflexivity|]. split; [vm_compute; reflexivity|].
  split; [apply answers_ok; vm_compute; repeat constructor|]. split; [apply answers_ok; vm_compute; repeat constructor|].
  split; [vm_compute; reflexivity|]. split; [vm_compute; reflexivity|]. split; vm_compute; reflexivity.
Qed.

(** With two executor threads two executions of one program that take the same
    events in the same order, undisturbed and without exceptions, can end in different
    states. *)
Theorem C70_more_threads_refuted :
  ~ forall E w0 w1 w2, init_mem E w0 -> reach E w0 w1 -> reach E w0 w2 ->
    forall m h r1 r2, private_queue E m -> tr (wm w1) = h ++ r1 -> tr (wm w2) = h ++ r2 -> calm E m h r1 -> calm E m h r2 ->
      nothing_threw (h ++ r1) -> nothing_threw (h ++ r2) ->
      none_waiting (queue_of E m) (h ++ r1) -> none_waiting (queue_of E m) (h ++ r2) ->
      taken (queue_of E m) (h ++ r1) = taken (queue_of E m) (h ++ r2) ->
      (forall i, i < n_workers E (exec_of E m) -> rests (queue_of E m) (TWorker (exec_of E m) i) h /\
         rests (queue_of E m) (TWorker (exec_of E m) i) (h ++ r1) /\ rests (queue_of E m) (TWorker (exec_of E m) i) (h ++ r2)) ->
      mstate_at m (h ++ r1) = mstate_at m (h ++ r2).
Proof. exact p_C70_more_threads_refuted. Qed.
Print Assumptions C70_more_threads_refuted.
