(** * PropsEffect.v: every accepted event takes effect (C54) *)
From Verif Require Import Sched LiveSpec EffectSpec EffectProofs Demo7 Witness.

(** ** C54: every accepted event takes effect *)
(** A machine with its own queue and one thread is undisturbed from moment n0 on,
    at which it rests.  Whatever was accepted at any moment n, there is a moment
    at which the machine has processed at least that, in the order of acceptance,
    as a run of its configured automaton from its state at n0. *)
Theorem C54_takes_effect :
  forall E w0 s m, init_mem E w0 -> served E w0 s (queue_of E m) -> private_queue E m -> one_thread E m ->
  forall n0 conf, calm_from E w0 s m n0 -> conf_at E w0 (table_of E m) (LiveSpec.history E w0 s n0) conf ->
    rests (queue_of E m) (worker_of E m) (LiveSpec.history E w0 s n0) ->
  forall n, exists n' new, n0 <= n' /\
    took_effect E w0 m conf (LiveSpec.history E w0 s n0) (LiveSpec.history E w0 s n') new /\
    List.length (accepted (queue_of E m) (LiveSpec.history E w0 s n)) <=
      List.length (taken (queue_of E m) (LiveSpec.history E w0 s n0)) + List.length new.
Proof. exact takes_effect. Qed.
Print Assumptions C54_takes_effect.

(** When no event is accepted any more, the machine settles: from some moment on
    its state is the one the automaton reaches by all the accepted events, and
    no event is waiting. *)
Theorem C54_settles :
  forall E w0 s m, init_mem E w0 -> served E w0 s (queue_of E m) -> private_queue E m -> one_thread E m ->
  forall n0 conf, calm_from E w0 s m n0 -> conf_at E w0 (table_of E m) (LiveSpec.history E w0 s n0) conf ->
    rests (queue_of E m) (worker_of E m) (LiveSpec.history E w0 s n0) ->
  forall n, (forall n', n <= n' -> accepted (queue_of E m) (LiveSpec.history E w0 s n') = accepted (queue_of E m) (LiveSpec.history E w0 s n)) ->
    exists n1, forall n2, n1 <= n2 -> exists new,
      took_effect E w0 m conf (LiveSpec.history E w0 s n0) (LiveSpec.history E w0 s n2) new /\
      accepted (queue_of E m) (LiveSpec.history E w0 s n2) = taken (queue_of E m) (LiveSpec.history E w0 s n0) ++ map event_of new.
Proof. exact settles. Qed.
Print Assumptions C54_settles.

(** the two clients of C51_example; from step 50 on, when start() has returned
    and one event is waiting; callbacks throw exceptions and an Error *)
Example C54_example :
  init_mem E22 w22 /\ served E22 w22 three 0 /\ private_queue E22 0 /\ one_thread E22 0 /\ calm_from E22 w22 three 0 50 /\
  conf_at E22 w22 0 (LiveSpec.history E22 w22 three 50) (demo_conf E22 w22 0 abc (LiveSpec.history E22 w22 three 50)) /\
  rests 0 (wk 0) (LiveSpec.history E22 w22 three 50) /\
  (forall n', end22 <= n' -> accepted 0 (LiveSpec.history E22 w22 three n') = accepted 0 (LiveSpec.history E22 w22 three end22)) /\
  taken 0 (LiveSpec.history E22 w22 three 50) = [] /\
  map (fun pc => option_map fst (snd pc)) (accepted 0 (LiveSpec.history E22 w22 three end22)) = map Some [EUser 1; EUser 0; EUser 2; EUser 1] /\
  mstate_at 0 (LiveSpec.history E22 w22 three 50) = (Some (SUser 0), false) /\
  mstate_at 0 (LiveSpec.history E22 w22 three end22) = (Some (SUser 2), false).
Proof.
  split; [apply demo_init|]. split; [exact served22|]. split; [intros m' H; exact H|]. split; [vm_compute; repeat constructor|].
  split; [|split; [apply demo_conf_at|split; [apply rests_ok; vm_compute; reflexivity|split; [|vm_compute; auto]]]].
  - intros n r HT. assert (Hall : calm E22 0 (LiveSpec.history E22 w22 three 50) (skipn (List.length (LiveSpec.history E22 w22 three 50)) (LiveSpec.history E22 w22 three end22))).
    { apply calm_ok. vm_compute. reflexivity. }
    assert (Hin : forall x, In x r -> In x (skipn (List.length (LiveSpec.history E22 w22 three 50)) (LiveSpec.history E22 w22 three end22))).
    { intros x Hx. assert (Hf : exists r2, LiveSpec.history E22 w22 three end22 = LiveSpec.history E22 w22 three n ++ r2).
      { destruct (Nat.le_ge_cases n end22) as [H|H]; [exact (Live.history_le _ _ _ _ _ H)|]. exists []. rewrite app_nil_r. unfold LiveSpec.history. rewrite (stays _ _ _ _ quiet22 n H). reflexivity. }
      destruct Hf as [r2 ->]. rewrite HT, <- app_assoc, skipn_app, skipn_all, Nat.sub_diag. simpl. apply in_or_app. left. exact Hx. }
    intros t x Hd. destruct (Hall t x Hd) as [H1 H2]. split; [intro Hi; exact (H1 (Hin _ Hi))|exact H2].
  - intros n' Hn. unfold LiveSpec.history. rewrite (stays _ _ _ _ quiet22 n' Hn). reflexivity.
Qed.
