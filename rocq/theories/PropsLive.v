(** * PropsLive.v: progress: only start() of an app service blocks, what is begun
    is finished (C50), what is accepted is processed (C51) *)
From Verif Require Import Sched LiveSpec LiveProofs2 Demo7.

(** ** C50: no deadlock, and what is begun is finished *)
(** A thread that cannot make a step is inside no call of the API, no callback
    and no processing of an event, or it is inside start() of an app service
    that may not terminate yet. *)
Theorem C50_only_start_blocks :
  forall E w0 w t, init_mem E w0 -> reach E w0 w -> step E w t = None ->
    at_rest t (tr (wm w)) \/
    exists p its st, fst (scan t (tr (wm w))) = (FApi (AAppStart p), its) :: st /\ ~ app_released p (tr (wm w)).
Proof. exact p_C50_only_start_blocks. Qed.
Print Assumptions C50_only_start_blocks.

(** In an endless execution in which thread t gets its turn again and again, its
    callbacks do not nest without end and the app services it starts may
    terminate some time, every API call, callback and processing of an event
    that t begins comes to its end, whatever the other threads do. *)
Theorem C50_begun_is_finished :
  forall E w0 s t, init_mem E w0 -> goes_on E w0 s t ->
  forall n a op r, history E w0 s n = a ++ (t, op) :: r -> opens op <> None ->
    exists n' b its z d, n <= n' /\ span t (history E w0 s n') a op b its z d /\ ends_with op z.
Proof. exact p_C50_begun_is_finished. Qed.
Print Assumptions C50_begun_is_finished.

(** ... and a client thread comes to the end of its program. *)
Theorem C50_client_comes_to_its_end :
  forall E w0 s c, init_mem E w0 -> goes_on E w0 s (TClient c) ->
    exists n, at_rest (TClient c) (history E w0 s n) /\
      forall n', n <= n' -> thread_obs (TClient c) (history E w0 s n') = thread_obs (TClient c) (history E w0 s n).
Proof. exact p_C50_client_comes_to_its_end. Qed.
Print Assumptions C50_client_comes_to_its_end.

(** two clients and a worker in turn; the worker's first task is killed by an
    Error in an entry action while it processes e0 *)
Example C50_example :
  goes_on E22 w22 three c0 /\ goes_on E22 w22 three c1 /\ goes_on E22 w22 three (wk 0) /\
  In (wk 0, OTake 0 1 (Some (EUser 0, 0))) (history E22 w22 three 300) /\
  In (wk 0, OUncaught {| tk_strat := 0; tk_mach := 0 |} (XError 1)) (history E22 w22 three 300) /\
  In (c0, OInv (AFire 0 (EUser 1))) (history E22 w22 three 300).
Proof.
  split; [apply goes22; simpl; auto|]. split; [apply goes22; simpl; auto|]. split; [apply goes22; simpl; auto|].
  split; [apply (nth_error_In _ 70); vm_compute; reflexivity|]. split; [apply (nth_error_In _ 101); vm_compute; reflexivity|].
  apply (nth_error_In _ 63); vm_compute; reflexivity.
Qed.

(** ** C51: what is accepted is processed *)
(** When the executors of the machines with queue q serve only q, have a thread,
    are never shut down and their threads go on, every event accepted into q is
    taken out of it, in its turn, by a thread of one of these executors, and its
    processing comes to an end. *)
Theorem C51_accepted_is_processed :
  forall E w0 s q, init_mem E w0 -> served E w0 s q ->
  forall n a t p e m e' m' r, history E w0 s n = a ++ (t, OOffer q p e m e' m') :: r ->
    exists n' x i a' b its z d, serves E x q /\
      span (TWorker x i) (history E w0 s n') a' (OTake q p (Some (e', m'))) b its z d /\
      ends_with (OTake q p (Some (e', m'))) z /\
      List.length (taken q a') = List.length (accepted q a).
Proof. exact p_C51_accepted_is_processed. Qed.
Print Assumptions C51_accepted_is_processed.

(** the same execution: e2 is accepted before the first task is killed *)
Example C51_example :
  served E22 w22 three 0 /\
  nth_error (history E22 w22 three 300) 64 = Some (c1, OOffer 0 2 (EUser 2) 0 (EUser 2) 0) /\
  nth_error (history E22 w22 three 300) 101 = Some (wk 0, OUncaught {| tk_strat := 0; tk_mach := 0 |} (XError 1)) /\
  map fst (taken 0 (firstn 101 (history E22 w22 three 300))) = [0; 1].
Proof. split; [exact served22|]. vm_compute. auto. Qed.
