(** * PropsError.v: theorems of C67 (error() of an app service) *)
From Verif Require Import Sched LiveSpec Live ErrorSpec OwnSpec Spec ErrorProofs3 ErrorProofs4 Demo19 Witness AppFailProofs ErrorRefute.

(** What an app service does with an event: once it has left UNINITIALISED, an event
    that its thread takes is one of its four lifecycle events, and processing it moves
    the machine along the transition table [life_step], whatever the subsystems do,
    and whoever calls start(), stop() and error() when.  An ended machine stays as it is. *)
Theorem C67_each_event :
  forall E w0 w p, init_mem E w0 -> reach E w0 w -> app_built E w0 p -> only_through_app E p (tr (wm w)) ->
  forall t pr c a b its z d, span t (tr (wm w)) a (OTake (queue_of E (ap_mach (apps E p))) pr c) b its z d -> left_init E p a ->
    exists l k, c = Some (ELife l, ap_mach (apps E p)) /\ is_in E p k a /\
      is_in E p (match k with Some k => life_step k l | None => None end) (a ++ (t, OTake (queue_of E (ap_mach (apps E p))) pr c) :: b ++ [(t, z)]).
Proof. exact p_C67_each_event. Qed.
Print Assumptions C67_each_event.
(** the error event, taken in STARTED; for the exit-on-stop app also the stop event, taken in STOPPED *)
Example C67_each_event_example :
  init_mem (E47 1) (w47 1) /\ reach (E47 1) (w47 1) (moment (E47 1) (w47 1) (turns 1) 2000) /\ app_built (E47 1) (w47 1) 1 /\
  only_through_app (E47 1) 1 (h47 1) /\
  spans (wk 1) (h47 1) 135 182 (OTake 1 0 (Some (ELife LError, 1))) (ODone 1 0 None) /\ left_init (E47 1) 1 (part 0 135 (h47 1)) /\
  is_in (E47 1) 1 (Some STARTED) (part 0 135 (h47 1)) /\ is_in (E47 1) 1 (Some STOPPED) (part 0 183 (h47 1)) /\
  spans (wk 1) (h47 1) 184 212 (OTake 1 1 (Some (ELife LStop, 1))) (ODone 1 1 None) /\
  is_in (E47 1) 1 None (part 0 213 (h47 1)).
Proof.
  split; [apply demo_init|]. split; [apply moment_reach|]. split; [apply built47; simpl; auto|]. split; [apply only47; simpl; auto|].
  split; [sp|]. split; [eexists; split; [vm_compute; reflexivity|discriminate]|]. split; [vm_compute; reflexivity|]. split; [vm_compute; reflexivity|].
  split; [sp|]. vm_compute; reflexivity.
Qed.

(** error() stops the app: called after the app has left UNINITIALISED, sooner or
    later the machine is, with no event being processed, in STOPPED or ended in
    _END_ - also if it is called while subsystems are being started or stopped,
    together with other start(), stop() and error(), and if subsystems throw. *)
Theorem C67_error_stops :
  forall E p w0 s, init_mem E w0 -> app_built E w0 p -> served E w0 s (queue_of E (ap_mach (apps E p))) ->
  (forall n, only_through_app E p (LiveSpec.history E w0 s n)) ->
  forall t n a r, goes_on E w0 s t -> LiveSpec.history E w0 s n = a ++ (t, OInv (AAppError p)) :: r -> left_init E p a ->
    exists n' h r', LiveSpec.history E w0 s n' = h ++ r' /\ upto (a ++ [(t, OInv (AAppError p))]) h /\
      rests (queue_of E (ap_mach (apps E p))) (worker_of E (ap_mach (apps E p))) h /\ (is_stopped E p h \/ is_over E p h).
Proof. exact p_C67_error_stops. Qed.
Print Assumptions C67_error_stops.
(** an app that can be restarted (2) ends up in STOPPED, one that exits on stop (1) in _END_ *)
Example C67_error_stops_example :
  (forall p, In p [1; 2] -> init_mem (E47 p) (w47 p) /\ app_built (E47 p) (w47 p) p /\ served (E47 p) (w47 p) (turns p) p /\
    (forall n, only_through_app (E47 p) p (LiveSpec.history (E47 p) (w47 p) (turns p) n)) /\ goes_on (E47 p) (w47 p) (turns p) c1) /\
  h47 1 = part 0 121 (h47 1) ++ (c1, OInv (AAppError 1)) :: part 122 1000 (h47 1) /\ left_init (E47 1) 1 (part 0 121 (h47 1)) /\
  is_over (E47 1) 1 (h47 1) /\
  h47 2 = part 0 121 (h47 2) ++ (c1, OInv (AAppError 2)) :: part 122 1000 (h47 2) /\ left_init (E47 2) 2 (part 0 121 (h47 2)) /\
  is_stopped (E47 2) 2 (h47 2).
Proof.
  split; [intros p Hp; split; [apply demo_init|]; split; [exact (built47 p)|]; split; [exact (served47 p Hp)|]; split; [exact (only47 p Hp)|exact (goes47 p Hp)]|].
  split; [vm_compute; reflexivity|]. split; [eexists; split; [vm_compute; reflexivity|discriminate]|]. split; [vm_compute; reflexivity|].
  split; [vm_compute; reflexivity|]. split; [eexists; split; [vm_compute; reflexivity|discriminate]|]. vm_compute; reflexivity.
Qed.

(** An app that exits on stop ends: sooner or later its machine is in _END_ and the
    main latch is released. *)
Theorem C67_error_ends :
  forall E p w0 s, init_mem E w0 -> app_built E w0 p -> served E w0 s (queue_of E (ap_mach (apps E p))) ->
  (forall n, only_through_app E p (LiveSpec.history E w0 s n)) -> ap_exit (apps E p) = true ->
  forall t n a r, goes_on E w0 s t -> LiveSpec.history E w0 s n = a ++ (t, OInv (AAppError p)) :: r -> left_init E p a ->
    exists n' h r', LiveSpec.history E w0 s n' = h ++ r' /\ upto (a ++ [(t, OInv (AAppError p))]) h /\
      rests (queue_of E (ap_mach (apps E p))) (worker_of E (ap_mach (apps E p))) h /\ is_over E p h /\ app_released p h.
Proof. exact p_C67_error_ends. Qed.
Print Assumptions C67_error_ends.
(** ... so that the threads that wait in start() return. *)
Theorem C67_start_returns :
  forall E p w0 s, init_mem E w0 -> app_built E w0 p -> served E w0 s (queue_of E (ap_mach (apps E p))) ->
  (forall n, only_through_app E p (LiveSpec.history E w0 s n)) -> ap_exit (apps E p) = true ->
  forall t n a r, goes_on E w0 s t -> LiveSpec.history E w0 s n = a ++ (t, OInv (AAppError p)) :: r -> left_init E p a ->
  forall t2 n2 a2 r2, fair s t2 -> no_runaway E w0 s t2 -> (forall n' p', In (t2, OInv (AAppStart p')) (LiveSpec.history E w0 s n') -> p' = p) ->
    LiveSpec.history E w0 s n2 = a2 ++ (t2, OInv (AAppStart p)) :: r2 ->
    exists n' b its v d, span t2 (LiveSpec.history E w0 s n') a2 (OInv (AAppStart p)) b its (ORet (AAppStart p) v) d.
Proof. exact p_C67_start_returns. Qed.
Print Assumptions C67_start_returns.
Example C67_error_ends_example :
  init_mem (E47 1) (w47 1) /\ app_built (E47 1) (w47 1) 1 /\ served (E47 1) (w47 1) (turns 1) 1 /\
  (forall n, only_through_app (E47 1) 1 (LiveSpec.history (E47 1) (w47 1) (turns 1) n)) /\ goes_on (E47 1) (w47 1) (turns 1) c1 /\
  ap_exit (apps (E47 1) 1) = true /\ fair (turns 1) c0 /\ no_runaway (E47 1) (w47 1) (turns 1) c0 /\
  (forall n' p', In (c0, OInv (AAppStart p')) (LiveSpec.history (E47 1) (w47 1) (turns 1) n') -> p' = 1) /\
  h47 1 = part 0 121 (h47 1) ++ (c1, OInv (AAppError 1)) :: part 122 1000 (h47 1) /\ left_init (E47 1) 1 (part 0 121 (h47 1)) /\
  spans c0 (h47 1) 0 174 (OInv (AAppStart 1)) (ORet (AAppStart 1) RvUnit) /\ is_over (E47 1) 1 (h47 1) /\ app_released 1 (h47 1).
Proof.
  assert (Hp : In 1 [1; 2]) by (simpl; auto).
  split; [apply demo_init|]. split; [exact (built47 1)|]. split; [exact (served47 1 Hp)|]. split; [exact (only47 1 Hp)|]. split; [exact (goes47 1 Hp)|].
  split; [reflexivity|]. split; [apply turns_fair; simpl; auto|]. split; [apply (run47 1 Hp)|].
  split; [intros n' p' Hin; destruct (invs47 1 Hp _ _ _ Hin) as [[_ X]|[X _]]; [congruence|discriminate]|].
  split; [vm_compute; reflexivity|]. split; [eexists; split; [vm_compute; reflexivity|discriminate]|]. split; [sp|].
  split; [vm_compute; reflexivity|]. exists (wk 1). apply (nth_error_In _ 167). vm_compute. reflexivity.
Qed.

(** *** Errors that get lost *)
(** An error reported when the machine is started, but has not left UNINITIALISED:
    all events are processed and the app runs. *)
Theorem C67_error_while_initialising_refuted :
  ~ forall E w0 w p, init_mem E w0 -> reach E w0 w -> app_built E w0 p -> only_through_app E p (tr (wm w)) ->
    forall t a b its d, span t (tr (wm w)) a (OInv (AAppError p)) b its (ORet (AAppError p) RvUnit) d -> started_at (ap_mach (apps E p)) a = true ->
      let q := queue_of E (ap_mach (apps E p)) in
      accepted q (tr (wm w)) = taken q (tr (wm w)) -> rests q (worker_of E (ap_mach (apps E p))) (tr (wm w)) ->
      is_stopped E p (tr (wm w)) \/ is_over E p (tr (wm w)).
Proof. exact p_C67_error_while_initialising_refuted. Qed.
Print Assumptions C67_error_while_initialising_refuted.
(** A listener that throws when it is told that the transition to STOPPED begins. *)
Theorem C67_error_with_throwing_listener_refuted :
  ~ forall E w0 w p, init_mem E w0 -> reach E w0 w -> app_built E w0 p -> (forall t x, In (t, OInv x) (tr (wm w)) -> ~ touches E p x) ->
    forall t a b its d, span t (tr (wm w)) a (OInv (AAppError p)) b its (ORet (AAppError p) RvUnit) d -> left_init E p a ->
      let q := queue_of E (ap_mach (apps E p)) in
      accepted q (tr (wm w)) = taken q (tr (wm w)) -> rests q (worker_of E (ap_mach (apps E p))) (tr (wm w)) ->
      is_stopped E p (tr (wm w)) \/ is_over E p (tr (wm w)).
Proof. exact p_C67_error_with_throwing_listener_refuted. Qed.
Print Assumptions C67_error_with_throwing_listener_refuted.
(** how these two executions end *)
Example C67_refuted_example :
  mstate_at 2 (tr (wm (run48 22))) = (Some (SApp 2 STARTED), false) /\ mstate_at 2 (tr (wm run49)) = (Some (SApp 2 STARTED), false) /\
  is_stopped E48 2 (tr (wm (run48 23))).
Proof. split; [vm_compute; reflexivity|]. split; vm_compute; reflexivity. Qed.
