(** * PropsAppLive.v: the life of an app service: after start() it comes up (C52),
    after stop() it goes down (C53) *)
From Verif Require Import Sched LiveSpec AppLiveSpec AppLive9 Demo8.

(** ** C52: an app service that is started comes up *)
(** When start() of an app service that is left alone has been called, there is a
    moment at which its machine is in STARTED, has not ended, and its subsystems
    were started, each once, in the order of the context, and nothing else was
    done to them.  It stays so as long as nobody calls stop(). *)
Theorem C52_comes_up :
  forall E w0 s p, init_mem E w0 -> app_built E w0 p -> left_alone E w0 s p ->
    served E w0 s (queue_of E (ap_mach (apps E p))) ->
  forall n t, starters_go_on E w0 s p -> In (t, OInv (AAppStart p)) (LiveSpec.history E w0 s n) ->
    exists n1, forall n2, n1 <= n2 -> n2 = n1 \/ (forall t', ~ In (t', OInv (AAppStop p)) (LiveSpec.history E w0 s n2)) ->
      let h := LiveSpec.history E w0 s n2 in
      cur_at (ap_mach (apps E p)) h = Some (SApp p STARTED) /\ ended_at (ap_mach (apps E p)) h = false /\
      subsystem_marks p h = all_started E p.
Proof. exact all_up. Qed.
Print Assumptions C52_comes_up.

(** an exit-on-stop and a restartable app service meet the hypotheses; the
    first 600 steps bring them to STARTED *)
Example C52_example : forall p, In p [1; 2] ->
  init_mem (E24 p) (w24 p) /\ app_built (E24 p) (w24 p) p /\ left_alone (E24 p) (w24 p) (turns p) p /\
  served (E24 p) (w24 p) (turns p) p /\ starters_go_on (E24 p) (w24 p) (turns p) p /\
  In (c0, OInv (AAppStart p)) (h24 p) /\
  cur_at p (LiveSpec.history (E24 p) (w24 p) (turns p) 600) = Some (SApp p STARTED).
Proof.
  intros p Hp. split; [apply demo_init|]. split; [apply built24|]. split; [apply alone24; exact Hp|]. split; [apply served24; exact Hp|].
  split; [apply starters24; exact Hp|]. split; [exact (proj1 (called24 p Hp))|]. destruct Hp as [<-|[<-|[]]]; vm_compute; reflexivity.
Qed.

(** ** C53: an app service that is stopped goes down *)
(** When stop() of an app service that is left alone has returned normally, then
    from some moment on: its subsystems were all started and then all stopped, in
    reverse order, each once; an exit-on-stop app's machine has ended; a
    restartable app's machine is in STOPPED and has not ended. *)
Theorem C53_goes_down :
  forall E w0 s p, init_mem E w0 -> app_built E w0 p -> left_alone E w0 s p ->
    served E w0 s (queue_of E (ap_mach (apps E p))) ->
  forall n t, In (t, ORet (AAppStop p) RvUnit) (LiveSpec.history E w0 s n) ->
    exists n1, forall n2, n1 <= n2 ->
      let h := LiveSpec.history E w0 s n2 in let m := ap_mach (apps E p) in
      cur_at m h = Some (if ap_exit (apps E p) then SEnd m else SApp p STOPPED) /\ ended_at m h = ap_exit (apps E p) /\
      subsystem_marks p h = all_started E p ++ all_stopped E p.
Proof. exact all_down. Qed.
Print Assumptions C53_goes_down.

(** ... and every call of start() of an exit-on-stop app comes to its end. *)
Theorem C53_start_ends :
  forall E w0 s p, init_mem E w0 -> app_built E w0 p -> left_alone E w0 s p ->
    served E w0 s (queue_of E (ap_mach (apps E p))) ->
  forall n t n0 t0 a r, starters_go_on E w0 s p -> ap_exit (apps E p) = true ->
    In (t0, ORet (AAppStop p) RvUnit) (LiveSpec.history E w0 s n0) ->
    LiveSpec.history E w0 s n = a ++ (t, OInv (AAppStart p)) :: r ->
    exists n' b its v d, span t (LiveSpec.history E w0 s n') a (OInv (AAppStart p)) b its (ORet (AAppStart p) v) d.
Proof. exact all_start_ends. Qed.
Print Assumptions C53_start_ends.

(** When start() of an exit-on-stop app returns normally, its subsystems have
    all been started and all been stopped before. *)
Theorem C53_start_waits :
  forall E w0 s p, init_mem E w0 -> app_built E w0 p -> left_alone E w0 s p ->
    served E w0 s (queue_of E (ap_mach (apps E p))) ->
  forall n h t r, ap_exit (apps E p) = true -> LiveSpec.history E w0 s n = h ++ (t, ORet (AAppStart p) RvUnit) :: r ->
    subsystem_marks p h = all_started E p ++ all_stopped E p.
Proof. exact all_start_waits. Qed.
Print Assumptions C53_start_waits.

(** the same two app services, stopped by the second client *)
Example C53_example : forall p, In p [1; 2] ->
  let h := h24 p in
  init_mem (E24 p) (w24 p) /\ app_built (E24 p) (w24 p) p /\ left_alone (E24 p) (w24 p) (turns p) p /\
  served (E24 p) (w24 p) (turns p) p /\ starters_go_on (E24 p) (w24 p) (turns p) p /\
  In (c1, ORet (AAppStop p) RvUnit) h /\
  subsystem_marks p h = flat_map (fun k => called k None) [KSub true p 0; KSub true p 1; KSub false p 1; KSub false p 0] /\
  existsb (fun to => match to with (TClient 0, ORet (AAppStart _) RvUnit) => true | _ => false end) h = Nat.eqb p 1.
Proof.
  intros p Hp. split; [apply demo_init|]. split; [apply built24|]. split; [apply alone24; exact Hp|]. split; [apply served24; exact Hp|].
  split; [apply starters24; exact Hp|]. split; [exact (proj1 (proj2 (called24 p Hp)))|]. split; destruct Hp as [<-|[<-|[]]]; vm_compute; reflexivity.
Qed.
