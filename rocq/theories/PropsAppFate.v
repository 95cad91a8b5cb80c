(** * PropsAppFate.v: the life of an app service one of whose subsystems cannot be
    started, or cannot be stopped (C60) *)
From Verif Require Import Sched LiveSpec AppLiveSpec AppLive9 Demo15.

(** ** C60: an app service with a subsystem that fails *)
(** When start() of an app service has been called, one of whose subsystems never
    starts, then from some moment on: the subsystems were started in the order
    of the context, each once, up to one that threw, and nothing else was done
    to them, in particular none was stopped; an exit-on-stop app's machine has
    ended; a restartable app's machine is in STOPPED and has not ended. *)
Theorem C60_failed_start :
  forall E w0 s p, init_mem E w0 -> app_built E w0 p -> left_to_fate E w0 s p NoStart ->
    served E w0 s (queue_of E (ap_mach (apps E p))) ->
  forall n t, starters_go_on E w0 s p -> In (t, OInv (AAppStart p)) (LiveSpec.history E w0 s n) ->
    exists n1 l, broken_off E p true l /\ forall n2, n1 <= n2 ->
      let h := LiveSpec.history E w0 s n2 in let m := ap_mach (apps E p) in
      cur_at m h = Some (if ap_exit (apps E p) then SEnd m else SApp p STOPPED) /\ ended_at m h = ap_exit (apps E p) /\
      subsystem_marks p h = l.
Proof. exact no_start_down. Qed.
Print Assumptions C60_failed_start.

(** Every call of start() of an exit-on-stop app comes to its end then, although
    nobody calls stop(); ... *)
Theorem C60_failed_start_ends :
  forall E w0 s p, init_mem E w0 -> app_built E w0 p -> left_to_fate E w0 s p NoStart ->
    served E w0 s (queue_of E (ap_mach (apps E p))) ->
  forall n t a r, starters_go_on E w0 s p -> ap_exit (apps E p) = true ->
    LiveSpec.history E w0 s n = a ++ (t, OInv (AAppStart p)) :: r ->
    exists n' b its v d, span t (LiveSpec.history E w0 s n') a (OInv (AAppStart p)) b its (ORet (AAppStart p) v) d.
Proof. exact no_start_ends. Qed.
Print Assumptions C60_failed_start_ends.

(** ... and when it returns normally, this does not mean that the app service ran:
    one of its subsystems threw before. *)
Theorem C60_failed_start_waits :
  forall E w0 s p, init_mem E w0 -> app_built E w0 p -> left_to_fate E w0 s p NoStart ->
    served E w0 s (queue_of E (ap_mach (apps E p))) ->
  forall n h t r, ap_exit (apps E p) = true -> LiveSpec.history E w0 s n = h ++ (t, ORet (AAppStart p) RvUnit) :: r ->
    broken_off E p true (subsystem_marks p h).
Proof. exact no_start_waits. Qed.
Print Assumptions C60_failed_start_waits.

(** An app service whose subsystems start, but one of which never stops, comes up
    as any other. *)
Theorem C60_failed_stop_comes_up :
  forall E w0 s p, init_mem E w0 -> app_built E w0 p -> left_to_fate E w0 s p NoStop ->
    served E w0 s (queue_of E (ap_mach (apps E p))) ->
  forall n t, starters_go_on E w0 s p -> In (t, OInv (AAppStart p)) (LiveSpec.history E w0 s n) ->
    exists n1, forall n2, n1 <= n2 -> n2 = n1 \/ (forall t', ~ In (t', OInv (AAppStop p)) (LiveSpec.history E w0 s n2)) ->
      let h := LiveSpec.history E w0 s n2 in
      cur_at (ap_mach (apps E p)) h = Some (SApp p STARTED) /\ ended_at (ap_mach (apps E p)) h = false /\
      subsystem_marks p h = all_started E p.
Proof. exact no_stop_up. Qed.
Print Assumptions C60_failed_stop_comes_up.

(** When stop() of it has returned normally, then from some moment on: the
    subsystems were all started and then stopped, in reverse order, up to one
    that threw; the other ones were not stopped; an exit-on-stop app's machine
    has ended all the same; a restartable app's machine is in STOPPED. *)
Theorem C60_failed_stop :
  forall E w0 s p, init_mem E w0 -> app_built E w0 p -> left_to_fate E w0 s p NoStop ->
    served E w0 s (queue_of E (ap_mach (apps E p))) ->
  forall n t, In (t, ORet (AAppStop p) RvUnit) (LiveSpec.history E w0 s n) ->
    exists n1 l, broken_off E p false l /\ forall n2, n1 <= n2 ->
      let h := LiveSpec.history E w0 s n2 in let m := ap_mach (apps E p) in
      cur_at m h = Some (if ap_exit (apps E p) then SEnd m else SApp p STOPPED) /\ ended_at m h = ap_exit (apps E p) /\
      subsystem_marks p h = all_started E p ++ l.
Proof. exact no_stop_down. Qed.
Print Assumptions C60_failed_stop.

(** ... and every call of start() of an exit-on-stop app comes to its end. *)
Theorem C60_failed_stop_start_ends :
  forall E w0 s p, init_mem E w0 -> app_built E w0 p -> left_to_fate E w0 s p NoStop ->
    served E w0 s (queue_of E (ap_mach (apps E p))) ->
  forall n t n0 t0 a r, starters_go_on E w0 s p -> ap_exit (apps E p) = true ->
    In (t0, ORet (AAppStop p) RvUnit) (LiveSpec.history E w0 s n0) ->
    LiveSpec.history E w0 s n = a ++ (t, OInv (AAppStart p)) :: r ->
    exists n' b its v d, span t (LiveSpec.history E w0 s n') a (OInv (AAppStart p)) b its (ORet (AAppStart p) v) d.
Proof. exact no_stop_ends. Qed.
Print Assumptions C60_failed_stop_start_ends.

(** When start() of it returns normally, the subsystems have been started, and
    stopped up to the one that threw. *)
Theorem C60_failed_stop_start_waits :
  forall E w0 s p, init_mem E w0 -> app_built E w0 p -> left_to_fate E w0 s p NoStop ->
    served E w0 s (queue_of E (ap_mach (apps E p))) ->
  forall n h t r, ap_exit (apps E p) = true -> LiveSpec.history E w0 s n = h ++ (t, ORet (AAppStart p) RvUnit) :: r ->
    exists l, subsystem_marks p h = all_started E p ++ l /\ broken_off E p false l.
Proof. exact no_stop_waits. Qed.
Print Assumptions C60_failed_stop_start_waits.

(** an exit-on-stop and a restartable app service, both ways, meet the
    hypotheses; this is what happens to their subsystems, and start() of the
    exit-on-stop app returns *)
Example C60_example : forall f p, In f [NoStart; NoStop] -> In p [1; 2] ->
  init_mem (E34 f p) (w34 f p) /\ app_built (E34 f p) (w34 f p) p /\ left_to_fate (E34 f p) (w34 f p) (turns p) p f /\
  served (E34 f p) (w34 f p) (turns p) p /\ starters_go_on (E34 f p) (w34 f p) (turns p) p /\
  In (c0, OInv (AAppStart p)) (h34 f p) /\
  subsystem_marks p (h34 f p) = match f with
    | NoStop => all_started (E34 f p) p ++ called (KSub false p 1) None ++ called (KSub false p 0) (Some (XUser 1))
    | _ => called (KSub true p 0) None ++ called (KSub true p 1) (Some (XUser 1))
    end /\
  existsb (fun to => match to with (TClient 1, ORet (AAppStop _) RvUnit) => true | _ => false end) (h34 NoStop p) = true /\
  existsb (fun to => match to with (TClient 0, ORet (AAppStart _) RvUnit) => true | _ => false end) (h34 f 1) = true.
Proof.
  intros f p Hf Hp. split; [apply demo_init|]. split; [apply built34|]. split; [apply fate34; assumption|]. split; [apply served34; assumption|].
  split; [apply starters34; assumption|]. split; [apply (nth_error_In _ 0); destruct Hf as [<-|[<-|[]]]; destruct Hp as [<-|[<-|[]]]; vm_compute; reflexivity|].
  destruct Hf as [<-|[<-|[]]]; destruct Hp as [<-|[<-|[]]]; repeat split; vm_compute; reflexivity.
Qed.
