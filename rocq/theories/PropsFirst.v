(** * PropsFirst.v: the default flow listener (C57), the start() that starts an
    app service, interruption (C58) *)
From Verif Require Import Sched FirstSpec FirstProofs Demo13 Witness.

(** ** C57: the default flow listener logs one line and nothing else *)
(** A call of the default UnexpectedFlowListener, about an exception, about an
    event after the end or before the start of a machine, returns normally and its
    only effect is one line, with the name of the event and, for an exception, the
    current state of the machine, as they are at moments of the call. *)
Theorem C57_default_flow_listener :
  forall E w0 w, init_mem E w0 -> reach E w0 w ->
  forall c e m t a b its d x, default_flow c e m -> span t (tr (wm w)) a (OCall c) b its (OBack c x) d ->
    x = None /\ exists h1 h2, during t a (OCall c) b h1 /\ during t a (OCall c) b h2 /\ upto h1 h2 /\
      shown its = [OLog (flow_line E (name_at E w0 e h1) c (cur_at m h2))].
Proof. exact default_ok. Qed.
Print Assumptions C57_default_flow_listener.
Example C57_default_flow_listener_example :
  let T := tr (wm run29) in
  init_mem E29 w29 /\ reach E29 w29 run29 /\
  (let c := KUflBeforeStart FDefault (EUser 0) 0 in spans c2 T 2 5 (OCall c) (OBack c None)) /\
  (let c := KUflExn FDefault (EUser 0) 0 (XUser 1) in spans (wk 0) T 48 52 (OCall c) (OBack c None) /\
     flow_line E29 (name_at E29 w29 (EUser 0) (part 0 49 T)) c (cur_at 0 (part 0 49 T)) =
     "Unhandled exception while processing event NamedStateEvent[e0] while in state NamedState[B]"%string) /\
  (let c := KUflAfterEnd FDefault (EUser 1) 0 in spans c2 T 65 68 (OCall c) (OBack c None)).
Proof.
  cbv zeta. split; [apply demo_init|]. split; [apply after_reach|]. split; [sp|]. split; [split; [sp|vm_compute; reflexivity]|]. sp.
Qed.

(** ** C58: the start() that starts an app service *)
(** The call of start() that starts the machine of an app service: the machine comes
    up in its initial state (its listener is told, the entry actions of the state
    run); the event that starts the subsystems is fired; then the thread waits until
    the latch is released or it is interrupted.  In the second case that is logged,
    and the thread is interrupted again afterwards.  In both cases a machine that has
    not ended then is stopped, as by stop(), and start() returns or throws what that
    did.  An exception of one step ends the call with that exception. *)
Theorem C58_first_start :
  forall E w0 w, init_mem E w0 -> reach E w0 w ->
  forall p t a b its v d, span t (tr (wm w)) a (OInv (AAppStart p)) b its (ORet (AAppStart p) v) d ->
    In (OStarted (ap_mach (apps E p))) its ->
    exists x, v = outcome x /\ first_start E w0 p t a (OInv (AAppStart p)) b x (shown its).
Proof. exact first_ok. Qed.
Print Assumptions C58_first_start.
Example C58_first_start_example :
  let T := tr (wm run29) in
  init_mem E29 w29 /\ reach E29 w29 run29 /\
  (spans c0 T 70 179 (OInv (AAppStart 2)) (ORet (AAppStart 2) RvUnit) /\ In (OStarted 2) (items c0 (part 71 179 T)) /\ restartable E29 2 /\
   In (OLog "Main latch was interrupted") (items c0 (part 71 179 T)) /\ ended_at 2 (part 0 167 T) = false /\ app_state E29 2 (part 0 168 T) = Some "STARTED"%string /\
   app_state E29 2 (part 0 247 T) = Some "STOPPED"%string) /\
  (spans c3 T 247 452 (OInv (AAppStart 1)) (ORet (AAppStart 1) RvUnit) /\ In (OStarted 1) (items c3 (part 248 452 T)) /\ ~ restartable E29 1 /\
   released 1 (part 0 450 T) /\ ended_at 1 (part 0 451 T) = true).
Proof.
  cbv zeta. split; [apply demo_init|]. split; [apply after_reach|]. split.
  - split; [sp|]. split; [find_in|]. split; [reflexivity|]. split; [find_in|]. split; [vm_compute; reflexivity|]. split; vm_compute; reflexivity.
  - split; [sp|]. split; [find_in|]. split; [discriminate|]. split; [exists (wk 1); find_in|vm_compute; reflexivity].
Qed.

(** start() logs that it was interrupted only if its thread was interrupted at a
    moment of the call, for which somebody had called interrupt() of that thread. *)
Theorem C58_interrupted :
  forall E w0 w, init_mem E w0 -> reach E w0 w ->
  forall p t a b its v d, span t (tr (wm w)) a (OInv (AAppStart p)) b its (ORet (AAppStart p) v) d ->
    In (OLog "Main latch was interrupted") its ->
    exists n h, t = TClient n /\ during t a (OInv (AAppStart p)) b h /\ interrupted_at w0 n h = true /\
      (intrs w0 n = false -> exists t', In (t', OInv (AInterrupt n)) h).
Proof. exact interrupted_start. Qed.
Print Assumptions C58_interrupted.
(** interrupt() returns normally, has no other effect that can be seen, and the
    thread is interrupted at a moment of the call. *)
Theorem C58_interrupt :
  forall E w0 w, init_mem E w0 -> reach E w0 w ->
  forall n t a b its v d, span t (tr (wm w)) a (OInv (AInterrupt n)) b its (ORet (AInterrupt n) v) d ->
    v = RvUnit /\ shown its = [] /\ exists h, during t a (OInv (AInterrupt n)) b h /\ interrupted_at w0 n h = true.
Proof. exact interrupt_ok. Qed.
Print Assumptions C58_interrupt.
Example C58_interrupted_example :
  let T := tr (wm run29) in
  init_mem E29 w29 /\ reach E29 w29 run29 /\
  spans c0 T 70 179 (OInv (AAppStart 2)) (ORet (AAppStart 2) RvUnit) /\ In (OLog "Main latch was interrupted") (items c0 (part 71 179 T)) /\
  intrs w29 0 = false /\ interrupted_at w29 0 (part 0 162 T) = false /\ interrupted_at w29 0 (part 0 164 T) = true /\ interrupted_at w29 0 (part 0 166 T) = false /\
  interrupted_at w29 0 T = true /\
  spans c1 T 161 163 (OInv (AInterrupt 0)) (ORet (AInterrupt 0) RvUnit).
Proof.
  cbv zeta. split; [apply demo_init|]. split; [apply after_reach|]. split; [sp|]. split; [find_in|]. do 5 (split; [vm_compute; reflexivity|]). sp.
Qed.
