(** * PropsAppAgain.v: the life of a restartable app service that is started and
    stopped again and again (C61) *)
From Verif Require Import Sched LiveSpec AppLiveSpec AppLive10 Demo16.

(** ** C61: a restartable app service, started and stopped again and again *)
(** The first start() brings the app service up; it stays up until stop() or
    start() is called again. *)
Theorem C61_comes_up :
  forall E w0 s p, init_mem E w0 -> app_built E w0 p -> asked_in_turn E w0 s p ->
    served E w0 s (queue_of E (ap_mach (apps E p))) ->
  forall n t, starters_go_on E w0 s p -> In (t, OInv (AAppStart p)) (LiveSpec.history E w0 s n) ->
    exists n1, forall n2, n1 <= n2 -> n2 = n1 \/ asked (asks_p p) (LiveSpec.history E w0 s n2) <= 1 ->
      let h := LiveSpec.history E w0 s n2 in
      cur_at (ap_mach (apps E p)) h = Some (SApp p STARTED) /\ ended_at (ap_mach (apps E p)) h = false /\
      subsystem_marks p h = all_started E p.
Proof. exact first_up. Qed.
Print Assumptions C61_comes_up.

(** stop() that returned returned normally, and brings it down: from some moment
    on until the next call, its machine is in STOPPED and has not ended, and all
    that was ever done to the subsystems is: all started, all stopped in reverse
    order, once for each stop() so far. *)
Theorem C61_goes_down :
  forall E w0 s p, init_mem E w0 -> app_built E w0 p -> asked_in_turn E w0 s p ->
    served E w0 s (queue_of E (ap_mach (apps E p))) ->
  forall t n a b its v d, span t (LiveSpec.history E w0 s n) a (OInv (AAppStop p)) b its (ORet (AAppStop p) v) d ->
    v = RvUnit /\
    exists n1, forall n2, n1 <= n2 -> n2 = n1 \/ asked (asks_p p) (LiveSpec.history E w0 s n2) <= S (asked (asks_p p) a) ->
      let h := LiveSpec.history E w0 s n2 in
      cur_at (ap_mach (apps E p)) h = Some (SApp p STOPPED) /\ ended_at (ap_mach (apps E p)) h = false /\
      subsystem_marks p h = rounds E p (S (asked (stops_p p) a)).
Proof. exact again_down. Qed.
Print Assumptions C61_goes_down.

(** start() that is not the first one and returned, returned normally, and brings
    it up again: from some moment on until the next call its machine is in
    STARTED and has not ended; after the rounds so far the subsystems were all
    started again, each once, in the order of the context. *)
Theorem C61_comes_up_again :
  forall E w0 s p, init_mem E w0 -> app_built E w0 p -> asked_in_turn E w0 s p ->
    served E w0 s (queue_of E (ap_mach (apps E p))) ->
  forall t n a b its v d, span t (LiveSpec.history E w0 s n) a (OInv (AAppStart p)) b its (ORet (AAppStart p) v) d ->
    0 < asked (starts_p p) a ->
    v = RvUnit /\
    exists n1, forall n2, n1 <= n2 -> n2 = n1 \/ asked (asks_p p) (LiveSpec.history E w0 s n2) <= S (asked (asks_p p) a) ->
      let h := LiveSpec.history E w0 s n2 in
      cur_at (ap_mach (apps E p)) h = Some (SApp p STARTED) /\ ended_at (ap_mach (apps E p)) h = false /\
      subsystem_marks p h = rounds E p (asked (stops_p p) a) ++ all_started E p.
Proof. exact again_up. Qed.
Print Assumptions C61_comes_up_again.

(** All calls but the first one do return, and normally. *)
Theorem C61_calls_return :
  forall E w0 s p, init_mem E w0 -> app_built E w0 p -> asked_in_turn E w0 s p ->
    served E w0 s (queue_of E (ap_mach (apps E p))) ->
  forall t x n a r, caller_goes_on E w0 s p t -> x = AAppStart p \/ x = AAppStop p ->
    LiveSpec.history E w0 s n = a ++ (t, OInv x) :: r ->
    exists n' b its d, span t (LiveSpec.history E w0 s n') a (OInv x) b its (ORet x RvUnit) d.
Proof. exact calls_return. Qed.
Print Assumptions C61_calls_return.

(** The first start() never returns: stop() of a restartable app service does not
    release the thread that waits there. *)
Theorem C61_first_start_never_returns :
  forall E w0 s p, init_mem E w0 -> app_built E w0 p -> asked_in_turn E w0 s p ->
    served E w0 s (queue_of E (ap_mach (apps E p))) ->
  forall t n a b its z d, asked (starts_p p) a = 0 ->
    ~ span t (LiveSpec.history E w0 s n) a (OInv (AAppStart p)) b its z d.
Proof. exact first_stays. Qed.
Print Assumptions C61_first_start_never_returns.

(** a restartable app service, called five times, meets the hypotheses; this is
    what was done to its subsystems, and the last four calls returned *)
Example C61_example :
  init_mem E35 w35 /\ app_built E35 w35 2 /\ asked_in_turn E35 w35 turns5 2 /\ served E35 w35 turns5 2 /\
  starters_go_on E35 w35 turns5 2 /\ (forall c, In c [1; 2; 3; 4] -> caller_goes_on E35 w35 turns5 2 (TClient c)) /\
  asked (starts_p 2) h35 = 3 /\ asked (stops_p 2) h35 = 2 /\
  subsystem_marks 2 h35 = rounds E35 2 2 ++ all_started E35 2 /\ cur_at 2 h35 = Some (SApp 2 STARTED) /\
  map (fun c => existsb (fun to => match to with (TClient c', ORet _ RvUnit) => Nat.eqb c' c | _ => false end) h35) [0; 1; 2; 3; 4] =
    [false; true; true; true; true].
Proof.
  split; [apply demo_init|]. split; [apply built35|]. split; [apply turns35|]. split; [apply served35|]. split; [apply starters35|].
  split; [apply caller35|]. repeat split; vm_compute; reflexivity.
Qed.
