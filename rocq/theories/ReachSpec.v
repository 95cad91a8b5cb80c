(** * ReachSpec.v: vocabulary of the properties about which states a machine can
    be in (specification) *)
From Verif Require Export ApiSpec.

Section Reach.
  Context (E : env) (w0 : mem).

  (** s is the initial state of machine m at moment h *)
  Definition initial_at (m : mid) (h : trace) (s : sid) : Prop :=
    exists c, conf_at E w0 m h c /\ initial c = Some s.
  (** m has a row for state s at moment h *)
  Definition known_at (m : mid) (h : trace) (s : sid) : Prop :=
    exists c, conf_at E w0 m h c /\ known c (sname E s) = true.

  (** what lets thread t make s the current state of machine m at moment h:
      stop() or an ending transition; the initial state, in start(); the argument
      of the startInState() call in progress; the target for the event being
      processed, in the table used by the task that processes it *)
  Inductive may_enter (t : tid) (m : mid) (s : sid) (h : trace) : Prop :=
  | enter_end : s = SEnd m -> may_enter t m s h
  | enter_initial h' k its : opened t h k its -> (k = FApi (AStart m) \/ exists p, m = ap_mach (apps E p) /\ k = FApi (AAppStart p)) ->
      upto h' h -> initial_at m h' s -> may_enter t m s h
  | enter_given h' its : opened t h (FApi (AStartIn m s)) its -> upto h' h -> known_at m h' s -> may_enter t m s h
  | enter_target h1 h2 p e tm its : opened t h (FTake (queue_of E m) p (Some (e, m))) its -> taker E (queue_of E m) t tm ->
      upto h1 h2 -> upto h2 h -> reacts_at E w0 (table_of E tm) h2 (cur_at m h1) e (Target s) -> sname E s <> "_NOOP_" ->
      may_enter t m s h.

  (** itTransitionsTo(s) was called on machine tb and accepted, in history h or
      before the execution (in every sequence of calls that yields the
      configuration the execution starts with) *)
  Definition offered_target (tb : mid) (s : sid) (h : trace) : Prop :=
    (forall os, m_cfg (machs w0 tb) = cfg_run (sname E) (ename0 E) tb os ->
       exists os1 os2 c, os = os1 ++ CTo s :: os2 /\ history (sname E) (ename0 E) tb os1 c /\
         allowed (sname E) (ename0 E) (CTo s) c) \/
    exists t, In (t, OWr (WrCfg tb (CTo s) None)) h.

  (** the states a machine can be in *)
  Inductive configured (m : mid) (s : sid) (h : trace) : Prop :=
  | conf_end : s = SEnd m -> configured m s h
  | conf_initial h' : upto h' h -> initial_at m h' s -> configured m s h
  | conf_given t h' : In (t, OInv (AStartIn m s)) h -> upto h' h -> known_at m h' s -> configured m s h
  | conf_target tm : queue_of E tm = queue_of E m -> s = SEnd (table_of E tm) \/ offered_target (table_of E tm) s h -> configured m s h.
End Reach.
