(** * Spec.v: vocabulary of the property theorems *)
From Verif Require Export Sched TreeSpec OwnSpec StateSpec ConfSpec.

(** the queue events fired on machine m go to *)
Definition queue_of (E : env) (m : mid) : qid := s_queue (strat E (strat_of E m)).
(** the executor, the unexpected flow listener, the table used for machine m *)
Definition exec_of (E : env) (m : mid) : xid := s_exec (strat E (strat_of E m)).
Definition flow_of (E : env) (m : mid) : ufl := s_ufl (strat E (strat_of E m)).
Definition table_of (E : env) (m : mid) : mid := s_states (strat E (strat_of E m)).

(** no other machine's events go to m's queue *)
Definition private_queue (E : env) (m : mid) : Prop := forall m', queue_of E m' = queue_of E m -> m' = m.

(** a bracket of kind [k] is (or contains) a call of fire(e) on machine m: made
    by user code, or by the library's app service *)
Definition fires (E : env) (k : fkind) (m : mid) (e : eid) : Prop :=
  match k with
  | FApi (AFire m' e') => m' = m /\ e' = e
  | FApi (AAppStart p) => m = ap_mach (apps E p) /\ (e = ELife LStart \/ e = ELife LStop)
  | FApi (AAppStop p) => m = ap_mach (apps E p) /\ e = ELife LStop
  | FApi (AAppError p) => m = ap_mach (apps E p) /\ e = ELife LError
  | FCall (KAct _ a _ _ _) | FCall (KInner a _ _) =>
      match a with
      | AAppStarting p | AAppStopping p => m = ap_mach (apps E p) /\ e = ELife LComplete
      | AAppStopped p => m = ap_mach (apps E p) /\ e = ELife LStop
      | _ => False
      end
  | FCall (KHandler (HApp p) _ _ _) => m = ap_mach (apps E p) /\ e = ELife LError
  | _ => False
  end.

(** thread t has (or had) a bracket of kind k with marks [its] directly inside *)
Definition bracket (t : tid) (tr : trace) (k : fkind) (its : list obs) : Prop :=
  opened t tr k its \/ exists z, closed t tr k its z.
(** thread t has mark o directly inside a bracket of kind k *)
Definition inside (t : tid) (tr : trace) (k : fkind) (o : obs) : Prop :=
  exists its, bracket t tr k its /\ In o its.

(** ** Moments.  [span t tr a op b its z d]: thread t opened a bracket with mark
    [op] after history [a] and closed it with [z]; [b] is the part of the trace
    in between (all threads) and [its] the marks directly inside the bracket.
    The moments during the bracket are the histories [a ++ (t, op) :: b1] with
    b1 a prefix of b. *)
Definition span (t : tid) (tr a : trace) (op : obs) (b : trace) (its : list obs) (z : obs) (d : trace) : Prop :=
  tr = a ++ (t, op) :: b ++ (t, z) :: d /\ closes z = true /\ fst (scan t b) = [(FRoot, its)].
(** [h] is a moment during the bracket *)
Definition during (t : tid) (a : trace) (op : obs) (b h : trace) : Prop :=
  exists b1 b2, b = b1 ++ b2 /\ h = a ++ (t, op) :: b1.
(** h1 is not later than h2 *)
Definition upto (h1 h2 : trace) : Prop := exists r, h2 = h1 ++ r.

(** ** The state of a machine at a moment [h] of an execution from memory w0 *)
Definition cur_at (m : mid) (h : trace) : option sid := cur_of m None h.
Definition started_at (m : mid) (h : trace) : bool := started_of m false h.
Definition ended_at (m : mid) (h : trace) : bool := ended_of m false h.
Definition listener_at (w0 : mem) (m : mid) (h : trace) : option listener := listener_of m (m_listener (machs w0 m)) h.
Definition acts_at (w0 : mem) (en : bool) (s : sid) (h : trace) : list action := acts_of en s (acts w0 en s) h.
Definition pay_at (w0 : mem) (e : eid) (h : trace) : option payload := pay_of e (pays w0 e) h.
(** getSubsystems() of the context of app p *)
Definition subsystems_at (w0 : mem) (p : apid) (h : trace) : list nat := subsystems_of p (subs w0 p) h.
Definition name_at (E : env) (w0 : mem) (e : eid) (h : trace) : string := names_of (ename E w0) h e.
(** event object e exists at moment h: copies are made by fire() *)
Definition made (e : eid) (h : trace) : Prop :=
  match e with ECopy _ => exists t nm y, In (t, OWr (WrCopy e nm y)) h | _ => True end.
(** the configuration of machine m at moment h is [s] *)
Definition conf_at (E : env) (w0 : mem) (m : mid) (h : trace) (s : sstate) : Prop :=
  exists os s0, m_cfg (machs w0 m) = cfg_run (sname E) (ename0 E) m os /\
    history (sname E) (ename0 E) m os s0 /\ s = conf_of (sname E) m (ename E w0) s0 h.
(** what machine tb's configuration says at moment h about event e in state c *)
Definition reacts_at (E : env) (w0 : mem) (tb : mid) (h : trace) (c : option sid) (e : eid) (r : reaction) : Prop :=
  exists s, conf_at E w0 tb h s /\ r = reacts (sname E) s c (name_at E w0 e h).
Definition final_at (E : env) (w0 : mem) (tb : mid) (h : trace) (t : sid) : Prop :=
  exists s, conf_at E w0 tb h s /\ final_state (sname E) tb s t.

(** marks other than the records of memory accesses *)
Definition visible (o : obs) : bool := match o with ORd _ | OWr _ => false | _ => true end.
Definition shown (its : list obs) : list obs := filter visible its.
