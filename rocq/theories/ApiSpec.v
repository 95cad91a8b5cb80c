(** * ApiSpec.v: vocabulary for the properties of API calls (specification) *)
From Verif Require Export ExactSpec.

(** the result of a call that returned (None) or threw *)
Definition outcome (x : option exn) : rv := match x with None => RvUnit | Some y => RvErr y end.

(** x is start() or startInState() of machine m *)
Definition starting (m : mid) (x : api) : Prop := x = AStart m \/ exists s, x = AStartIn m s.

(** no thread but t starts or configures machine m during b *)
Definition untouched (m : mid) (t : tid) (b : trace) : Prop := forall t' o, In (t', o) b -> t' <> t ->
  match o with OStarted m' | OWr (WrCfg m' _ _) => m' <> m | _ => True end.
(** a mark that changes nothing *)
Definition is_read (o : obs) : bool := match o with ORd _ => true | _ => false end.
(** every step of thread t in b only reads *)
Definition only_reads (t : tid) (b : trace) : Prop := forall o, In (t, o) b -> is_read o = true.

(** what start() shows after it made [init] the current state of m; the
    listener and the actions are those at moments during the call *)
Definition startup (w0 : mem) (m : mid) (init : sid) (t : tid) (a : trace) (op : obs) (b : trace) : script :=
  let Li := fun l => sometime t a op b (fun h => listener_at w0 m h = l) in
  let Ac := fun en s l => sometime t a op b (fun h => acts_at w0 en s h = l) in
  andthen (told m (EImm m) Li false (SNone m) init)
 (andthen (fun x out => exists l, Ac true init l /\ ran m (EImm m) Ac true init l x out)
 (andthen (told m (EImm m) Li true (SNone m) init)
          (fun x out => x = None /\ out = [OUnended m]))).

(** ** Event queues *)
(** the events waiting in queue q at moment h: accepted and not yet taken *)
Definition waiting (q : qid) (h : trace) : list (pid * option (eid * mid)) :=
  skipn (List.length (taken q h)) (accepted q h).
(** how many events waited in q from moment h1 to moment h2, and how many at
    some moment between the two (events are taken in the order accepted, C09) *)
Definition stayed (q : qid) (h1 h2 : trace) : nat := List.length (accepted q h1) - List.length (taken q h2).
Definition passed (q : qid) (h1 h2 : trace) : nat := List.length (accepted q h2) - List.length (taken q h1).
(** n is the number of events in q as seen by somebody who counts them between
    moments h1 and h2 while others add and take events: an event that is there
    all the time is counted, an event that is there for a while may be *)
Definition counted (q : qid) (h1 h2 : trace) (n : nat) : Prop := stayed q h1 h2 <= n <= passed q h1 h2.
(** the content of pair object p at moment h *)
Definition pair_at (p : pid) (h : trace) : option (eid * mid) :=
  replay (fun c o => match o with OWr (WrPair p' e m) => if Nat.eqb p' p then Some (e, m) else c | _ => c end) None h.

(** ** What fire(e) on machine m shows *)
Section Fire.
  Context (E : env) (w0 : mem) (m : mid) (e : eid) (t : tid) (a : trace) (op : obs) (b : trace).
  Let at_ := sometime t a op b.
  Let q := queue_of E m.
  (** the limit of the queue, 0 if none *)
  Definition limit : Z := s_max (strat E (strat_of E m)).
  Definition drops_duplicates : bool := s_drop (strat E (strat_of E m)).
  Definition is_full (n : nat) : Prop := (0 < limit)%Z /\ (limit <= Z.of_nat n)%Z.

  (** a task to process an event is handed to the executor, or rejected *)
  Definition submitted : script := fun x out =>
    (x = None /\ out = [OSubmit (exec_of E m) {| tk_strat := strat_of E m; tk_mach := m |}]) \/
    (x = Some XRejected /\ out = []).
  (** e is dropped: a pair that was in the queue holds an event of that name *)
  Definition dropped : script := fun x out =>
    drops_duplicates = true /\ x = None /\
    exists h1 h2 h3 h4 p c e' m', during t a op b h1 /\ during t a op b h2 /\ during t a op b h3 /\ during t a op b h4 /\
      upto h2 h1 /\ upto h1 h3 /\ upto h3 h4 /\ In (p, c) (waiting q h1) /\ pair_at p h3 = Some (e', m') /\
      name_at E w0 e' h4 = name_at E w0 e h2 /\
      out = [OLog ("Event [" ++ show_event (name_at E w0 e h2) ++ "] already in queue, will drop it")%string].
  (** e is refused because the queue is full *)
  Definition refused : script := fun x out =>
    exists n h1 h2, during t a op b h1 /\ during t a op b h2 /\ upto h1 h2 /\ counted q h1 h2 n /\ is_full n /\
      out = called (KUflExn (flow_of E m) e m (XIllegalState (RQueueFull n))) x.
  (** e is queued, as event object e' *)
  Definition queued : script := fun x out =>
    exists p e' o2, out = OOffer q p e m e' m :: o2 /\ submitted x o2 /\
      exists n h1 h2, during t a op b h1 /\ during t a op b h2 /\ upto h1 h2 /\ counted q h1 h2 n /\ ~ is_full n.
  (** fire *)
  Definition before_start : script := fun x out =>
    at_ (fun h => started_at m h = false) /\ out = called (KUflBeforeStart (flow_of E m) e m) x.
  Definition after_end : script := fun x out =>
    at_ (fun h => started_at m h = true /\ ended_at m h = true) /\ out = called (KUflAfterEnd (flow_of E m) e m) x.
  Definition processed : script := fun x out =>
    at_ (fun h => started_at m h = true /\ ended_at m h = false) /\
    (dropped x out \/ refused x out \/ queued x out).
  Definition fired : script := fun x out => before_start x out \/ after_end x out \/ processed x out.
End Fire.

(** ** The event object delivered for e fired in a bracket: e itself, which had
    no payload at a moment of the call, or a new object with the name of e and a
    payload e had; [hc] is the moment after its creation *)
Definition copy_of (E : env) (w0 : mem) (e e' : eid) (t : tid) (a : trace) (op : obs) (b hc : trace) : Prop :=
  exists h1 hn h2, during t a op b h1 /\ during t a op b hn /\ during t a op b h2 /\ upto h1 hn /\ upto hn h2 /\ upto h2 hc /\
    pay_at w0 e h1 <> None /\ ~ made e' h2 /\ made e' hc /\
    pay_at w0 e' hc = pay_at w0 e h2 /\ name_at E w0 e' hc = name_at E w0 e hn.
(** nobody sets the payload of e during r *)
Definition payload_kept (e : eid) (r : trace) : Prop := forall t y, ~ In (t, OWr (WrPay e y)) r.
(** executor x was shut down before moment h *)
Definition shut_at (x : xid) (h : trace) : Prop := exists t, In (t, OWr (WrShut x)) h.
