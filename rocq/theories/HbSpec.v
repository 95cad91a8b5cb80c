(** * HbSpec.v: the happens-before order of an execution (specification of C62, C63)

    The marks of an execution are recorded in the order in which the accesses
    took effect.  Java guarantees less than that order: an access is certain to
    see another one only if the two are ordered by happens-before (JLS 17.4.5),
    the transitive closure of the order within each thread and of the
    synchronizes-with edges.  Two conflicting accesses of a plain field not
    ordered by happens-before are a data race. *)
From Verif Require Import Spec.

(** position [i] of the history is mark [o] of thread [t] *)
Definition on (h : trace) (i : nat) (t : tid) (o : obs) : Prop := nth_error h i = Some (t, o).

Inductive hb (sw : trace -> nat -> nat -> Prop) (h : trace) : nat -> nat -> Prop :=
| hb_po i j t o o' : i < j -> on h i t o -> on h j t o' -> hb sw h i j
| hb_sw i j : i < j -> sw h i j -> hb sw h i j
| hb_trans i j k : hb sw h i j -> hb sw h j k -> hb sw h i k.

(** pair object [p] enters or leaves queue [q] *)
Definition moves_in_queue (q : qid) (p : pid) (o : obs) : Prop :=
  match o with OOffer q' p' _ _ _ _ | OTake q' p' _ => q' = q /\ p' = p | _ => False end.
(** pair object [p] enters or leaves a pool *)
Definition moves_in_pool (p : pid) (o : obs) : Prop :=
  match o with OWr (WrGive _ p') | OWr (WrGot p') => p' = p | _ => False end.
(** no mark satisfying P strictly between positions i and j *)
Definition none_between (h : trace) (P : obs -> Prop) (i j : nat) : Prop :=
  forall k t o, i < k -> k < j -> on h k t o -> ~ P o.

(** ** The edges that are certain.  The flags are [AtomicBoolean]s: a write
    synchronizes with every later read.  The subsystems of a context are in an
    [AtomicReference], of which the same holds.  The queues and pools are
    [ConcurrentLinkedQueue]s, whose documentation says: "actions in a thread
    prior to placing an object into a ConcurrentLinkedQueue happen-before
    actions subsequent to the access or removal of that element".  The main
    latch is a [CountDownLatch] of count one: what precedes the first
    countDown() happens-before what follows a successful return from await(). *)
Inductive sw_min (h : trace) (i j : nat) : Prop :=
| sw_started m t t' b : on h i t (OStarted m) -> on h j t' (ORd (RdStarted m b)) -> sw_min h i j
| sw_ended m t o t' b : on h i t o -> o = OEnded m \/ o = OUnended m -> on h j t' (ORd (RdEnded m b)) -> sw_min h i j
| sw_queue q p t e m e' m' t' c :
    on h i t (OOffer q p e m e' m') -> on h j t' (OTake q p c) -> none_between h (moves_in_queue q p) i j -> sw_min h i j
| sw_pool l p t t' :
    on h i t (OWr (WrGive l p)) -> on h j t' (OWr (WrGot p)) -> none_between h (moves_in_pool p) i j -> sw_min h i j
| sw_latch p t t' : on h i t (OWr (WrLatch p)) -> (forall k t1, k < i -> ~ on h k t1 (OWr (WrLatch p))) ->
    on h j t' (OWr (WrAwait p false)) -> sw_min h i j
| sw_subs p t l t' l' : on h i t (OWr (WrSubs p l)) -> on h j t' (ORd (RdSubs p l')) -> sw_min h i j.

(** ** More edges than Java can ever give: two accesses of the same
    synchronization object, in whatever direction, are taken to synchronize.
    (All the pools count as one object, so do all the uses of the log and of
    the interrupt flags; an executor is used by the calls that submit tasks or
    shut it down and by its threads when they begin or end a task.)  What is
    unordered even with these edges is a data race. *)
Inductive syncobj : Set :=
| SoStarted (m : mid) | SoEnded (m : mid) | SoQueue (q : qid) | SoPools | SoExec (x : xid)
| SoLatch (p : apid) | SoSubs (p : apid) | SoMulti (k : nat) | SoIntr | SoLog.
Definition sync_of (t : tid) (o : obs) : list syncobj :=
  let ex := match t with TWorker x _ => [SoExec x] | _ => [] end in
  match o with
  | OStarted m | ORd (RdStarted m _) => [SoStarted m]
  | OEnded m | OUnended m | ORd (RdEnded m _) => [SoEnded m]
  | OOffer q _ _ _ _ _ | OTake q _ _ | ORd (RdLook q _) | ORd (RdSize q _ _) | ORd (RdIter q _)
  | ORd (RdNext q _ _) | ORd (RdRest q _ _) => [SoQueue q]
  | ORd (RdEmpty q _) => SoQueue q :: ex
  | ODone _ _ _ | OUncaught _ _ => ex
  | OWr (WrGot _) | OWr (WrGive _ _) => [SoPools]
  | OSubmit x _ | OWr (WrReject x _) | OWr (WrShut x) => [SoExec x]
  | OWr (WrLatch p) => [SoLatch p]
  | OWr (WrAwait p _) => [SoLatch p; SoIntr]
  | OWr (WrIntr _) => [SoIntr]
  | OWr (WrSubs p _) | ORd (RdSubs p _) => [SoSubs p]
  | OWr (WrMulti _ k _ _) | ORd (RdMulti k _) | ORd (RdMNext k _ _ _) | ORd (RdMRest k _ _ _) => [SoMulti k]
  | OLog _ => [SoLog]
  | _ => []
  end.
Definition sw_max (h : trace) (i j : nat) : Prop :=
  exists t o t' o' s, on h i t o /\ on h j t' o' /\ In s (sync_of t o) /\ In s (sync_of t' o').

(** ** Accesses of plain fields *)
(** the content of a pair object is written *)
Definition writes_pair (h : trace) (i : nat) (t : tid) (p : pid) : Prop :=
  exists e m, on h i t (OWr (WrPair p e m)).
(** the content of a pair object is read *)
Definition reads_pair (h : trace) (i : nat) (t : tid) (p : pid) : Prop :=
  exists c, on h i t (ORd (RdPair p c)).
(** ... by the thread that has just taken it from its queue *)
Definition fetches_pair (h : trace) (i : nat) (t : tid) (p : pid) : Prop :=
  reads_pair h i t p /\ exists k q c, k < i /\ on h k t (OTake q p c) /\
    forall n t' o, k < n -> n < i -> on h n t' o -> t' <> t.
(** the current state of machine m is written or read *)
Definition touches_state (m : mid) (o : obs) : Prop :=
  match o with OState m' _ | ORd (RdCur m' _) => m' = m | _ => False end.
Definition writes_state (m : mid) (o : obs) : Prop :=
  match o with OState m' _ => m' = m | _ => False end.
(** no strategy drops duplicates *)
Definition keeps_duplicates (E : env) : Prop := forall k, s_drop (strat E k) = false.

(** ** A machine used as its thread-safety needs (C63) *)
(** every event accepted for machine m was fired by a call that began after
    position i0, or by thread t0 itself after i0 *)
Definition fired_after (E : env) (h : trace) (m : mid) (t0 : tid) (i0 : nat) : Prop :=
  forall t a op b kd its q p e e' m' r, h = a ++ (t, op) :: b ++ (t, OOffer q p e m e' m') :: r ->
    opens op = Some kd -> fst (scan t b) = [(FRoot, its)] ->
    i0 < List.length a \/ (t = t0 /\ i0 < List.length (a ++ (t, op) :: b)).
(** the data accessed by the marks in P (of the library, or of the user) is
    accessed only by thread t0 up to position i0, and by whoever processes an
    event fired on m *)
Definition processing (E : env) (m : mid) (t : tid) (h : trace) : Prop :=
  exists p e its, opened t h (FTake (queue_of E m) p (Some (e, m))) its.
Definition confined (E : env) (P : obs -> Prop) (h : trace) (m : mid) (t0 : tid) (i0 : nat) : Prop :=
  forall i t o, on h i t o -> P o -> (t = t0 /\ i <= i0) \/ processing E m t (firstn i h).

(** ** The same in terms of API calls *)
(** the plain fields of machine m are written or read: current state, listener,
    configuration *)
Definition touches (m : mid) (o : obs) : Prop :=
  match o with
  | OState m' _ | ORd (RdCur m' _) | OWr (WrListener m' _) | ORd (RdListener m' _)
  | OWr (WrCfg m' _ _) | ORd (RdMap m' _ _ _) | ORd (RdFinal m' _ _)
  | ORd (RdInit m' _) | ORd (RdMapEmpty m' _) | ORd (RdDangling m' _) | ORd (RdHas m' _ _) => m' = m
  | _ => False
  end.
(** the calls that do so; all but fire(), isStarted(), isEnded() and
    getEventQueueSize() *)
Definition handles (E : env) (m : mid) (x : api) : Prop :=
  match x with
  | AGetCur m' | AStart m' | AStartIn m' _ | AStop m' | ASetListener m' _ | ACfg m' _ => m' = m
  | AAppStart p | AAppStop p => ap_mach (apps E p) = m
  | _ => False
  end.
(** such calls are made by thread t0 before position i0, or while an event of m
    is processed *)
Definition handled (E : env) (h : trace) (m : mid) (t0 : tid) (i0 : nat) : Prop :=
  forall t a x r, h = a ++ (t, OInv x) :: r -> handles E m x ->
    processing E m t a \/ (t = t0 /\ List.length a < i0 /\ forall p, x <> AAppStart p /\ x <> AAppStop p).
(** m has a queue, a table and a thread of its own; its fire() does not report a
    full queue to the default flow listener, which asks for the current state *)
Record on_its_own (E : env) (m : mid) : Prop := {
  oo_queue : private_queue E m;
  oo_thread : n_workers E (exec_of E m) <= 1;
  oo_table : forall m', table_of E m' = m <-> m' = m;
  oo_full : (s_max (strat E (strat_of E m)) <= 0)%Z \/ flow_of E m <> FDefault }.
