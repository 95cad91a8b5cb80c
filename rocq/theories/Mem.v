(** * Mem.v: static environment, shared memory and the effect of instructions *)
From Verif Require Export Config.

(** ** Static environment: everything fixed before the threads run *)

(** A DefaultEventStrategy, possibly wrapped in a DropDuplicateEventStrategy
    ([s_drop]); final fields of strategy/DefaultEventStrategy.java:20-25 and
    strategy/DropDuplicateEventStrategy.java:20.  [s_states] is the machine
    whose [states] map was given to setStates last (lines 107-109; the map
    object is owned by that machine, GenericStateMachine.java:59). *)
Record strategy : Set :=
  { s_drop : bool; s_exec : xid; s_queue : qid; s_pool : plid; s_max : Z;
    s_unmapped : uhandler; s_ufl : ufl; s_states : mid }.

(** An AbstractAppService with an AbstractAppContext of its own: its machine, mode,
    the subsystems (by number) its context has when the threads begin to run, name
    and init args (service/AbstractAppService.java:27-31; AbstractAppContext.java:14-17). *)
Record app : Set :=
  { ap_mach : mid; ap_exit : bool; ap_subs : list nat; ap_name : string; ap_args : list string }.

Record env : Set :=
  { st_name : nat -> string;              (** names of user NamedState objects *)
    ev_name : nat -> string;              (** names of user NamedStateEvent objects *)
    strat_of : mid -> stid;               (** GenericStateMachine.eventProcessingStrategy *)
    strat : stid -> strategy;
    apps : apid -> app;
    behav : call -> trace -> uprog;       (** user code of callbacks; may depend on history *)
    clients : nat -> uprog;               (** user code of client threads *)
    n_clients : nat;
    n_execs : nat;
    n_workers : xid -> nat;               (** number of threads of an executor *)
    chance : trace -> nat }.              (** what the JDK leaves open: the outcome of walks over a
                                              ConcurrentLinkedQueue others are using *)

(** NamedState.getName *)
Definition appst_name (k : appst) : string :=
  match k with
  | UNINIT => "UNINITIALISED" | STARTING => "STARTING" | STARTED => "STARTED"
  | STOPPING => "STOPPING" | STOPPED => "STOPPED"
  end.
Definition lifeev_name (l : lifeev) : string :=
  match l with LStart => "start" | LComplete => "complete" | LStop => "stop" | LError => "error" end.
Definition sname (E : env) (s : sid) : string :=
  match s with
  | SUser n => st_name E n
  | SEnd _ => nm_end
  | SNone _ => nm_uninit
  | SNoop _ => nm_noop
  | SApp _ k => appst_name k
  end.

(** ** Shared memory *)
(** Mutable fields of a GenericStateMachine (GenericStateMachine.java:29-44). *)
Record mach : Set :=
  { m_started : bool; m_ended : bool; m_cur : option sid;
    m_listener : option listener; m_cfg : cfg }.

Record mem : Set :=
  { machs : mid -> mach;
    acts : bool -> sid -> list action;         (** true = entry actions *)
    pays : eid -> option payload;
    cnames : nat -> string;                    (** names of ECopy objects *)
    ncopy : nat;                               (** next fresh ECopy *)
    pairs : pid -> option (eid * mid);         (** None: fields still null *)
    npair : nat;                               (** next fresh pair *)
    pools : plid -> list pid;
    queues : qid -> list pid;                  (** head = oldest *)
    polled : qid -> nat;                       (** how many pairs were removed so far (ghost) *)
    tasks : xid -> list task;                  (** pending tasks, head = oldest *)
    shut : xid -> bool;
    multis : nat -> list (leaf * bool);        (** every consumer ever added; true = not removed yet *)
    latches : apid -> bool;                    (** true = counted down *)
    intrs : nat -> bool;                       (** interrupt flag of client threads *)
    subs : apid -> list nat;                   (** subsystemsRef of the context of an app, AbstractAppContext.java:17 *)
    tr : trace }.

(** NamedStateEvent.getName *)
Definition ename (E : env) (w : mem) (e : eid) : string :=
  match e with
  | EUser n => ev_name E n
  | ECopy n => cnames w n
  | EImm _ => nm_imm
  | ELife l => lifeev_name l
  end.

(** The consumers of a MultiConsumerStateMachineListener, a ConcurrentHashMap
    (MultiConsumerStateMachineListener.java:22): an entry for every successful
    add, with a flag that is cleared when the entry is removed.
    putIfAbsent(l, l) finds l: line 35 *)
Definition has_leaf (l : leaf) (es : list (leaf * bool)) : bool :=
  existsb (fun y => andb (snd y) (leaf_eqb l (fst y))) es.
(** remove(l): line 43 *)
Definition drop_leaf (l : leaf) (es : list (leaf * bool)) : list (leaf * bool) :=
  map (fun y => if leaf_eqb l (fst y) then (fst y, false) else y) es.
(** The walk over values() in lines 48 and 55 is weakly consistent: it visits
    every entry that is there from the beginning to the end of the walk, may
    visit any entry that is there for a while meanwhile (the walk may stand on an
    entry that was removed), visits no entry twice, in any order.  The entries it
    may still visit, numbered: *)
Definition unvisited (c : list (leaf * bool)) (vs : list nat) (es : list (leaf * bool)) : list (nat * (leaf * bool)) :=
  filter (fun y => andb (negb (existsb (Nat.eqb (fst y)) vs))
                        (match nth_error c (fst y) with Some (_, false) => false | _ => true end))
         (combine (List.seq 0 (List.length es)) es).
(** and those it has to visit before it may end *)
Definition owed (c : list (leaf * bool)) (vs : list nat) (es : list (leaf * bool)) : list (nat * (leaf * bool)) :=
  filter (fun y => andb (Nat.ltb (fst y) (List.length c)) (snd (snd y))) (unvisited c vs es).
Definition entry_of (y : nat * (leaf * bool)) : nat * leaf := (fst y, fst (snd y)).

(** functional update *)
Definition upd {A : Set} (f : nat -> A) (k : nat) (v : A) : nat -> A :=
  fun k' => if Nat.eqb k' k then v else f k'.

Definition set_machs v (w : mem) := {| machs := v; acts := acts w; pays := pays w; cnames := cnames w; ncopy := ncopy w; pairs := pairs w; npair := npair w; pools := pools w; queues := queues w; polled := polled w; tasks := tasks w; shut := shut w; multis := multis w; latches := latches w; intrs := intrs w; subs := subs w; tr := tr w |}.
Definition set_acts v (w : mem) := {| machs := machs w; acts := v; pays := pays w; cnames := cnames w; ncopy := ncopy w; pairs := pairs w; npair := npair w; pools := pools w; queues := queues w; polled := polled w; tasks := tasks w; shut := shut w; multis := multis w; latches := latches w; intrs := intrs w; subs := subs w; tr := tr w |}.
Definition set_pays v (w : mem) := {| machs := machs w; acts := acts w; pays := v; cnames := cnames w; ncopy := ncopy w; pairs := pairs w; npair := npair w; pools := pools w; queues := queues w; polled := polled w; tasks := tasks w; shut := shut w; multis := multis w; latches := latches w; intrs := intrs w; subs := subs w; tr := tr w |}.
Definition set_copies vn vc (w : mem) := {| machs := machs w; acts := acts w; pays := pays w; cnames := vn; ncopy := vc; pairs := pairs w; npair := npair w; pools := pools w; queues := queues w; polled := polled w; tasks := tasks w; shut := shut w; multis := multis w; latches := latches w; intrs := intrs w; subs := subs w; tr := tr w |}.
Definition set_pairs vp vn (w : mem) := {| machs := machs w; acts := acts w; pays := pays w; cnames := cnames w; ncopy := ncopy w; pairs := vp; npair := vn; pools := pools w; queues := queues w; polled := polled w; tasks := tasks w; shut := shut w; multis := multis w; latches := latches w; intrs := intrs w; subs := subs w; tr := tr w |}.
Definition set_pools v (w : mem) := {| machs := machs w; acts := acts w; pays := pays w; cnames := cnames w; ncopy := ncopy w; pairs := pairs w; npair := npair w; pools := v; queues := queues w; polled := polled w; tasks := tasks w; shut := shut w; multis := multis w; latches := latches w; intrs := intrs w; subs := subs w; tr := tr w |}.
Definition set_queues v (w : mem) := {| machs := machs w; acts := acts w; pays := pays w; cnames := cnames w; ncopy := ncopy w; pairs := pairs w; npair := npair w; pools := pools w; queues := v; polled := polled w; tasks := tasks w; shut := shut w; multis := multis w; latches := latches w; intrs := intrs w; subs := subs w; tr := tr w |}.
Definition set_polled v (w : mem) := {| machs := machs w; acts := acts w; pays := pays w; cnames := cnames w; ncopy := ncopy w; pairs := pairs w; npair := npair w; pools := pools w; queues := queues w; polled := v; tasks := tasks w; shut := shut w; multis := multis w; latches := latches w; intrs := intrs w; subs := subs w; tr := tr w |}.
Definition set_tasks v (w : mem) := {| machs := machs w; acts := acts w; pays := pays w; cnames := cnames w; ncopy := ncopy w; pairs := pairs w; npair := npair w; pools := pools w; queues := queues w; polled := polled w; tasks := v; shut := shut w; multis := multis w; latches := latches w; intrs := intrs w; subs := subs w; tr := tr w |}.
Definition set_shut v (w : mem) := {| machs := machs w; acts := acts w; pays := pays w; cnames := cnames w; ncopy := ncopy w; pairs := pairs w; npair := npair w; pools := pools w; queues := queues w; polled := polled w; tasks := tasks w; shut := v; multis := multis w; latches := latches w; intrs := intrs w; subs := subs w; tr := tr w |}.
Definition set_multis v (w : mem) := {| machs := machs w; acts := acts w; pays := pays w; cnames := cnames w; ncopy := ncopy w; pairs := pairs w; npair := npair w; pools := pools w; queues := queues w; polled := polled w; tasks := tasks w; shut := shut w; multis := v; latches := latches w; intrs := intrs w; subs := subs w; tr := tr w |}.
Definition set_latches v (w : mem) := {| machs := machs w; acts := acts w; pays := pays w; cnames := cnames w; ncopy := ncopy w; pairs := pairs w; npair := npair w; pools := pools w; queues := queues w; polled := polled w; tasks := tasks w; shut := shut w; multis := multis w; latches := v; intrs := intrs w; subs := subs w; tr := tr w |}.
Definition set_intrs v (w : mem) := {| machs := machs w; acts := acts w; pays := pays w; cnames := cnames w; ncopy := ncopy w; pairs := pairs w; npair := npair w; pools := pools w; queues := queues w; polled := polled w; tasks := tasks w; shut := shut w; multis := multis w; latches := latches w; intrs := v; subs := subs w; tr := tr w |}.
Definition set_subs v (w : mem) := {| machs := machs w; acts := acts w; pays := pays w; cnames := cnames w; ncopy := ncopy w; pairs := pairs w; npair := npair w; pools := pools w; queues := queues w; polled := polled w; tasks := tasks w; shut := shut w; multis := multis w; latches := latches w; intrs := intrs w; subs := v; tr := tr w |}.
Definition set_tr v (w : mem) := {| machs := machs w; acts := acts w; pays := pays w; cnames := cnames w; ncopy := ncopy w; pairs := pairs w; npair := npair w; pools := pools w; queues := queues w; polled := polled w; tasks := tasks w; shut := shut w; multis := multis w; latches := latches w; intrs := intrs w; subs := subs w; tr := v |}.

(** record an observation of thread [t] *)
Definition log (t : tid) (o : obs) (w : mem) : mem := set_tr (tr w ++ [(t, o)]) w.

Definition set_mach (m : mid) (x : mach) (w : mem) : mem := set_machs (upd (machs w) m x) w.
Definition mset_started b (x : mach) := {| m_started := b; m_ended := m_ended x; m_cur := m_cur x; m_listener := m_listener x; m_cfg := m_cfg x |}.
Definition mset_ended b (x : mach) := {| m_started := m_started x; m_ended := b; m_cur := m_cur x; m_listener := m_listener x; m_cfg := m_cfg x |}.
Definition mset_cur s (x : mach) := {| m_started := m_started x; m_ended := m_ended x; m_cur := s; m_listener := m_listener x; m_cfg := m_cfg x |}.
Definition mset_listener l (x : mach) := {| m_started := m_started x; m_ended := m_ended x; m_cur := m_cur x; m_listener := l; m_cfg := m_cfg x |}.
Definition mset_cfg c (x : mach) := {| m_started := m_started x; m_ended := m_ended x; m_cur := m_cur x; m_listener := m_listener x; m_cfg := c |}.

(** ** Effect of one instruction executed by thread [t].  [None]: blocked. *)
Section Exec.
  Context (E : env).
  (** Every access of shared memory is recorded (in one atomic step with the
      access).  The records are ghost state: no instruction reads them, only
      the behaviour of user code may depend on the trace. *)
  Definition exec (w : mem) (t : tid) (i : instr) : option (iret i * mem) :=
    let rd_ {A : Set} (f : A -> rd) (v : A) := Some (v, log t (ORd (f v)) w) in
    match i return option (iret i * mem) with
    | IGetStarted m => rd_ (RdStarted m) (m_started (machs w m))
    | ICasStarted m =>
        if m_started (machs w m) then Some (false, log t (ORd (RdStarted m true)) w)
        else Some (true, log t (OStarted m) (set_mach m (mset_started true (machs w m)) w))
    | IGetEnded m => rd_ (RdEnded m) (m_ended (machs w m))
    | ICasEnded m b =>
        if m_ended (machs w m) then Some (false, log t (ORd (RdEnded m true)) w)
        else Some (true, log t (if b then OEnded m else ORd (RdEnded m false))
                             (set_mach m (mset_ended b (machs w m)) w))
    | ISetEndedFalse m =>
        Some (tt, log t (OUnended m) (set_mach m (mset_ended false (machs w m)) w))
    | IGetCur m => rd_ (RdCur m) (m_cur (machs w m))
    | ISetCur m s =>
        Some (tt, log t (OState m s) (set_mach m (mset_cur (Some s) (machs w m)) w))
    | IGetListener m => rd_ (RdListener m) (m_listener (machs w m))
    | ISetListener m l => Some (tt, log t (OWr (WrListener m l)) (set_mach m (mset_listener l (machs w m)) w))
    | IGetInit m => rd_ (RdInit m) (c_init (m_cfg (machs w m)))
    | IMapEmpty m => rd_ (RdMapEmpty m) (match c_map (m_cfg (machs w m)) with [] => true | _ => false end)
    | IDangling m => rd_ (RdDangling m) (cfg_dangling (m_cfg (machs w m)))
    | IHasState m s => rd_ (RdHas m s) (cfg_has (sname E) s (m_cfg (machs w m)))
    | IMapGet m s e => rd_ (RdMap m s e) (cfg_lookup (sname E) (ename E w) s e (m_cfg (machs w m)))
    | IEndsAt m s => rd_ (RdFinal m s) (cfg_ends_at (sname E) s (m_cfg (machs w m)))
    | ICfg m o =>
        let (c', r) := cfg_step (sname E) (ename E w) m o (m_cfg (machs w m)) in
        Some (r, log t (OWr (WrCfg m o (match r with Ok _ => None | Err x => Some x end)))
                   (set_mach m (mset_cfg c' (machs w m)) w))
    | IGetActs en s => rd_ (RdActs en s) (acts w en s)
    | IAddActs en s l =>
        Some (tt, log t (OWr (WrActs en s l)) (set_acts (fun en' s' =>
                    if andb (Bool.eqb en' en) (if sid_eq_dec s' s then true else false)
                    then acts w en' s' ++ l else acts w en' s') w))
    | IGetName e => rd_ (RdName e) (ename E w e)
    | IGetPay e => rd_ (RdPay e) (pays w e)
    | ISetPay e p =>
        Some (tt, log t (OWr (WrPay e p)) (set_pays (fun e' => if eid_eqb e' e then p else pays w e') w))
    | INewCopy nm p =>
        let n := ncopy w in
        Some (ECopy n, log t (OWr (WrCopy (ECopy n) nm p)) (set_copies (upd (cnames w) n nm) (S n)
                         (set_pays (fun e' => if eid_eqb e' (ECopy n) then p else pays w e') w)))
    | INewPair =>
        Some (npair w, log t (OWr (WrGot (npair w))) (set_pairs (upd (pairs w) (npair w) None) (S (npair w)) w))
    | ISetPair p e m =>
        Some (tt, log t (OWr (WrPair p e m)) (set_pairs (upd (pairs w) p (Some (e, m))) (npair w) w))
    | IGetPair p => rd_ (RdPair p) (pairs w p)
    | IPoolPoll l =>
        match pools w l with
        | [] => Some (None, w)
        | p :: r => Some (Some p, log t (OWr (WrGot p)) (set_pools (upd (pools w) l r) w))
        end
    | IPoolOffer l p =>
        Some (tt, log t (OWr (WrGive l p)) (set_pools (upd (pools w) l (pools w l ++ [p])) w))
    | IQLook q => rd_ (RdLook q) (polled w q + List.length (queues w q), polled w q)
    | IQSize q c =>
        (* the pairs that were in the queue all the time are counted, other pairs
           that were in it for a while may be *)
        rd_ (RdSize q c) (Nat.max (fst c - polled w q)
                                  (Nat.min (polled w q + List.length (queues w q) - snd c) (chance E (tr w))))
    | IQEmpty q => rd_ (RdEmpty q) (match queues w q with [] => true | _ => false end)
    | IQOffer q p e m _ =>
        let w' := set_queues (upd (queues w) q (queues w q ++ [p])) w in
        Some (tt, match pairs w p with
                  | Some (e', m') => log t (OOffer q p e m e' m') w'
                  | None => w'
                  end)
    | IQPoll q =>
        match queues w q with
        | [] => Some (None, w)
        | p :: r => Some (Some p, log t (OTake q p (pairs w p)) (set_polled (upd (polled w) q (S (polled w q))) (set_queues (upd (queues w) q r) w)))
        end
    | IQIter q => rd_ (RdIter q) (polled w q, chance E (tr w))
    | IQNext q c =>
        let d := c - polled w q in
        rd_ (RdNext q c) (match nth_error (queues w q) d with
                          | None => None
                          | Some p => Some (p, S (polled w q + d),
                              andb (Nat.eqb (S d) (List.length (queues w q))) (Nat.odd (chance E (tr w))))
                          end)
    | IQRest q c => rd_ (RdRest q c) (skipn (c - polled w q) (queues w q))
    | IExecute x tk =>
        if shut w x then Some (false, log t (OWr (WrReject x tk)) w)
        else Some (true, log t (OSubmit x tk) (set_tasks (upd (tasks w) x (tasks w x ++ [tk])) w))
    | IShutdown x => Some (tt, log t (OWr (WrShut x)) (set_shut (upd (shut w) x true) w))
    | IMultiAdd k l =>
        if has_leaf l (multis w k) then Some (false, log t (OWr (WrMulti true k l false)) w)
        else Some (true, log t (OWr (WrMulti true k l true)) (set_multis (upd (multis w) k (multis w k ++ [(l, true)])) w))
    | IMultiRem k l =>
        if has_leaf l (multis w k)
        then Some (true, log t (OWr (WrMulti false k l true)) (set_multis (upd (multis w) k (drop_leaf l (multis w k))) w))
        else Some (false, log t (OWr (WrMulti false k l false)) w)
    | IMultiIter k => rd_ (RdMulti k) (multis w k, chance E (tr w))
    | IMultiNext k c vs =>
        rd_ (RdMNext k c vs) (option_map entry_of
          (match nth_error (unvisited c vs (multis w k)) (chance E (tr w)) with
           | Some y => Some y
           | None => hd_error (owed c vs (multis w k))
           end))
    | IMultiRest k c vs =>
        rd_ (RdMRest k c vs) (map entry_of (filter (fun y => snd (snd y)) (unvisited c vs (multis w k))))
    | ILatchDown p => Some (tt, log t (OWr (WrLatch p)) (set_latches (upd (latches w) p true) w))
    | ILatchAwait p =>
        match t with
        | TClient n =>
            if intrs w n then Some (true, log t (OWr (WrAwait p true)) (set_intrs (upd (intrs w) n false) w))
            else if latches w p then Some (false, log t (OWr (WrAwait p false)) w) else None
        | TWorker _ _ => if latches w p then Some (false, log t (OWr (WrAwait p false)) w) else None
        end
    | IInterrupt n => Some (tt, log t (OWr (WrIntr (Some n))) (set_intrs (upd (intrs w) n true) w))
    | ISelfInterrupt =>
        match t with
        | TClient n => Some (tt, log t (OWr (WrIntr None)) (set_intrs (upd (intrs w) n true) w))
        | TWorker _ _ => Some (tt, log t (OWr (WrIntr None)) w)
        end
    | IGetSubs p => rd_ (RdSubs p) (subs w p)
    | ISetSubs p l => Some (tt, log t (OWr (WrSubs p l)) (set_subs (upd (subs w) p l) w))
    | ICall _ => None  (** handled by [pstep] in Sched.v *)
    | IMark o => Some (tt, log t o w)
    end.
End Exec.
