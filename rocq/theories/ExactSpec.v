(** * ExactSpec.v: the automaton a machine implements (specification)

    What the processing of an event shows, exactly, when nobody interferes:
    listener, actions and configuration are those at the beginning. *)
From Verif Require Export FlowSpec.

(** x is start() or startInState() of machine m, or start() of its app service *)
Definition starts (E : env) (m : mid) (x : api) : Prop :=
  match x with
  | AStart m' | AStartIn m' _ => m' = m
  | AAppStart p => ap_mach (apps E p) = m
  | _ => False
  end.
(** the call that started machine m (made by any thread) is over at moment h *)
Definition start_finished (m : mid) (h : trace) : Prop :=
  exists t k its z, closed t h k its z /\ In (OStarted m) its.
(** that call has made its last write to the machine, or is over, at moment h.  (The start() of an app
    service then still waits for the service to end.) *)
Definition start_over (m : mid) (h : trace) : Prop :=
  (exists t, In (t, OUnended m) h) \/ start_finished m h.
(** calls that interfere, at moment h, with the processing of machine m's
    events; once the machine has been started, starting it again does not *)
Definition disturbs (E : env) (m : mid) (h : trace) (x : api) : Prop :=
  match x with
  | AStop m' | ASetListener m' _ => m' = m
  | ACfg m' _ => m' = table_of E m
  | AAppend _ _ _ => True
  | _ => starts E m x /\ ~ start_over m h
  end.
(** no such call is running at any moment from history h on, during r *)
Definition calm (E : env) (m : mid) (h r : trace) : Prop :=
  forall t x, disturbs E m h x -> ~ In (t, OInv x) r /\ forall its, ~ opened t h (FApi x) its.
(** the executor of machine m has one thread (the default) *)
Definition one_thread (E : env) (m : mid) : Prop := n_workers E (exec_of E m) <= 1.

(** current state and ended flag *)
Definition mstate := (option sid * bool)%type.
Definition mstate_at (m : mid) (h : trace) : mstate := (cur_at m h, ended_at m h).

(** from a state, with an outcome and shown marks, to a state *)
Definition tscript := mstate -> option exn -> list obs -> mstate -> Prop.
(** first A, then B unless A threw *)
Definition seq (A B : tscript) : tscript := fun s x out s' =>
  (exists y, x = Some y /\ A s (Some y) out s') \/
  (exists s1 o1 o2, out = o1 ++ o2 /\ A s None o1 s1 /\ B s1 x o2 s').
Definition idle : tscript := fun s x out s' => s' = s /\ x = None /\ out = [].

Section Automaton.
  Context (E : env) (m : mid).
  (** listener, actions, configuration, unmapped event handler *)
  Context (l : option listener) (ac : bool -> sid -> list action) (conf : sstate) (h : uhandler).
  Context (e : eid).

  Definition notice (fin : bool) (f t : sid) : tscript := fun s x out s' => s' = s /\
    match l with
    | None => x = None /\ out = []
    | Some li => out = called (KListen fin li m f e t) x
    end.
  (** actions in order, up to one that throws *)
  Fixpoint acted (en : bool) (st : sid) (as_ : list action) (x : option exn) (out : list obs) : Prop :=
    match as_ with
    | [] => x = None /\ out = []
    | a :: r => (exists y, x = Some y /\ out = called (KAct en a st e m) (Some y)) \/
                (exists o, out = called (KAct en a st e m) None ++ o /\ acted en st r x o)
    end.
  Definition actions (en : bool) : tscript := fun s x out s' => s' = s /\
    match fst s with
    | None => x = Some XNullPointer /\ out = []
    | Some st => acted en st (ac en st) x out
    end.
  (** setting the state; an ended machine does not move *)
  Definition move (t : sid) : tscript := fun s x out s' => x = None /\
    if snd s then s' = s /\ out = []
    else s' = (Some t, String.eqb (sname E t) "_END_") /\
         out = (if String.eqb (sname E t) "_END_" then [OEnded m] else []) ++ [OState m t].
  Definition closing (t : sid) : tscript := fun s x out s' =>
    (final_state (sname E) (table_of E m) conf t /\ move (SEnd m) s x out s') \/
    (~ final_state (sname E) (table_of E m) conf t /\ idle s x out s').

  Definition react (r : reaction) : tscript := fun s x out s' =>
    match r with
    | NoRow => s' = s /\ x = Some XNullPointer /\ out = []
    | Unmapped => s' = s /\ out = called (KUnmapped h e m) x
    | Target t =>
        let f := from_state m (fst s) in
        (if String.eqb (sname E t) "_NOOP_"
         then seq (notice false f t) (notice true f t)
         else seq (notice false f t)
             (seq (actions false)
             (seq (move t)
             (seq (actions true)
             (seq (notice true f t) (closing t)))))) s x out s'
    end.

  (** an event named n taken from the queue: x is None unless the worker's
      task dies *)
  Definition event (n : string) (u : ufl) : tscript := fun s x out s' =>
    exists y P Rep, out = P ++ Rep /\ reported u e m y x Rep /\
      if snd s then P = [] /\ y = None /\ s' = s
      else react (reacts (sname E) conf (fst s) n) s y P s'.
End Automaton.

(** ** Several events *)
(** the only thread of m's executor *)
Definition worker_of (E : env) (m : mid) : tid := TWorker (exec_of E m) 0.
(** the completed processings of events of queue q by thread t, in order *)
Definition of_queue (q : qid) (n : node) : bool :=
  match n with (FTake q' _ _, _, _) => Nat.eqb q' q | _ => false end.
Definition completed (q : qid) (t : tid) (h : trace) : list node := filter (of_queue q) (snd (scan t h)).
(** the event of a processing, as in [taken] *)
Definition event_of (n : node) : pid * option (eid * mid) :=
  match n with (FTake _ p c, _, _) => (p, c) | _ => (0, None) end.
(** no event of queue q is being processed by thread t *)
Definition rests (q : qid) (t : tid) (h : trace) : Prop := forall p c its, ~ opened t h (FTake q p c) its.

(** processings that follow one another: [N e n]: event e has name n *)
Inductive arun (E : env) (m : mid) (l : option listener) (ac : bool -> sid -> list action) (conf : sstate)
    (N : eid -> string -> Prop) : mstate -> list node -> mstate -> Prop :=
| arun_nil s : arun E m l ac conf N s [] s
| arun_snoc s ns s1 p e its x n s2 :
    arun E m l ac conf N s ns s1 -> N e n ->
    event E m l ac conf (handler_of E m) e n (flow_of E m) s1 x (shown its) s2 ->
    arun E m l ac conf N s (ns ++ [(FTake (queue_of E m) p (Some (e, m)), its, ODone (queue_of E m) p x)]) s2.

(** the processing of event e of machine m, with its own queue and a single
    worker, while nobody interferes *)
Definition undisturbed (E : env) (w : world) (m : mid) (t : tid) (a : trace) (p : pid) (e : eid) (b : trace)
    (its : list obs) (z : obs) (d : trace) : Prop :=
  let op := OTake (queue_of E m) p (Some (e, m)) in
  private_queue E m /\ one_thread E m /\ span t (tr (wm w)) a op b its z d /\ calm E m a ((t, op) :: b).

(** the state after an event named n, when no callback throws *)
Definition next (E : env) (m : mid) (conf : sstate) (n : string) (s s' : mstate) : Prop :=
  if snd s then s' = s
  else match reacts (sname E) conf (fst s) n with
       | Target t =>
           if String.eqb (sname E t) "_NOOP_" then s' = s
           else if String.eqb (sname E t) "_END_" then s' = (Some t, true)
           else (final_state (sname E) (table_of E m) conf t /\ s' = (Some (SEnd m), true)) \/
                (~ final_state (sname E) (table_of E m) conf t /\ s' = (Some t, false))
       | _ => s' = s
       end.
Inductive nexts (E : env) (m : mid) (conf : sstate) (N : eid -> string -> Prop) : mstate -> list node -> mstate -> Prop :=
| nexts_nil s : nexts E m conf N s [] s
| nexts_snoc s ns s1 q p e its z n s2 :
    nexts E m conf N s ns s1 -> N e n -> next E m conf n s1 s2 ->
    nexts E m conf N s (ns ++ [(FTake q p (Some (e, m)), its, z)]) s2.
(** no listener or action of a state threw *)
Definition no_throw (its : list obs) : Prop := forall c y, In (OBack c (Some y)) its ->
  match c with KListen _ _ _ _ _ _ | KAct _ _ _ _ _ => False | _ => True end.
