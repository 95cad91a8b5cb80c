(** * Prog.v: instructions (atomic shared-memory accesses) and programs *)
From Verif Require Export Types.

(** ** Instructions.  One instruction = one atomic step of one thread.  The
    Java access each stands for is cited. *)
Inductive instr : Set :=
(** GenericStateMachine fields *)
| IGetStarted (m : mid)                 (** isStarted.get(), line 271 *)
| ICasStarted (m : mid)                 (** isStarted.compareAndSet(false,true), lines 232, 261 *)
| IGetEnded (m : mid)                   (** isEnded.get(), line 276 *)
| ICasEnded (m : mid) (b : bool)        (** isEnded.compareAndSet(false,b), line 319 *)
| ISetEndedFalse (m : mid)              (** isEnded.set(false), lines 237, 263 *)
| IGetCur (m : mid)                     (** read currentState, line 297 *)
| ISetCur (m : mid) (s : sid)           (** write currentState, lines 233, 262, 320 *)
| IGetListener (m : mid)                (** read stateMachineListener, lines 189, 200, 202 *)
| ISetListener (m : mid) (l : option listener)  (** line 315 *)
| IGetInit (m : mid)                    (** read initState *)
| IMapEmpty (m : mid)                   (** states.isEmpty(), line 218 *)
| IDangling (m : mid)                   (** the validation loop of start(), lines 222-231 *)
| IHasState (m : mid) (s : sid)         (** states.containsKey(s), line 258 *)
| IMapGet (m : mid) (s : option sid) (e : eid) (** states.get(s).get(e) on the map owned by m; None if states.get(s) is null *)
| IEndsAt (m : mid) (t : sid)           (** the condition of TransitionTask.java:44-45 on the map owned by m *)
| ICfg (m : mid) (o : cop)              (** a configuration method (one atomic step: simplification) *)
(** NamedState objects *)
| IGetActs (entry : bool) (s : sid)     (** read entryActions/exitActions *)
| IAddActs (entry : bool) (s : sid) (l : list action)  (** entryActions::add for each, NamedState.java:45,51 *)
(** NamedStateEvent objects *)
| IGetName (e : eid)
| IGetPay (e : eid)
| ISetPay (e : eid) (p : option payload)
| INewCopy (nm : string) (p : option payload)  (** new NamedStateEvent(name, payload) *)
(** pairs, pools, queues, executors *)
| INewPair                              (** new EventMachinePair, EventMachinePairPool.java:23 *)
| ISetPair (p : pid) (e : eid) (m : mid)  (** EventMachinePair.java:24-27 (two writes, one step) *)
| IGetPair (p : pid)                    (** EventMachinePair.java:29-35 (two reads, one step) *)
| IPoolPoll (l : plid)
| IPoolOffer (l : plid) (p : pid)
| IQLook (q : qid)                      (** size() begins its walk: how many pairs were ever added to and removed from q *)
| IQSize (q : qid) (c : nat * nat)      (** ... and ends it; c: the counts at its beginning *)
| IQEmpty (q : qid)
| IQOffer (q : qid) (p : pid) (e : eid) (m : mid) (e' : eid)
    (** e, m, e' are ghost arguments: the event and machine of the fire call and the event object put into p *)
| IQPoll (q : qid)
(** eventQueue.stream(), DropDuplicateEventStrategy.java:45: a walk over the
    queue.  Pairs are numbered in the order they were added. *)
| IQIter (q : qid)                      (** begin: number of the first pair; how many pairs are visited one by one *)
| IQNext (q : qid) (c : nat)            (** the next pair not before number c, the number after it, and whether the walk ends there *)
| IQRest (q : qid) (c : nat)            (** all pairs not before number c, visited at once *)
| IExecute (x : xid) (tk : task)        (** executor.execute; false = RejectedExecutionException *)
| IShutdown (x : xid)
(** multi-consumer listener, latch, interrupts *)
| IMultiAdd (k : nat) (l : leaf)
| IMultiRem (k : nat) (l : leaf)
(** for (... : consumers.values()), MultiConsumerStateMachineListener.java:48,55: a
    walk over a ConcurrentHashMap.  [c]: the map when the walk began; [vs]: the
    entries visited, by number. *)
| IMultiIter (k : nat)                  (** begin; how many entries are visited one by one *)
| IMultiNext (k : nat) (c : list (leaf * bool)) (vs : list nat)  (** the next entry, None at the end *)
| IMultiRest (k : nat) (c : list (leaf * bool)) (vs : list nat)  (** all entries left, visited at once *)
| ILatchDown (p : apid)
| ILatchAwait (p : apid)                (** blocks; true = interrupted *)
| IInterrupt (n : nat)
| ISelfInterrupt
| IGetSubs (p : apid)                   (** subsystemsRef.get(), AbstractAppContext.java:66 *)
| ISetSubs (p : apid) (l : list nat)    (** subsystemsRef.set(l), AbstractAppContext.java:43 *)
(** user code and trace *)
| ICall (c : call)                      (** run the user code behind callback c *)
| IMark (o : obs).                      (** record an observation *)

(** Result type of an instruction. *)
Definition iret (i : instr) : Set :=
  match i with
  | IGetStarted _ | ICasStarted _ | IGetEnded _ | ICasEnded _ _ | IMapEmpty _
  | IDangling _ | IHasState _ _ | IEndsAt _ _ | IQEmpty _
  | IExecute _ _ | IMultiAdd _ _ | IMultiRem _ _ | ILatchAwait _ => bool
  | IGetCur _ | IGetInit _ => option sid
  | IGetListener _ => option listener
  | IMapGet _ _ _ => option (option sid)
  | ICfg _ _ => res unit
  | IGetActs _ _ => list action
  | IGetName _ => string
  | IGetPay _ => option payload
  | INewCopy _ _ => eid
  | INewPair => pid
  | IGetPair _ => option (eid * mid)
  | IPoolPoll _ => option pid
  | IQLook _ | IQIter _ => nat * nat
  | IQSize _ _ => nat
  | IQNext _ _ => option (pid * nat * bool)
  | IQPoll _ => option pid
  | IQRest _ _ => list pid
  | IMultiIter _ => list (leaf * bool) * nat
  | IMultiNext _ _ _ => option (nat * leaf)
  | IMultiRest _ _ _ => list (nat * leaf)
  | IGetSubs _ => list nat
  | ICall _ => res unit
  | _ => unit
  end.

(** ** Programs: finite-depth interaction trees *)
Inductive prog (A : Set) : Set :=
| Ret (a : A)
| Throw (x : exn)
| Vis (i : instr) (k : iret i -> prog A).
Arguments Ret {A} _.
Arguments Throw {A} _.
Arguments Vis {A} _ _.

(** Run [p]; continue with its result or exception. *)
Fixpoint then_res {A B : Set} (p : prog A) (k : res A -> prog B) : prog B :=
  match p with
  | Ret a => k (Ok a)
  | Throw x => k (Err x)
  | Vis i c => Vis i (fun v => then_res (c v) k)
  end.

Definition of_res {A : Set} (r : res A) : prog A :=
  match r with Ok a => Ret a | Err x => Throw x end.
(** sequencing *)
Definition bind {A B : Set} (p : prog A) (f : A -> prog B) : prog B :=
  then_res p (fun r => match r with Ok a => f a | Err x => Throw x end).
(** [try { p } catch (Exception e) { h(e) }] *)
Definition try_catch {A : Set} (p : prog A) (h : exn -> prog A) : prog A :=
  then_res p (fun r => match r with
                       | Ok a => Ret a
                       | Err x => if is_exception x then h x else Throw x
                       end).
(** [try { p } finally { f }] *)
Definition try_finally {A : Set} (p : prog A) (f : prog unit) : prog A :=
  then_res p (fun r => bind f (fun _ => of_res r)).
(** a single instruction *)
Definition op (i : instr) : prog (iret i) := Vis i (fun v => Ret v).
(** an instruction that yields a result or an exception *)
Definition skip : prog unit := Ret tt.

Declare Scope prog_scope.
Delimit Scope prog_scope with prog.
Notation "x <- p ;; q" := (bind p (fun x => q))
  (at level 61, p at next level, right associativity) : prog_scope.
Notation "p ;;; q" := (bind p (fun _ => q))
  (at level 61, right associativity) : prog_scope.
Open Scope prog_scope.

(** [for (x : l) f(x)] *)
Fixpoint foreach {X : Set} (l : list X) (f : X -> prog unit) : prog unit :=
  match l with
  | [] => skip
  | x :: r => f x ;;; foreach r f
  end.

(** ** User programs: arbitrary code over the public API.  The continuation
    sees the result of each call or the exception it threw. *)
Inductive uprog : Set :=
| URet
| UThrow (x : exn)
| UDo (a : api) (k : res (ares a) -> uprog).
