(** * Types.v: identities, exceptions, callbacks, API calls, observations

    Paths below are relative to /repo/src/main/java/com/webotech/statemachine. *)
From Coq Require Export List String ZArith Bool Arith Lia.
Export ListNotations.
Open Scope string_scope.
Open Scope list_scope.

(** ** Object identities.  A Java reference is modelled by an identity; two
    different identities may carry the same name (NamedState.java:59-69). *)
Definition mid := nat.     (** a GenericStateMachine object *)
Definition stid := nat.    (** an EventProcessingStrategy object *)
Definition xid := nat.     (** an ExecutorService *)
Definition qid := nat.     (** an event queue (ConcurrentLinkedQueue) *)
Definition plid := nat.    (** an EventMachinePairPool *)
Definition pid := nat.     (** an EventMachinePair object *)
Definition payload := nat. (** a payload object (type parameter S) *)
Definition apid := nat.    (** an AbstractAppService object *)

(** The five lifecycle states (service/LifecycleStateMachineUtil.java:23-27). *)
Inductive appst : Set := UNINIT | STARTING | STARTED | STOPPING | STOPPED.
(** The four static lifecycle events (service/LifecycleStateMachineUtil.java:19-22). *)
Inductive lifeev : Set := LStart | LComplete | LStop | LError.

(** NamedState objects: user objects, the three private states of a machine
    (GenericStateMachine.java:51-53) and the five states an app service
    creates (service/AbstractAppService.java:75-103). *)
Inductive sid : Set :=
| SUser (n : nat) | SEnd (m : mid) | SNone (m : mid) | SNoop (m : mid)
| SApp (p : apid) (k : appst).

(** NamedStateEvent objects: user objects, the safe copies made by
    DefaultEventStrategy.java:82, the immediate event of a machine
    (GenericStateMachine.java:50), the static lifecycle events. *)
Inductive eid : Set :=
| EUser (n : nat) | ECopy (n : nat) | EImm (m : mid) | ELife (l : lifeev).

(** ** Exceptions.  [XError] stands for a java.lang.Error (or any Throwable
    that is not an Exception). *)
Inductive reason : Set :=
| RReserved | RNoInit | RInitExists | RNotMarked | RMarked | RMapped
| RMappingsExist | RNoTransitions | RDangling | RAlreadyStarted
| RNotConfigured | RQueueFull (n : nat) | RAppStart (s : option string)
| RAppStop (s : option string).
Inductive exn : Set :=
| XIllegalState (r : reason) | XNullPointer | XConcurrentMod | XRejected
| XUser (n : nat) | XError (n : nat).

(** [catch (Exception e)] catches everything but Errors. *)
Definition is_exception (x : exn) : bool :=
  match x with XError _ => false | _ => true end.

Inductive res (A : Set) : Set := Ok (a : A) | Err (x : exn).
Arguments Ok {A} _.
Arguments Err {A} _.

(** ** Callback objects *)
(** HandleExceptionAction.ExceptionHandler: user object, or the lambda of
    service/AbstractAppService.java:71-74. *)
Inductive handler : Set := HUser (n : nat) | HApp (p : apid).

(** StateAction objects: user objects, HandleExceptionAction.java, and the
    lambdas of service/AbstractAppService.java:77-103. *)
Inductive action : Set :=
| AUser (n : nat)
| AHandle (a : action) (h : handler)
| AAppStarting (p : apid) | AAppStarted (p : apid)
| AAppStopping (p : apid) | AAppStopped (p : apid).

(** StateMachineListener objects.  [LMulti] is a
    MultiConsumerStateMachineListener; its consumers are leaves (a
    multi-consumer listener nested in another one is not modelled).
    [LfLog] is a LoggingStateMachineListener object with an optional name. *)
Inductive leaf : Set := LfUser (n : nat) | LfLog (n : nat) (nm : option string).
Inductive listener : Set := LLeaf (l : leaf) | LMulti (k : nat).

(** UnexpectedFlowListener objects; [FDefault] is
    strategy/DefaultUnexpectedFlowListener.java. *)
Inductive ufl : Set := FUser (n : nat) | FDefault.
(** Unmapped event handlers; [UDefault] is the lambda of
    strategy/EventProcessingStrategyFactory.java:109. *)
Inductive uhandler : Set := UUser (n : nat) | UDefault.

(** ** Configuration calls of api/StateMachine.java:25-60 *)
Inductive cop : Set :=
| CInit (s : sid) | CWhen (s : sid) | CReceives (e : eid)
| CEnds | CTo (s : sid) | CNoTrans.

(** ** The public API available to user code
    (api/StateMachine.java, api/State.java, api/StateEvent.java,
    MultiConsumerStateMachineListener.java, service/api/AppService.java,
    service/AbstractAppContext.java:41-45, 64-67, plus Thread.interrupt and ExecutorService.shutdown). *)
Inductive api : Set :=
| AFire (m : mid) (e : eid)
| AStart (m : mid)
| AStartIn (m : mid) (s : sid)
| AStop (m : mid)
| AIsStarted (m : mid)
| AIsEnded (m : mid)
| AGetCur (m : mid)
| AQSize (m : mid)
| ASetListener (m : mid) (l : option listener)
| ACfg (m : mid) (o : cop)
| AAppend (entry : bool) (s : sid) (l : list (option action))
| AGetPay (e : eid)
| ASetPay (e : eid) (p : option payload)
| AMultiAdd (k : nat) (l : leaf)
| AMultiRem (k : nat) (l : leaf)
| AAppStart (p : apid)
| AAppStop (p : apid)
| AAppError (p : apid)
| AInterrupt (n : nat)
| AShutdown (x : xid)
| AGetSubs (p : apid)                     (** getAppContext().getSubsystems() *)
| ASetSubs (p : apid) (l : list nat).     (** getAppContext().withSubsystems(l) *)

(** Result type of an API call. *)
Definition ares (a : api) : Set :=
  match a with
  | AIsStarted _ | AIsEnded _ | AMultiAdd _ _ | AMultiRem _ _ => bool
  | AGetCur _ => option sid
  | AQSize _ => nat
  | AGetPay _ => option payload
  | AGetSubs _ => list nat
  | _ => unit
  end.

(** Results as recorded in the trace. *)
Inductive rv : Set :=
| RvUnit | RvBool (b : bool) | RvState (s : option sid) | RvNat (n : nat)
| RvPay (p : option payload) | RvErr (x : exn) | RvSubs (l : list nat).

Definition erase (a : api) : res (ares a) -> rv :=
  match a return res (ares a) -> rv with
  | AIsStarted _ | AIsEnded _ | AMultiAdd _ _ | AMultiRem _ _ =>
      fun r => match r with Ok b => RvBool b | Err x => RvErr x end
  | AGetCur _ => fun r => match r with Ok s => RvState s | Err x => RvErr x end
  | AQSize _ => fun r => match r with Ok n => RvNat n | Err x => RvErr x end
  | AGetPay _ => fun r => match r with Ok p => RvPay p | Err x => RvErr x end
  | AGetSubs _ => fun r => match r with Ok l => RvSubs l | Err x => RvErr x end
  | _ => fun r => match r with Ok _ => RvUnit | Err x => RvErr x end
  end.

(** ** Callbacks: an invocation of a callback object by the library *)
Inductive call : Set :=
| KAct (entry : bool) (a : action) (s : sid) (e : eid) (m : mid)
    (** StateAction.execute(e, m); [s] is the state whose entry/exit list holds it *)
| KInner (a : action) (e : eid) (m : mid)
    (** StateAction.execute(e, m) called by a HandleExceptionAction wrapping [a] *)
| KHandler (h : handler) (e : eid) (m : mid) (x : exn)
    (** ExceptionHandler.onException *)
| KListen (fin : bool) (l : listener) (m : mid) (f : sid) (e : eid) (t : sid)
    (** onStateChangeBegin (fin = false) / onStateChangeEnd (fin = true) *)
| KUnmapped (h : uhandler) (e : eid) (m : mid)
| KUflExn (u : ufl) (e : eid) (m : mid) (x : exn)
| KUflAfterEnd (u : ufl) (e : eid) (m : mid)
| KUflBeforeStart (u : ufl) (e : eid) (m : mid)
| KSub (start : bool) (p : apid) (i : nat).
    (** Subsystem.start / Subsystem.stop of subsystem number i, called by app p *)

(** A task submitted to an executor: the lambda of
    strategy/DefaultEventStrategy.java:87-103, which captures the strategy
    ([this]) and the machine the event was fired on. *)
Record task : Set := { tk_strat : stid; tk_mach : mid }.

(** ** Ghost records of shared-memory accesses.  Reads, with the value read: *)
Inductive rd : Set :=
| RdStarted (m : mid) (b : bool) | RdEnded (m : mid) (b : bool)
| RdCur (m : mid) (s : option sid) | RdListener (m : mid) (l : option listener)
| RdInit (m : mid) (s : option sid) | RdMapEmpty (m : mid) (b : bool)
| RdDangling (m : mid) (b : bool) | RdHas (m : mid) (s : sid) (b : bool)
| RdMap (m : mid) (s : option sid) (e : eid) (r : option (option sid))
| RdFinal (m : mid) (t : sid) (b : bool)
| RdActs (entry : bool) (s : sid) (l : list action)
| RdName (e : eid) (nm : string)
| RdPay (e : eid) (p : option payload)
| RdPair (p : pid) (c : option (eid * mid))
| RdMulti (k : nat) (v : list (leaf * bool) * nat)
| RdMNext (k : nat) (c : list (leaf * bool)) (vs : list nat) (v : option (nat * leaf))
| RdMRest (k : nat) (c : list (leaf * bool)) (vs : list nat) (l : list (nat * leaf))
| RdEmpty (q : qid) (b : bool)
| RdLook (q : qid) (c : nat * nat) | RdSize (q : qid) (c : nat * nat) (n : nat)
| RdIter (q : qid) (c : nat * nat) | RdNext (q : qid) (c : nat) (v : option (pid * nat * bool))
| RdRest (q : qid) (c : nat) (l : list pid)
| RdSubs (p : apid) (l : list nat).
(** Writes that have no observation of their own below: *)
Inductive wr : Set :=
| WrListener (m : mid) (l : option listener)
| WrCfg (m : mid) (o : cop) (x : option exn)
| WrActs (entry : bool) (s : sid) (l : list action)
| WrPay (e : eid) (p : option payload)
| WrCopy (e : eid) (nm : string) (p : option payload)
| WrGot (p : pid) | WrPair (p : pid) (e : eid) (m : mid) | WrGive (l : plid) (p : pid)
| WrMulti (add : bool) (k : nat) (l : leaf) (b : bool)
| WrLatch (p : apid) | WrAwait (p : apid) (interrupted : bool)
| WrShut (x : xid) | WrReject (x : xid) (tk : task)
| WrIntr (who : option nat)   (** interrupt(): of a client thread, of the current thread *)
| WrSubs (p : apid) (l : list nat).

(** ** Observations recorded in the trace.  [OInv]..[OLog] are visible to
    users; the others are ghost marks placed by the effect of instructions
    (Mem.v), except ODone. *)
Inductive obs : Set :=
| OInv (a : api)                 (** a user program calls the API *)
| ORet (a : api) (v : rv)        (** ... and the call returns or throws *)
| OCall (c : call)               (** the library invokes a callback object *)
| OBack (c : call) (x : option exn) (** ... and the callback returns (None) or throws *)
| OLog (s : string)              (** a log line *)
| OOffer (q : qid) (p : pid) (e : eid) (m : mid) (e' : eid) (m' : mid)
    (** event e fired on m was queued, as pair object p holding e' and m' *)
| OTake (q : qid) (p : pid) (c : option (eid * mid))
    (** a pair with content c was taken from the queue *)
| ODone (q : qid) (p : pid) (x : option exn)
    (** the processing of that pair is over (Some x: the drain task dies with x) *)
| OSubmit (x : xid) (tk : task)
| OStarted (m : mid)             (** the started flag went from false to true *)
| OState (m : mid) (s : sid)     (** getCurrentState() of m is s from now on *)
| OEnded (m : mid)               (** isEnded() of m is true from now on *)
| OUnended (m : mid)             (** start()/startInState() reset the ended flag *)
| OUncaught (tk : task) (x : exn) (** a task died with x *)
| ORd (r : rd)
| OWr (w : wr).

(** Threads: client threads and workers of executors. *)
Inductive tid : Set := TClient (n : nat) | TWorker (x : xid) (i : nat).
Definition trace := list (tid * obs).

(** ** Decidable equalities (computational content of Java ==/equals on the
    modelled types). *)
Definition appst_eq_dec (a b : appst) : {a = b} + {a <> b}.
Proof. decide equality. Defined.
Definition lifeev_eq_dec (a b : lifeev) : {a = b} + {a <> b}.
Proof. decide equality. Defined.
Definition sid_eq_dec (a b : sid) : {a = b} + {a <> b}.
Proof. decide equality; auto using Nat.eq_dec, appst_eq_dec. Defined.
Definition eid_eq_dec (a b : eid) : {a = b} + {a <> b}.
Proof. decide equality; auto using Nat.eq_dec, lifeev_eq_dec. Defined.
Definition leaf_eq_dec (a b : leaf) : {a = b} + {a <> b}.
Proof. decide equality; auto using Nat.eq_dec. decide equality; auto using string_dec. Defined.
Definition tid_eq_dec (a b : tid) : {a = b} + {a <> b}.
Proof. decide equality; auto using Nat.eq_dec. Defined.

(** Java's equals on MultiConsumer map keys: listeners do not override
    equals, so it is identity. *)
Definition leaf_eqb (a b : leaf) : bool := if leaf_eq_dec a b then true else false.
Definition eid_eqb (a b : eid) : bool := if eid_eq_dec a b then true else false.
Definition tid_eqb (a b : tid) : bool := if tid_eq_dec a b then true else false.
