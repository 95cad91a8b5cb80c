(** * AccessSpec.v: vocabulary for accessors and mutators (specification) *)
From Verif Require Export CallSpec.

(** ** What the API lets a user see and set: whether a machine was started, has
    ended, its current state and listener, the actions of a state object (true:
    entry), the payload of an event object, the subsystems of the context of an app *)
Inductive place : Set :=
| PStarted (m : mid) | PEnded (m : mid) | PState (m : mid) | PListener (m : mid)
| PActs (en : bool) (s : sid) | PPay (e : eid) | PSubs (p : apid).
Inductive content : Set :=
| CBool (b : bool) | CState (s : option sid) | CListener (l : option listener)
| CActs (l : list action) | CPay (p : option payload) | CSubs (l : list nat).
(** the content of a place at moment h *)
Definition content_at (w0 : mem) (x : place) (h : trace) : content :=
  match x with
  | PStarted m => CBool (started_at m h)
  | PEnded m => CBool (ended_at m h)
  | PState m => CState (cur_at m h)
  | PListener m => CListener (listener_at w0 m h)
  | PActs en s => CActs (acts_at w0 en s h)
  | PPay e => CPay (pay_at w0 e h)
  | PSubs p => CSubs (subsystems_at w0 p h)
  end.

(** isStarted(), isEnded(), getCurrentState(), getPayload(), getSubsystems() return a content *)
Definition gets (q : api) (x : place) : Prop :=
  match q with
  | AIsStarted m => x = PStarted m
  | AIsEnded m => x = PEnded m
  | AGetCur m => x = PState m
  | AGetPay e => x = PPay e
  | AGetSubs p => x = PSubs p
  | _ => False
  end.
Definition returned (c : content) : rv :=
  match c with CBool b => RvBool b | CState s => RvState s | CPay p => RvPay p | CSubs l => RvSubs l | CListener _ | CActs _ => RvUnit end.

(** setStateMachineListener(), appendEntryActions()/appendExitActions(),
    setPayload(), withSubsystems() set the content of a place, given the old one; null actions are
    left out *)
Definition given (l : list (option action)) : list action :=
  flat_map (fun o => match o with Some a => [a] | None => [] end) l.
Definition sets (q : api) (x : place) (old new : content) : Prop :=
  match q with
  | ASetListener m l => x = PListener m /\ new = CListener l
  | AAppend en s l => x = PActs en s /\ exists l0, old = CActs l0 /\ new = CActs (l0 ++ given l)
  | ASetPay e p => x = PPay e /\ new = CPay p
  | ASetSubs p l => x = PSubs p /\ new = CSubs l
  | _ => False
  end.
Definition setter (q : api) : Prop :=
  match q with ASetListener _ _ | AAppend _ _ _ | ASetPay _ _ | ASetSubs _ _ => True | _ => False end.

(** ** Which method may change the content of place x *)
Definition changes (E : env) (k : fkind) (x : place) : Prop :=
  match k, x with
  | FApi (ASetListener m' _), PListener m => m' = m
  | FApi (AAppend en' s' _), PActs en s => en' = en /\ s' = s
  | FApi (ASetPay e' _), PPay e => e' = e
  | FApi (ASetSubs p' _), PSubs p => p' = p
  | FApi (AStart m'), (PStarted m | PEnded m | PState m) => m' = m
  | FApi (AStartIn m' _), (PStarted m | PEnded m | PState m) => m' = m
  | FApi (AAppStart p), (PStarted m | PEnded m | PState m) => ap_mach (apps E p) = m
  | FApi (AStop m'), (PEnded m | PState m) => m' = m
  | FTake _ _ (Some (_, m')), (PEnded m | PState m) => m' = m
  | _, _ => False
  end.
