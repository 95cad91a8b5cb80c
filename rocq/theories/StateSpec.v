(** * StateSpec.v: the state of the objects as told by the trace (specification)

    Each function replays the trace and says what value a field has after it,
    given its value [v0] before.  [reads_true] says that every recorded read
    returned the value the trace says. *)
From Verif Require Import Types.

Definition replay {A : Type} (f : A -> obs -> A) (v0 : A) (tr : trace) : A :=
  fold_left (fun a to => f a (snd to)) tr v0.

Section Spec.
  (** isStarted() of machine m *)
  Definition started_of (m : mid) : bool -> trace -> bool :=
    replay (fun b o => match o with OStarted m' => if Nat.eqb m' m then true else b | _ => b end).
  (** isEnded() of machine m *)
  Definition ended_of (m : mid) : bool -> trace -> bool :=
    replay (fun b o => match o with
                       | OEnded m' => if Nat.eqb m' m then true else b
                       | OUnended m' => if Nat.eqb m' m then false else b
                       | _ => b end).
  (** getCurrentState() of machine m *)
  Definition cur_of (m : mid) : option sid -> trace -> option sid :=
    replay (fun c o => match o with OState m' s => if Nat.eqb m' m then Some s else c | _ => c end).
  (** the listener of machine m *)
  Definition listener_of (m : mid) : option listener -> trace -> option listener :=
    replay (fun c o => match o with OWr (WrListener m' l) => if Nat.eqb m' m then l else c | _ => c end).
  (** entry/exit actions of a state object *)
  Definition acts_of (en : bool) (s : sid) : list action -> trace -> list action :=
    replay (fun l o => match o with
                       | OWr (WrActs en' s' l') =>
                           if andb (Bool.eqb en en') (if sid_eq_dec s s' then true else false) then l ++ l' else l
                       | _ => l end).
  (** payload of an event object *)
  Definition pay_of (e : eid) : option payload -> trace -> option payload :=
    replay (fun p o => match o with
                       | OWr (WrPay e' p') | OWr (WrCopy e' _ p') => if eid_eqb e e' then p' else p
                       | _ => p end).
  (** every consumer ever added to a multi-consumer listener; true = not removed *)
  Definition multi_of (k : nat) : list (leaf * bool) -> trace -> list (leaf * bool) :=
    replay (fun l o => match o with
                       | OWr (WrMulti true k' x true) => if Nat.eqb k' k then l ++ [(x, true)] else l
                       | OWr (WrMulti false k' x true) =>
                           if Nat.eqb k' k then map (fun y => if leaf_eqb x (fst y) then (fst y, false) else y) l else l
                       | _ => l end).
  (** the latch of an app: released? *)
  Definition latch_of (p : apid) : bool -> trace -> bool :=
    replay (fun b o => match o with OWr (WrLatch p') => if Nat.eqb p' p then true else b | _ => b end).
  (** getSubsystems() of the context of app p *)
  Definition subsystems_of (p : apid) : list nat -> trace -> list nat :=
    replay (fun l o => match o with OWr (WrSubs p' l') => if Nat.eqb p' p then l' else l | _ => l end).
  (** executor shut down? *)
  Definition shut_of (x : xid) : bool -> trace -> bool :=
    replay (fun b o => match o with OWr (WrShut x') => if Nat.eqb x' x then true else b | _ => b end).
End Spec.
