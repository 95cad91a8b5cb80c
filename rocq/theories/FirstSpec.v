(** * FirstSpec.v: vocabulary for the call of start() that starts an app service,
    for interruption and for the default handlers (specification) *)
From Verif Require Export CallSpec.

(** ** Interruption *)
(** client thread n is interrupted at moment h: interrupt() was called since it was
    interrupted while it waited last *)
Definition intr_step (n : nat) (b : bool) (to : tid * obs) : bool :=
  match to with
  | (_, OWr (WrIntr (Some n'))) => if Nat.eqb n' n then true else b
  | (TClient n', OWr (WrIntr None)) => if Nat.eqb n' n then true else b
  | (TClient n', OWr (WrAwait _ true)) => if Nat.eqb n' n then false else b
  | _ => b
  end.
Definition interrupted_at (w0 : mem) (n : nat) (h : trace) : bool := fold_left (intr_step n) h (intrs w0 n).
(** the latch of app service p is released at moment h *)
Definition released (p : apid) (h : trace) : Prop := exists t, In (t, OWr (WrLatch p)) h.

(** ** The call of start() of app service p that starts its machine m: bracket op..b
    of thread t after a *)
Section First.
  Context (E : env) (w0 : mem) (p : apid) (t : tid) (a : trace) (op : obs) (b : trace).
  Let m := ap_mach (apps E p).
  (** the machine starts in the initial state of its configuration *)
  Definition comes_up : script := fun x out =>
    exists init h conf o, during t a op b h /\ conf_at E w0 m h conf /\ initial conf = Some init /\
      out = OStarted m :: OState m init :: o /\ startup w0 m init t a op b x o.
  (** what stop() does at moment h *)
  Definition stopping (h : trace) : script := fun x out =>
    let n := app_state E p h in
    ((n = Some "STARTED" \/ (restartable E p /\ n = Some "STOPPED")) /\ fired E w0 m (ELife LStop) t a op b x out) \/
    (~ restartable E p /\ n = Some "STOPPED" /\ x = None /\ out = []) \/
    (n <> Some "STARTED" /\ n <> Some "STOPPED" /\ x = Some (XIllegalState (RAppStop n)) /\ out = []).
  (** the thread waits until the latch is released or the thread is interrupted,
      which is logged, and it is interrupted again; afterwards a machine that has
      not ended is stopped *)
  Definition waits : script := fun x out =>
    exists h1 h2 h3 o1 o2, during t a op b h1 /\ during t a op b h2 /\ during t a op b h3 /\ upto h1 h2 /\ upto h2 h3 /\ out = o1 ++ o2 /\
      ((exists n, t = TClient n /\ interrupted_at w0 n h1 = true /\ interrupted_at w0 n h2 = true /\ o1 = [OLog "Main latch was interrupted"]) \/
       (released p h1 /\ (forall n, t = TClient n -> interrupted_at w0 n h1 = false) /\ o1 = [])) /\
      (if ended_at m h2 then x = None /\ o2 = [] else stopping h3 x o2).
  Definition first_start : script := andthen comes_up (andthen (fired E w0 m (ELife LStart) t a op b) waits).
End First.

(** ** The line the default flow listener logs *)
Definition flow_line (E : env) (nm : string) (c : call) (s : option sid) : string :=
  match c with
  | KUflExn _ _ _ _ => "Unhandled exception while processing event " ++ ("NamedStateEvent[" ++ nm ++ "]") ++ " while in state " ++
      match s with Some s => "NamedState[" ++ sname E s ++ "]" | None => "null" end
  | KUflAfterEnd _ _ _ => "Event " ++ ("NamedStateEvent[" ++ nm ++ "]") ++ " received after state machine has ended"
  | KUflBeforeStart _ _ _ => "Event " ++ ("NamedStateEvent[" ++ nm ++ "]") ++ " received before state machine has started"
  | _ => ""
  end%string.
(** call c is a call of the default flow listener about event e of machine m *)
Definition default_flow (c : call) (e : eid) (m : mid) : Prop :=
  (exists y, c = KUflExn FDefault e m y) \/ c = KUflAfterEnd FDefault e m \/ c = KUflBeforeStart FDefault e m.
