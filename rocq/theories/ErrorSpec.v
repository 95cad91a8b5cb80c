(** * ErrorSpec.v: error() of an app service (specification) *)
From Verif Require Export AppLiveSpec.

(** ** The machine of an app service is used through the app service only *)
(** calls that use it directly, or change what its transitions do: any call on the
    machine, appending actions, giving the Void events a payload *)
Definition touches (E : env) (p : apid) (x : api) : Prop :=
  match x with
  | AFire m _ | AStart m | AStartIn m _ | AStop m | ASetListener m _ | ACfg m _ => m = ap_mach (apps E p)
  | AAppend _ _ _ => True
  | ASetPay (ELife _) _ => True
  | _ => False
  end.
(** In history h: nobody makes such a call, and no listener of the machine throws
    when it is told that a transition begins.  Apart from that anybody may call
    start(), stop(), error() and withSubsystems() as often as they like, and the
    subsystems may throw what they like *)
Record only_through_app (E : env) (p : apid) (h : trace) : Prop := {
  oa_none : forall t x, In (t, OInv x) h -> ~ touches E p x;
  oa_begin : forall t l f e st y, ~ In (t, OBack (KListen false l (ap_mach (apps E p)) f e st) (Some y)) h }.

(** machine in state STOPPED; machine ended, in state _END_ *)
Definition is_stopped (E : env) (p : apid) (h : trace) : Prop := mstate_at (ap_mach (apps E p)) h = (Some (SApp p STOPPED), false).
Definition is_over (E : env) (p : apid) (h : trace) : Prop := mstate_at (ap_mach (apps E p)) h = (Some (SEnd (ap_mach (apps E p))), true).
(** the app service was initialised: its machine has left the state UNINITIALISED *)
Definition left_init (E : env) (p : apid) (h : trace) : Prop :=
  exists s, cur_at (ap_mach (apps E p)) h = Some s /\ s <> SApp p UNINIT.
(** the transition table of an app service; None: the machine ends *)
Definition life_step (k : appst) (l : lifeev) : option appst :=
  match k, l with
  | UNINIT, LStart | STOPPED, LStart => Some STARTING
  | STARTING, LComplete => Some STARTED
  | STARTED, LStop => Some STOPPING
  | STOPPING, LComplete | STARTING, LError | STARTED, LError | STOPPING, LError => Some STOPPED
  | STOPPED, LStop => None
  | _, _ => Some k
  end.
(** machine in state k, not ended, or (None) ended in state _END_ *)
Definition is_in (E : env) (p : apid) (k : option appst) (h : trace) : Prop :=
  match k with
  | Some k => mstate_at (ap_mach (apps E p)) h = (Some (SApp p k), false)
  | None => is_over E p h
  end.
