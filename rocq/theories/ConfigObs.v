(** * ConfigObs.v: what a user observes of a configuration *)
From Verif Require Import Sched.

Section Obs.
  Context (sn : sid -> string) (en : eid -> string) (m : mid).
  Notation run_cfg := (cfg_run sn en m).
  Notation step_cfg := (cfg_step sn en m).

  (** the call [o] made after the calls [os] returns normally *)
  Definition accepts (os : list cop) (o : cop) : Prop := snd (step_cfg o (run_cfg os)) = Ok tt.
  (** the target the machine uses for a state and an event *)
  Definition target (os : list cop) (s : sid) (e : eid) : option sid :=
    match cfg_lookup sn en (Some s) e (run_cfg os) with Some v => v | None => None end.

  (** the terminators of a clause and their targets *)
  Definition ends_clause (o : cop) : option sid :=
    match o with
    | CTo t => Some t
    | CEnds => Some (SEnd m)
    | CNoTrans => Some (SNoop m)
    | _ => None
    end.

End Obs.

Definition all_ok (sn : sid -> string) (en : eid -> string) (m : mid) (os : list cop) : Prop :=
  forall pre o post, os = pre ++ o :: post -> accepts sn en m pre o.

(** The table documented at service/LifecycleStateMachineUtil.java:58-73 *)
Definition documented (m : mid) (p : apid) : list (string * string * sid) :=
  [ ("UNINITIALISED", "start", SApp p STARTING);
    ("STARTING", "complete", SApp p STARTED);
    ("STARTING", "error", SApp p STOPPED);
    ("STARTED", "stop", SApp p STOPPING);
    ("STARTED", "error", SApp p STOPPED);
    ("STOPPING", "complete", SApp p STOPPED);
    ("STOPPING", "error", SApp p STOPPED);
    ("STOPPED", "start", SApp p STARTING);
    ("STOPPED", "stop", SEnd m) ].

