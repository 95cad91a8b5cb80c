(** * SubsSpec.v: the subsystems of an app service, which may be replaced at any
    time (specification of C66) *)
From Verif Require Export HbSpec AppFailSpec AccessSpec.

(** the action of an app service that starts, that stops the subsystems *)
Definition subs_action (up : bool) (p : apid) : action := if up then AAppStarting p else AAppStopping p.
(** the order in which the subsystems in l are dealt with *)
Definition in_order (up : bool) (l : list nat) : list nat := if up then l else rev l.
(** from history h on, during r, no call of withSubsystems() of the context of
    app service p is running *)
Definition not_replaced (p : apid) (h r : trace) : Prop :=
  forall t l, ~ In (t, OInv (ASetSubs p l)) r /\ forall its, ~ opened t h (FApi (ASetSubs p l)) its.
(** users call nothing but start() and stop() of app service p,
    getSubsystems() and withSubsystems() of its context *)
Definition replacing_use (p : apid) (T : trace) : Prop :=
  forall t x, In (t, OInv x) T -> x = AAppStart p \/ x = AAppStop p \/ x = AGetSubs p \/ exists l, x = ASetSubs p l.
(** no callback threw *)
Definition none_threw (T : trace) : Prop := forall t c y, ~ In (t, OBack c (Some y)) T.
