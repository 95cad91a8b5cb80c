(** * AppFailSpec.v: app services whose subsystems fail (specification) *)
From Verif Require Export AppLiveSpec.

(** users call nothing but start(), stop() and error() of app service p *)
Definition proper_use (p : apid) (T : trace) : Prop :=
  forall t x, In (t, OInv x) T -> x = AAppStart p \/ x = AAppStop p \/ x = AAppError p.
(** subsystem i was started, to the end and without exception; it was stopped *)
Definition sub_started (p : apid) (i : nat) (h : trace) : Prop := exists t, In (t, OBack (KSub true p i) None) h.
Definition sub_stopped (p : apid) (i : nat) (h : trace) : Prop := exists t, In (t, OCall (KSub false p i)) h.
(** subsystem i runs: its last start was successful and nobody stopped it since *)
Definition sub_runs (p : apid) (i : nat) (h : trace) : Prop :=
  exists h1 t h2, h = h1 ++ (t, OBack (KSub true p i) None) :: h2 /\
    forall t', ~ In (t', OCall (KSub true p i)) h2 /\ ~ In (t', OCall (KSub false p i)) h2.
