(** * RaceSpec.v: vocabulary of the properties about races (specification) *)
From Verif Require Export ApiSpec.

(** marks that change the current state or the ended flag of machine m *)
Definition moves (m : mid) (o : obs) : bool :=
  match o with OState m' _ | OEnded m' | OUnended m' => Nat.eqb m' m | _ => false end.
(** no thread but t moves machine m during b *)
Definition alone (m : mid) (t : tid) (b : trace) : Prop := forall t' o, In (t', o) b -> t' <> t -> moves m o = false.
(** no callback threw an exception *)
Definition nothing_threw (h : trace) : Prop := forall t c x, ~ In (t, OBack c (Some x)) h.
(** the last thing thread t did was to put an event into queue q *)
Definition just_queued (q : qid) (t : tid) (h : trace) : Prop :=
  exists l p e m e' m', thread_obs t h = l ++ [OOffer q p e m e' m'].
