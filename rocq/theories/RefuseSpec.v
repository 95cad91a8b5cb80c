(** * RefuseSpec.v: queues that may refuse an event (specification, C69) *)
From Verif Require Export BoundSpec Refuse.

(** thread t put an event into queue q or tried to *)
Definition tries (q : qid) (t : tid) (w : rworld) : Prop :=
  feeds q t (tr (wm (rw w))) \/ exists p e m, In (t, (q, p, e, m)) (lost w).
(** queue q refuses an event only when it holds [cap] events *)
Definition holds (R : qid -> trace -> bool) (q : qid) (cap : nat) : Prop :=
  forall h, R q h = true -> cap <= List.length (waiting q h).
(** queue q has a capacity that is sufficient for the limit of the machines that
    use it, and for all threads that fire upon them at the same time *)
Definition large_enough (R : qid -> trace -> bool) (E : env) (q : qid) (w : rworld) : Prop :=
  exists cap max ts, holds R q cap /\ (0 < max)%Z /\ (forall m, queue_of E m = q -> limit E m = max) /\
    (forall t, tries q t w -> In t ts) /\ (max - 1 + Z.of_nat (List.length ts) <= Z.of_nat cap)%Z.
