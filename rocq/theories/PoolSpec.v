(** * PoolSpec.v: how many pair objects are made (specification, C68) *)
From Verif Require Export ApiSpec.

(** the threads that have done something up to moment h *)
Definition threads_of (h : trace) : list tid := nodup tid_eq_dec (map fst h).
(** a thread that fires has at most one pair object in its hands, a worker thread
    another one: that of the event it processes *)
Definition in_hands (t : tid) : nat := match t with TClient _ => 1 | TWorker _ _ => 2 end.
Definition room (h : trace) : nat := list_sum (map in_hands (threads_of h)).

(** ps are different pair objects that events were put into queue q with *)
Definition pair_objects (q : qid) (h : trace) (ps : list pid) : Prop :=
  NoDup ps /\ forall p, In p ps -> exists t e m e' m', In (t, OOffer q p e m e' m') h.

(** the queue q and the pool l belong together: a strategy uses both or none *)
Definition belong (E : env) (q : qid) (l : plid) : Prop :=
  forall k, s_queue (strat E k) = q <-> s_pool (strat E k) = l.
