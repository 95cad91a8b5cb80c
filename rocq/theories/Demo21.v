(** * Demo21.v: a queue with a capacity (C69) *)
From Verif Require Export Demo Demo3 RefuseSpec.

(** a queue that holds at most n events *)
Definition capacity (n : nat) (q : qid) (h : trace) : bool := Nat.leb n (List.length (waiting q h)).
Definition after_r (R : qid -> trace -> bool) (E : env) (w0 : mem) (l : list (tid * nat)) : rworld :=
  rrun R E {| rw := init_world E w0; lost := [] |} (go l).
Lemma after_rreach R E w0 l : rreach R E w0 (after_r R E w0 l).
Proof. exists (go l). reflexivity. Qed.

(** three events are fired before the first is taken; the queue holds one *)
Definition run52 : rworld := after_r (capacity 1) E1 w1 [(c0, 200); (wk 0, 300)].
(** the limit of the machine is one as well, two clients fire at the same time *)
Definition only (q0 : qid) (R : qid -> trace -> bool) (q : qid) (h : trace) : bool := Nat.eqb q q0 && R q h.
Definition sched16 : list (tid * nat) :=
  [(c0, 30); (c1, 100); (c0, 100); (c2, 9); (TClient 3, 100); (c2, 100); (TClient 4, 100)].
Definition run53 : rworld := after_r (only 0 (capacity 2)) E16 w16 sched16.
Definition run54 : rworld := after_r (only 0 (capacity 1)) E16 w16 sched16.
