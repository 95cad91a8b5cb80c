(** * Demo25.v: executors that lose tasks (C73) *)
From Verif Require Export Demo24 DiscardSpec.

(** the task waiting longest is run first *)
Definition oldest (x : xid) (w : world) : nat := 0.
(** a thread pool with a task queue of n places: when it is full, a task is dropped *)
Definition overfull (n : nat) (x : xid) (w : world) : bool := Nat.ltb n (List.length (tasks (wm w) x)).
Definition after_d (L : xid -> world -> bool) (E : env) (w0 : mem) (l : list move) : world := drun L oldest E (init_world E w0) l.
Definition steps (l : list (tid * nat)) : list move := map Go (go l).
Lemma after_dreach L E w0 l : dreach L oldest E w0 (after_d L E w0 l).
Proof. exists l. reflexivity. Qed.

(** three events are fired before the first task is run; the task queue has one place, the
    task waiting longest is dropped *)
Definition run63 : world := after_d (overfull 1) E1 w1 (steps [(c0, 200)] ++ [Lose 0 0; Lose 0 0; Lose 0 0] ++ steps [(wk 0, 300)]).
(** two machines with queues of their own and a common executor; the task of machine 0 is
    dropped *)
Definition lost64 : list move := steps [(c0, 200)] ++ [Lose 0 1] ++ steps [(wk 0, 300)].
Definition run64 : world := after_d (overfull 1) E56 w56 lost64.
(** the second client fires later *)
Definition run65 : world := after_d (overfull 1) E56 w56 (lost64 ++ steps [(c1, 100); (wk 0, 300)]).
(** an action throws; the task of machine 1 is dropped *)
Definition run66 : world := after_d (overfull 1) E59 w59 (steps [(c0, 200)] ++ [Lose 0 0] ++ steps [(wk 0, 300)]).
(** nothing is dropped *)
Definition run67 : world := after_d (fun _ _ => false) E1 w1 (steps [(c0, 200)] ++ [Lose 0 0] ++ steps [(wk 0, 300)]).
