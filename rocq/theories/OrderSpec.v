(** * OrderSpec.v: executors that run their tasks in any order (specification, C72) *)
From Verif Require Export RejectSpec Order.

(** no executor runs tasks of two machines *)
Definition one_machine_each (E : env) : Prop := forall m m', exec_of E m = exec_of E m' -> m = m'.
(** an idle thread takes a task when there is one *)
Definition takes_some (P : xid -> world -> nat) : Prop :=
  forall x w, tasks (wm w) x <> [] -> P x w < List.length (tasks (wm w) x).
