(** * DiscardSpec.v: executors that lose tasks (specification, C73) *)
From Verif Require Export OrderSpec Discard.

(** no task is ever dropped *)
Definition loses_nothing (L : xid -> world -> bool) : Prop := forall x w, L x w = false.
(** the executors of the machines that use queue q drop a task only when another one waits *)
Definition loses_when_others_wait (L : xid -> world -> bool) (E : env) (q : qid) : Prop :=
  forall m w, queue_of E m = q -> L (exec_of E m) w = true -> 2 <= List.length (tasks (wm w) (exec_of E m)).

(** how many of the tasks dropped by the moves [sched] from w were for machines that use queue q *)
Fixpoint losses (L : xid -> world -> bool) (P : xid -> world -> nat) (E : env) (q : qid) (w : world) (sched : list move) : nat :=
  match sched with
  | [] => 0
  | v :: r =>
      match v with
      | Lose x n => match L x w, nth_error (tasks (wm w) x) n with
                    | true, Some tk => if Nat.eqb (queue_of E (tk_mach tk)) q then 1 else 0
                    | _, _ => 0
                    end
      | Go _ => 0
      end + losses L P E q (dstep_or_stay L P E w v) r
  end.
