(** * RejectSpec.v: executors that may reject a task at any time (specification, C71) *)
From Verif Require Export RaceSpec ApiSpec Reject.

(** how many tasks for queue q were rejected in h *)
Definition rejections (E : env) (q : qid) (h : trace) : nat :=
  List.length (filter (fun to => match snd to with
                                 | OWr (WrReject _ tk) => Nat.eqb (queue_of E (tk_mach tk)) q
                                 | _ => false
                                 end) h).
(** nothing that could take events from queue q is running or pending: no thread of an
    executor of its machines runs a task, no task for it is waiting, no thread is about to
    submit one, none of these executors was shut down *)
Definition at_rest (E : env) (q : qid) (w : world) : Prop :=
  (forall m i, queue_of E m = q -> ww w (exec_of E m) i = WIdle) /\
  (forall x tk, In tk (tasks (wm w) x) -> queue_of E (tk_mach tk) <> q) /\
  (forall t, ~ just_queued q t (tr (wm w))) /\
  (forall m, queue_of E m = q -> ~ shut_at (exec_of E m) (tr (wm w))).
(** the executors of the machines that use queue q run tasks of no other machines *)
Definition own_executors (E : env) (q : qid) : Prop :=
  forall m m', queue_of E m = q -> exec_of E m' = exec_of E m -> queue_of E m' = q.
(** the executors of the machines that use queue q reject a task only when others wait *)
Definition rejects_when_others_wait (R : xid -> world -> bool) (E : env) (q : qid) : Prop :=
  forall m w, queue_of E m = q -> R (exec_of E m) w = true -> tasks (wm w) (exec_of E m) <> [].
(** no task for queue q was ended by an exception *)
Definition no_task_died (E : env) (q : qid) (h : trace) : Prop :=
  forall t tk x, In (t, OUncaught tk x) h -> queue_of E (tk_mach tk) <> q.
