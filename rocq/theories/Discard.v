(** * Discard.v: executors that lose tasks (model, C73)

    EventProcessingStrategyFactory.Config.withExecutor
    (strategy/EventProcessingStrategyFactory.java:70-73) takes any ExecutorService, also
    one that silently drops tasks when it is saturated, as a ThreadPoolExecutor with
    DiscardPolicy (the task just submitted) or DiscardOldestPolicy (the one waiting
    longest).  execute() returns normally then (strategy/DefaultEventStrategy.java:87).
    Here an executor may drop any waiting task at any time; a task dropped on submission is
    one that is dropped in the next step.  Idle threads take any waiting task, as in
    Order.v; everything else is as in Sched.v. *)
From Verif Require Export Order.

(** a thread goes on, or executor x drops its n-th waiting task *)
Inductive move : Set := Go (t : tid) | Lose (x : xid) (n : nat).

Section Discard.
  (** [L x w]: executor x may drop a task when the world is w *)
  Context (L : xid -> world -> bool) (P : xid -> world -> nat) (E : env).
  Definition dstep (w : world) (v : move) : option world :=
    match v with
    | Go t => ostep P E w t
    | Lose x n =>
        if L x w then
          match pick n (tasks (wm w) x) with
          | Some (_, r) => Some {| wm := set_tasks (upd (tasks (wm w)) x r) (wm w); wc := wc w; ww := ww w |}
          | None => None
          end
        else None
    end.
  Definition dstep_or_stay (w : world) (v : move) : world := match dstep w v with Some w' => w' | None => w end.
  Definition drun (w : world) (sched : list move) : world := fold_left dstep_or_stay sched w.
  Definition dreach (w0 : mem) (w : world) : Prop := exists sched, w = drun (init_world E w0) sched.
End Discard.
