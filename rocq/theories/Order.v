(** * Order.v: executors that run their tasks in any order (model, C72)

    EventProcessingStrategyFactory.Config.withExecutor
    (strategy/EventProcessingStrategyFactory.java:70-73) takes any ExecutorService.  Sched.v
    models executors whose threads take the tasks in the order of their submission, as the
    default one does (strategy/EventProcessingStrategyFactory.java:115-122); here an idle
    thread takes any waiting task or none, as with a priority queue of tasks, delayed tasks
    or a pool that steals work.  Everything else is as there. *)
From Verif Require Export Sched.

(** the n-th waiting task and the others *)
Definition pick (n : nat) (l : list task) : option (task * list task) :=
  match nth_error l n with Some tk => Some (tk, firstn n l ++ skipn (S n) l) | None => None end.

Section Order.
  (** [P x w]: the task an idle thread of executor x takes when the world is w *)
  Context (P : xid -> world -> nat) (E : env).

  (** one step of thread [t], as in Sched.step but for the choice of the task *)
  Definition ostep (w : world) (t : tid) : option world :=
    match t with
    | TClient _ => step E w t
    | TWorker x i =>
        match ww w x i with
        | WIdle =>
            if negb (Nat.ltb i (n_workers E x)) then None else
            match pick (P x w) (tasks (wm w) x) with
            | None => None
            | Some (tk, r) =>
                Some {| wm := set_tasks (upd (tasks (wm w)) x r) (wm w); wc := wc w;
                        ww := set_worker (ww w) x i (WRun tk (drain_iter E tk)) |}
            end
        | WRun _ _ => step E w t
        end
    end.
  Definition ostep_or_stay (w : world) (t : tid) : world := match ostep w t with Some w' => w' | None => w end.
  Definition orun (w : world) (sched : list tid) : world := fold_left ostep_or_stay sched w.
  Definition oreach (w0 : mem) (w : world) : Prop := exists sched, w = orun (init_world E w0) sched.
End Order.
