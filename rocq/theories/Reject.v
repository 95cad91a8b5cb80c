(** * Reject.v: executors that may reject a task at any time (model, C71)

    EventProcessingStrategyFactory.Config.withExecutor
    (strategy/EventProcessingStrategyFactory.java:70-73) takes any ExecutorService, also
    one whose execute() throws RejectedExecutionException when it is saturated, as a
    ThreadPoolExecutor with a bounded task queue does.  processEvent queues the event
    before it submits the task (strategy/DefaultEventStrategy.java:86-87).  Sched.v models
    executors that reject tasks only after shutdown(), as the default one
    (strategy/EventProcessingStrategyFactory.java:115-122); here an executor may reject a
    task at any time.  Everything else is as there. *)
From Verif Require Export Sched.

Section Reject.
  (** [R x w]: executor x rejects a task submitted when the world is w *)
  Context (R : xid -> world -> bool) (E : env).

  (** executor.execute(..) of an executor that rejects the task: it throws
      RejectedExecutionException (strategy/DefaultEventStrategy.java:87) *)
  Definition declined {A : Set} (w : world) (p : prog A) : option (xid * task * prog A) :=
    match p with
    | Vis i k =>
        match i as i return (iret i -> prog A) -> option (xid * task * prog A) with
        | IExecute x tk => fun k => if R x w then Some (x, tk, k false) else None
        | _ => fun _ => None
        end k
    | _ => None
    end.

  (** thread [t] is about to submit a task to an executor that rejects it *)
  Definition decline (w : world) (t : tid) : option world :=
    match t with
    | TClient n =>
        match declined w (wc w n) with
        | Some (x, tk, p') => Some {| wm := log t (OWr (WrReject x tk)) (wm w); wc := upd (wc w) n p'; ww := ww w |}
        | None => None
        end
    | TWorker y i =>
        if negb (Nat.ltb i (n_workers E y)) then None else
        match ww w y i with
        | WIdle => None
        | WRun tk0 p =>
            match declined w p with
            | Some (x, tk, p') =>
                Some {| wm := log t (OWr (WrReject x tk)) (wm w); wc := wc w; ww := set_worker (ww w) y i (WRun tk0 p') |}
            | None => None
            end
        end
    end.
  (** one step of thread [t], as in Sched.step but for rejected tasks *)
  Definition jstep (w : world) (t : tid) : option world :=
    match decline w t with Some w' => Some w' | None => step E w t end.
  Definition jstep_or_stay (w : world) (t : tid) : world := match jstep w t with Some w' => w' | None => w end.
  Definition jrun (w : world) (sched : list tid) : world := fold_left jstep_or_stay sched w.
  Definition jreach (w0 : mem) (w : world) : Prop := exists sched, w = jrun (init_world E w0) sched.
End Reject.
