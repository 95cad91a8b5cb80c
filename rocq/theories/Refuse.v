(** * Refuse.v: event queues that may refuse an event (model, C69)

    EventProcessingStrategyFactory.Config.withEventQueue
    (strategy/EventProcessingStrategyFactory.java:92-95) takes any queue, also one with
    a capacity, whose offer() returns false when it is full.  processEvent does not look
    at what offer() returns (strategy/DefaultEventStrategy.java:86).  Sched.v models
    queues that never refuse, as the default one
    (strategy/EventProcessingStrategyFactory.java:139-144); here a queue may.  Everything
    else is as there. *)
From Verif Require Export Sched.

Record rworld : Set :=
  { rw : world;
    lost : list (tid * (qid * pid * eid * mid)) }.   (** what was refused, and to whom *)

Section Refuse.
  (** [R q h]: at moment h queue q refuses an event *)
  Context (R : qid -> trace -> bool) (E : env).

  (** eventQueue.offer(inboundPair) at a moment at which the queue refuses: the queue is
      as before, the result false is ignored (strategy/DefaultEventStrategy.java:86) *)
  Definition refused {A : Set} (w : mem) (p : prog A) : option (qid * pid * eid * mid * prog A) :=
    match p with
    | Vis i k =>
        match i as i return (iret i -> prog A) -> option (qid * pid * eid * mid * prog A) with
        | IQOffer q p e m _ => fun k => if R q (tr w) then Some (q, p, e, m, k tt) else None
        | _ => fun _ => None
        end k
    | _ => None
    end.

  (** thread [t] is about to put an event into a queue that refuses it *)
  Definition refusal (w : rworld) (t : tid) : option rworld :=
    match t with
    | TClient n =>
        match refused (wm (rw w)) (wc (rw w) n) with
        | Some (x, p') => Some {| rw := {| wm := wm (rw w); wc := upd (wc (rw w)) n p'; ww := ww (rw w) |};
                                  lost := lost w ++ [(t, x)] |}
        | None => None
        end
    | TWorker x i =>
        if negb (Nat.ltb i (n_workers E x)) then None else
        match ww (rw w) x i with
        | WIdle => None
        | WRun tk p =>
            match refused (wm (rw w)) p with
            | Some (y, p') => Some {| rw := {| wm := wm (rw w); wc := wc (rw w); ww := set_worker (ww (rw w)) x i (WRun tk p') |};
                                      lost := lost w ++ [(t, y)] |}
            | None => None
            end
        end
    end.
  (** one step of thread [t], as in Sched.step but for refused offers *)
  Definition rstep (w : rworld) (t : tid) : option rworld :=
    match refusal w t with
    | Some w' => Some w'
    | None => match step E (rw w) t with Some w' => Some {| rw := w'; lost := lost w |} | None => None end
    end.
  Definition rstep_or_stay (w : rworld) (t : tid) : rworld := match rstep w t with Some w' => w' | None => w end.
  Definition rrun (w : rworld) (sched : list tid) : rworld := fold_left rstep_or_stay sched w.
  Definition rreach (w0 : mem) (w : rworld) : Prop :=
    exists sched, w = rrun {| rw := init_world E w0; lost := [] |} sched.
End Refuse.
