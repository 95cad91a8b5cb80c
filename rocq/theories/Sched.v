(** * Sched.v: threads, steps, executions *)
From Verif Require Export Machine.

(** A worker thread of an executor: idle (waiting on the executor's task
    queue) or running a task. *)
Inductive worker : Set := WIdle | WRun (tk : task) (p : prog bool).

Record world : Set :=
  { wm : mem; wc : nat -> prog unit; ww : xid -> nat -> worker }.

Section Sched.
  Context (E : env).

  (** One step of program [p] of thread [t].  [ICall c]: the thread goes on
      with the user code behind callback [c]. *)
  Definition pstep {A : Set} (w : mem) (t : tid) (p : prog A) : option (mem * prog A) :=
    match p with
    | Ret _ | Throw _ => None
    | Vis i k =>
        match i as i return (iret i -> prog A) -> option (mem * prog A) with
        | ICall c => fun k => Some (w, then_res (interp E (behav E c (tr w))) k)
        | i => fun k => match exec E w t i with
                        | Some (v, w') => Some (w', k v)
                        | None => None
                        end
        end k
    end.

  Definition set_worker (f : xid -> nat -> worker) (x : xid) (i : nat) (v : worker) :=
    fun x' i' => if andb (Nat.eqb x' x) (Nat.eqb i' i) then v else f x' i'.

  (** One step of thread [t].  None: blocked, finished or not existing. *)
  Definition step (w : world) (t : tid) : option world :=
    match t with
    | TClient n =>
        match pstep (wm w) t (wc w n) with
        | Some (m', p') => Some {| wm := m'; wc := upd (wc w) n p'; ww := ww w |}
        | None => None
        end
    | TWorker x i =>
        if negb (Nat.ltb i (n_workers E x)) then None else
        match ww w x i with
        | WIdle =>
            match tasks (wm w) x with
            | [] => None
            | tk :: r =>
                Some {| wm := set_tasks (upd (tasks (wm w)) x r) (wm w); wc := wc w;
                        ww := set_worker (ww w) x i (WRun tk (drain_iter E tk)) |}
            end
        | WRun tk (Ret true) =>   (* while (!eventQueue.isEmpty()) *)
            Some {| wm := wm w; wc := wc w; ww := set_worker (ww w) x i (WRun tk (drain_iter E tk)) |}
        | WRun tk (Ret false) =>
            Some {| wm := wm w; wc := wc w; ww := set_worker (ww w) x i WIdle |}
        | WRun tk (Throw e) =>    (* the task dies; the executor replaces the thread *)
            Some {| wm := log t (OUncaught tk e) (wm w); wc := wc w;
                    ww := set_worker (ww w) x i WIdle |}
        | WRun tk p =>
            match pstep (wm w) t p with
            | Some (m', p') => Some {| wm := m'; wc := wc w; ww := set_worker (ww w) x i (WRun tk p') |}
            | None => None
            end
        end
    end.

  (** An execution: a schedule (steps of disabled threads do nothing). *)
  Definition step_or_stay (w : world) (t : tid) : world :=
    match step w t with Some w' => w' | None => w end.
  Definition run (w : world) (sched : list tid) : world := fold_left step_or_stay sched w.

  (** Initial world: clients about to run, workers idle. *)
  Definition init_world (w : mem) : world :=
    {| wm := w;
       wc := fun n => if Nat.ltb n (n_clients E) then interp E (clients E n) else Ret tt;
       ww := fun _ _ => WIdle |}.

  (** Memory after construction and configuration of the machines and before
      any thread runs: configurations are the result of arbitrary sequences of
      configuration calls; listeners, actions and payloads are arbitrary. *)
  Definition ename0 (e : eid) : string :=
    match e with EUser n => ev_name E n | ECopy _ => "" | EImm _ => nm_imm | ELife l => lifeev_name l end.
  Record init_mem (w : mem) : Prop := {
    im_started : forall m, m_started (machs w m) = false;
    im_ended : forall m, m_ended (machs w m) = false;
    im_cur : forall m, m_cur (machs w m) = None;
    im_cfg : forall m, exists os, m_cfg (machs w m) = cfg_run (sname E) ename0 m os;
    im_ncopy : ncopy w = 0;
    im_npair : npair w = 0;
    im_pools : forall l, pools w l = [];
    im_queues : forall q, queues w q = [];
    im_polled : forall q, polled w q = 0;
    im_tasks : forall x, tasks w x = [];
    im_shut : forall x, shut w x = false;
    im_multis : forall k, NoDup (map fst (filter snd (multis w k)));
    im_latches : forall p, latches w p = false;
    im_subs : forall p, subs w p = ap_subs (apps E p);
    im_tr : tr w = [] }.

  Definition reach (w0 : mem) (w : world) : Prop := exists sched, w = run (init_world w0) sched.
End Sched.
