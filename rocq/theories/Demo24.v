(** * Demo24.v: executors that run their tasks in any order (C72) *)
From Verif Require Export Demo23 OrderSpec.

(** the task submitted last is run first *)
Definition newest (x : xid) (w : world) : nat := List.length (tasks (wm w) x) - 1.
Definition after_o (P : xid -> world -> nat) (E : env) (w0 : mem) (l : list (tid * nat)) : world :=
  orun P E (init_world E w0) (go l).
Lemma after_oreach P E w0 l : oreach P E w0 (after_o P E w0 l).
Proof. exists (go l). reflexivity. Qed.
(** two machines with queues of their own and a common executor; the first thing an action
    of machine 0 does is to throw *)
Definition E59 : env :=
  demo common_exec (fun m => m) demo_app (fun c _ => match c with KAct _ _ _ _ 0 => UThrow (XUser 7) | _ => URet end)
    [[AStart 1; AStart 0; AFire 1 (EUser 0); AFire 0 (EUser 0)]] (fun x => if Nat.eqb x 0 then 1 else 0).
Definition w59 : mem := demo_mem E59 (fun _ => abc) a_listener one_act (fun _ => None).
Definition run59 : world := after_o newest E59 w59 [(c0, 200); (wk 0, 300)].
(** the same with the default executor *)
Definition run60 : world := after E59 w59 [(c0, 200); (wk 0, 300)].
(** an executor for one machine, tasks in reverse order *)
Definition run61 : world := after_o newest E1 w1 [(c0, 200); (wk 0, 300)].
