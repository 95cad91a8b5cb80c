(** * Demo23.v: executors that reject tasks when they are saturated (C71) *)
From Verif Require Export Demo RejectSpec.

(** a thread pool with a task queue of n places *)
Definition saturated (n : nat) (x : xid) (w : world) : bool := Nat.leb n (List.length (tasks (wm w) x)).
Definition after_j (R : xid -> world -> bool) (E : env) (w0 : mem) (l : list (tid * nat)) : world :=
  jrun R E (init_world E w0) (go l).
Lemma after_jreach R E w0 l : jreach R E w0 (after_j R E w0 l).
Proof. exists (go l). reflexivity. Qed.

(** three events are fired before the first task is run; the task queue has one place *)
Definition run55 : world := after_j (saturated 1) E1 w1 [(c0, 200); (wk 0, 300)].

(** two machines with queues of their own and a common executor; machine 1 keeps it busy *)
Definition common_exec (k : nat) : strategy :=
  {| s_drop := false; s_exec := 0; s_queue := k; s_pool := k; s_max := 0;
     s_unmapped := UUser 0; s_ufl := FUser 0; s_states := k |}.
Definition E56 : env :=
  demo common_exec (fun m => m) demo_app quiet
    [[AStart 0; AStart 1; AFire 1 (EUser 0); AFire 0 (EUser 0)]; [AFire 0 (EUser 1)]] (fun x => if Nat.eqb x 0 then 1 else 0).
Definition w56 : mem := demo_mem E56 (fun _ => abc) a_listener one_act (fun _ => None).
Definition run56 : world := after_j (saturated 1) E56 w56 [(c0, 200); (wk 0, 300)].
(** the second client fires later *)
Definition run57 : world := after_j (saturated 1) E56 w56 [(c0, 200); (wk 0, 300); (c1, 100); (wk 0, 300)].
(** a task queue with five places is never full here *)
Definition run58 : world := after_j (saturated 5) E1 w1 [(c0, 200); (wk 0, 300)].
(** the first action of machine 0 on the worker fires two events for machine 1 and passes
    exceptions on; the second task is rejected *)
Definition E62 : env :=
  demo common_exec (fun m => m) demo_app
    (fun c _ => match c with
                | KAct false _ _ _ 0 =>
                    UDo (AFire 1 (EUser 0)) (fun _ => UDo (AFire 1 (EUser 1)) (fun r => match r with Err x => UThrow x | _ => URet end))
                | _ => URet
                end)
    [[AStart 0; AStart 1; AFire 0 (EUser 0)]] (fun x => if Nat.eqb x 0 then 1 else 0).
Definition w62 : mem := demo_mem E62 (fun _ => abc) a_listener one_act (fun _ => None).
Definition run62 : world := after_j (saturated 1) E62 w62 [(c0, 200); (wk 0, 300)].
