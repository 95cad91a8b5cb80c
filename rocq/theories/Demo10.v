(** * Demo10.v: counting a queue while others add and take events (used by the
    Examples) *)
From Verif Require Import Demo Demo3 Machine Sched.

(** limit 2; client 0 has fired e0, then clients 1 and 2 begin to count, the
    worker takes e0, client 0 fires e1, and the counts go on *)
Definition limit2 (k : nat) : strategy :=
  {| s_drop := Nat.eqb k 1; s_exec := k; s_queue := k; s_pool := k; s_max := 2;
     s_unmapped := UUser 0; s_ufl := FUser 0; s_states := k |}.
Definition E25 : env :=
  {| st_name := demo_st; ev_name := demo_ev; strat_of := fun m => m; strat := limit2; apps := demo_app;
     behav := quiet; clients := fun n => calls (nth n
       [[AStart 0; AFire 0 (EUser 0); AFire 0 (EUser 1)]; [AFire 0 (EUser 2)]; [AQSize 0]; [AStart 1; AFire 1 (EUser 0); AFire 1 (EUser 1)]; [AFire 1 (EUser 0)]] []);
     n_clients := 5; n_execs := 10; n_workers := fun _ => 1; chance := fun _ => 2 |}.
Definition w25 : mem := demo_mem E25 (fun _ => abc) (fun _ => None) (fun _ _ => []) (fun _ => None).

Definition run25 : world := after E25 w25 [(c0, 25); (c1, 5); (c2, 2); (wk 0, 100); (c0, 100); (c1, 100); (c2, 100)].
(** machine 1 drops duplicates; e0 and e1 wait, client 4 begins to look for e0,
    the worker takes e0, and the look goes on *)
Definition run26 : world := after E25 w25 [(TClient 3, 100); (TClient 4, 6); (wk 1, 3); (TClient 4, 100)].
