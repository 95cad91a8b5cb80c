(** * Demo20.v: two machines that share a queue, each with a pool of its own (C68) *)
From Verif Require Export Demo PoolSpec.

(** machines built without a strategy: one queue, own executor, pool and table (C28) *)
Definition strat50 (k : nat) : strategy :=
  {| s_drop := false; s_exec := k; s_queue := 0; s_pool := k; s_max := 0;
     s_unmapped := UUser 0; s_ufl := FUser 0; s_states := k |}.
(** A --e0--> B --e0--> A *)
Definition aba : list cop :=
  [ CInit (SUser 0); CReceives (EUser 0); CTo (SUser 1); CWhen (SUser 1); CReceives (EUser 0); CTo (SUser 0) ].
Definition cl50 : list api := AStart 0 :: AStart 1 :: AFire 0 (EUser 0) :: repeat (AFire 1 (EUser 0)) 10.
Definition E50 : env := demo strat50 (fun m => m) demo_app quiet [cl50] (fun _ => 1).
Definition w50 : mem := demo_mem E50 (fun _ => aba) (fun _ => None) (fun _ _ => []) (fun _ => None).
(** machine 1 is fired upon all the time, the worker of machine 0 processes its events *)
Definition sch50 : list (tid * nat) := (c0, 37) :: (wk 0, 21) :: List.concat (repeat [(c0, 13); (wk 0, 21)] 10).
Definition run50 : world := after E50 w50 sch50.
(** the same two machines, each with a queue of its own *)
Definition E51 : env := demo own_strat (fun m => m) demo_app quiet [cl50] (fun _ => 1).
Definition w51 : mem := demo_mem E51 (fun _ => aba) (fun _ => None) (fun _ _ => []) (fun _ => None).
Definition run51 : world := after E51 w51 ((c0, 37) :: (wk 0, 25) :: List.concat (repeat [(c0, 13); (wk 1, 30)] 10)).
