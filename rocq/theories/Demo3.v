(** * Demo3.v: schedules that refute expectations *)
From Verif Require Export Demo2.

(** C19: the initial state is configured to end.  Machine 0 is started by
    start(), machine 1 by startInState(); then e0 and the event named
    _immediate_ are fired on machine 0 *)
Definition ends_cfg : list cop := [ CInit (SUser 0); CEnds ].
Definition E7 : env :=
  demo own_strat (fun m => m) demo_app quiet
    [[AStart 0; AStartIn 1 (SUser 0); AFire 0 (EUser 0)]; [AFire 0 (EUser 4)]] (fun _ => 1).
Definition w7 : mem := demo_mem E7 (fun _ => ends_cfg) (fun _ => None) (fun _ _ => []) (fun _ => None).
Definition run7 : world := after E7 w7 [(c0, 200); (wk 0, 200)].
Definition run7' : world := after E7 w7 [(c0, 200); (wk 0, 200); (c1, 200); (wk 0, 200)].

(** C22: stop() between the two halves of the worker's state update *)
Definition E8 : env :=
  demo own_strat (fun m => m) demo_app quiet
    [[AStart 0; AFire 0 (EUser 0)]; [AStop 0]; [AIsEnded 0; AGetCur 0; AFire 0 (EUser 1)]] (fun _ => 1).
Definition w8 : mem := demo_mem E8 (fun _ => abc) (fun _ => None) (fun _ _ => []) (fun _ => None).
Definition run8 : world := after E8 w8 [(c0, 200); (wk 0, 13); (c1, 200); (wk 0, 200); (c2, 200); (wk 0, 200)].

(** C23: the quick start of the README: the entry action of the initial state
    fires the event leading to a final state *)
Definition quick_cfg : list cop := [ CInit (SUser 0); CReceives (EUser 0); CTo (SUser 1); CWhen (SUser 1); CEnds ].
Definition E9 : env :=
  demo own_strat (fun m => m) demo_app
    (fun c _ => match c with KAct true (AUser 10) _ _ _ => UDo (AFire 0 (EUser 0)) (fun _ => URet) | _ => URet end)
    [[AStart 0; AGetCur 0; AIsEnded 0; AFire 0 (EUser 0)]] (fun _ => 1).
Definition w9 : mem := demo_mem E9 (fun _ => quick_cfg) (fun _ => None) one_act (fun _ => None).
Definition run9 : world := after E9 w9 [(c0, 27); (wk 0, 200); (c0, 200); (wk 0, 200)].

(** C28: two machines with separate tables but the same queue, executor and
    pool, as built by the default configuration *)
Definition shared_strat (k : nat) : strategy :=
  {| s_drop := false; s_exec := 0; s_queue := 0; s_pool := 0; s_max := 0;
     s_unmapped := UDefault; s_ufl := FUser k; s_states := k |}.
Definition E10 : env :=
  demo shared_strat (fun m => m) demo_app quiet
    [[AStart 0; AStart 1; AFire 0 (EUser 0); AFire 1 (EUser 0)]; [AStop 0]] (fun _ => 1).
Definition w10 : mem :=
  demo_mem E10 (fun m => match m with 0 => abc | _ => [CInit (SUser 3); CReceives (EUser 0); CTo (SUser 0)] end) (fun _ => None) (fun _ _ => []) (fun _ => None).
Definition run10 : world := after E10 w10 [(c0, 200); (wk 0, 200)].
Definition run10' : world := after E10 w10 [(c0, 200); (c1, 100); (wk 0, 200)].

(** C38: an orderly stop in exit mode; the main thread sees the machine not
    yet ended, then the worker ends it *)
Definition E11 : env := demo own_strat (fun m => m) app6 quiet [[AAppStart 1]; [AAppStop 1]] (fun _ => 1).
Definition w11 : mem := demo_mem E11 (fun m => lifecycle_calls m) (fun _ => None) acts6 (fun _ => None).
Definition run11 : world := after E11 w11 [(c0, 60); (wk 1, 100); (c1, 50); (wk 1, 83); (c0, 2); (wk 1, 200); (c0, 50)].

(** C39: the queue size read while the entry action of B runs *)
Definition E12 : env :=
  demo own_strat (fun m => m) demo_app quiet [[AStart 0; AFire 0 (EUser 0)]; [AQSize 0]] (fun _ => 1).
Definition w12 : mem := demo_mem E12 (fun _ => abc) (fun _ => None) one_act (fun _ => None).
Definition run12 : world := after E12 w12 [(c0, 200); (wk 0, 23); (c1, 200)].

(** C41: an executor with two threads *)
Definition E13 : env :=
  demo own_strat (fun m => m) demo_app quiet [[AStart 0; AFire 0 (EUser 0); AFire 0 (EUser 1)]] (fun _ => 2).
Definition w13 : mem := demo_mem E13 (fun _ => abc) (fun _ => None) one_act (fun _ => None).
Notation wk2 x := (TWorker x 1).
Definition run13 : world := after E13 w13 [(c0, 200); (wk 0, 13); (wk2 0, 8)].
Definition run14 : world := after E13 w13 [(c0, 200); (wk 0, 2); (wk2 0, 2); (wk 0, 200); (wk2 0, 100)].

(** C44: a transition while start() is between its entry actions and its end
    notification *)
Definition E15 : env :=
  demo own_strat (fun m => m) demo_app quiet [[AStart 0]; [AFire 0 (EUser 0)]] (fun _ => 1).
Definition w15 : mem := demo_mem E15 (fun _ => abc) a_listener one_act (fun _ => None).
Definition run15 : world := after E15 w15 [(c0, 14); (c1, 100); (wk 0, 100); (c0, 100)].

(** C26, C27: two clients pass the check before either queues its event *)
Definition bounded_strat (k : nat) : strategy :=
  {| s_drop := Nat.eqb k 1; s_exec := k; s_queue := k; s_pool := k; s_max := if Nat.eqb k 0 then 1 else 0;
     s_unmapped := UUser 0; s_ufl := FUser 0; s_states := k |}.
Definition E16 : env :=
  demo bounded_strat (fun m => m) demo_app quiet
    [[AStart 0; AStart 1; AFire 0 (EUser 0)]; [AFire 0 (EUser 0)]; [AFire 1 (EUser 0)]; [AFire 1 (EUser 0)]; [AFire 0 (EUser 0); AFire 1 (EUser 0)]] (fun _ => 1).
Definition w16 : mem := demo_mem E16 (fun _ => abc) (fun _ => None) (fun _ _ => []) (fun _ => None).
Definition run16 : world := after E16 w16
  [(c0, 30); (c1, 100); (c0, 100); (c2, 9); (TClient 3, 100); (c2, 100); (TClient 4, 100)].
