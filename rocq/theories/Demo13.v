(** * Demo13.v: the default flow listener; app services whose start() is interrupted
    (used by the Examples) *)
From Verif Require Export Demo Demo3.

Definition strat29 (k : nat) : strategy :=
  {| s_drop := false; s_exec := k; s_queue := k; s_pool := k; s_max := 0;
     s_unmapped := UDefault; s_ufl := FDefault; s_states := k |}.
(** client 0 starts app service 2 (restartable), client 1 interrupts it while it
    waits; client 2 fires an event on machine 0 too early, one whose entry action
    throws and one too late; client 3 starts app service 1 and client 4 stops it *)
Definition E29 : env :=
  demo strat29 (fun m => m) app6
    (fun c _ => match c with KAct true (AUser 10) _ _ _ => UThrow (XUser 1) | _ => URet end)
    [[AAppStart 2]; [AInterrupt 0];
     [AFire 0 (EUser 0); AStart 0; AFire 0 (EUser 0); AStop 0; AFire 0 (EUser 1)];
     [AAppStart 1]; [AAppStop 1]] (fun _ => 1).
Definition w29 : mem :=
  demo_mem E29 (fun m => match m with 0 => abc | _ => lifecycle_calls m end) (fun _ => None)
    (fun en s => match s with SUser 1 => if en then [AUser 10] else [] | SUser _ => [] | _ => acts6 en s end) (fun _ => None).
Notation c3 := (TClient 3). Notation c4 := (TClient 4).
Definition run29 : world := after E29 w29 [(c2, 31); (wk 0, 100); (c2, 100); (c0, 100); (wk 2, 200); (c1, 100); (c0, 100); (wk 2, 200); (c3, 100); (wk 1, 200); (c4, 100); (wk 1, 200); (c3, 100)].
