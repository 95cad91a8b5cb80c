(** * Demo11.v: a multi-consumer listener that changes while it is notified (used
    by the Examples) *)
From Verif Require Import Demo Demo3 Machine Sched.

(** machine 0 has multi-consumer listener 0 with consumers 1 and 3.  When it is
    notified of the start, consumer 1 removes itself, adds 2 and removes 3 *)
Definition E27 : env :=
  {| st_name := demo_st; ev_name := demo_ev; strat_of := fun m => m; strat := own_strat; apps := demo_app;
     behav := fun c _ => match c with
       | KListen false (LLeaf (LfUser 1)) _ _ _ _ =>
           UDo (AMultiRem 0 (LfUser 1)) (fun _ => UDo (AMultiAdd 0 (LfUser 2)) (fun _ => UDo (AMultiRem 0 (LfUser 3)) (fun _ => URet)))
       | _ => URet end;
     clients := fun n => calls (nth n [[AMultiAdd 0 (LfUser 1); AMultiAdd 0 (LfUser 3); AStart 0]] []);
     n_clients := 1; n_execs := 10; n_workers := fun _ => 1;
     chance := fun h => match rev h with (_, OCall (KListen _ (LMulti _) _ _ _ _)) :: _ => 5 | _ => 0 end |}.
Definition w27 : mem := demo_mem E27 (fun _ => flow_cfg) (fun m => match m with 0 => Some (LMulti 0) | _ => None end) (fun _ _ => []) (fun _ => None).
Definition run27 : world := after E27 w27 [(c0, 100)].
