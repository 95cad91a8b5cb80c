(** * Demo18.v: an app service whose subsystems are replaced (for C66) *)
From Verif Require Export Demo Demo2 Demo3 Demo14 SubsSpec Witness.

(** app service 2 (restartable) with subsystems 0 and 1: started by client 0,
    stopped by client 2; client 1 replaces the subsystems by 2 and 1 in between,
    client 3 starts the app again *)
Definition E45 : env :=
  demo own_strat (fun m => m) app6 quiet [[AAppStart 2]; [AGetSubs 2; ASetSubs 2 [2; 1]; AGetSubs 2]; [AAppStop 2]; [AAppStart 2]]
    (fun x => if Nat.eqb x 2 then 1 else 0).
Definition w45 : mem := demo_mem E45 (fun m => lifecycle_calls m) (fun _ => None) acts6 (fun _ => None).
Definition run45 : world := after E45 w45 [(c0, 60); (wk 2, 300); (c1, 50); (TClient 2, 50); (wk 2, 300); (TClient 3, 50); (wk 2, 300)].
