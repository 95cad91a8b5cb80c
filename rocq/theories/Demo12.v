(** * Demo12.v: accessors, mutators and configuration calls while a machine runs
    (used by the Examples) *)
From Verif Require Export Demo.

(** client 0: configures machine 0 (twice wrongly), gives it a listener, appends
    an action to A and sets a payload; starts it, fires an event that is not mapped;
    client 1 looks at it, reports an error of the app of machine 2 *)
Definition strat28 (k : nat) : strategy :=
  {| s_drop := false; s_exec := k; s_queue := k; s_pool := k; s_max := 0;
     s_unmapped := UDefault; s_ufl := FUser 0; s_states := k |}.
Definition E28 : env :=
  demo strat28 (fun m => m) demo_app quiet
    [[ACfg 0 (CWhen (SUser 0)); ACfg 0 (CInit (SUser 0)); ACfg 0 (CReceives (EUser 0)); ACfg 0 (CTo (SUser 1)); ACfg 0 CEnds;
      ASetListener 0 (Some (LLeaf (LfUser 7))); AAppend true (SUser 0) [Some (AUser 11); None; Some (AUser 12)];
      ASetPay (EUser 1) (Some 5); AStart 0; AFire 0 (EUser 2)];
     [AIsStarted 0; AIsEnded 0; AGetCur 0; AGetPay (EUser 1); AAppError 2; AStop 0; AIsEnded 0]] (fun _ => 1).
Definition w28 : mem := demo_mem E28 (fun _ => []) (fun _ => None) one_act (fun _ => None).
Definition run28 : world := after E28 w28 [(c1, 3); (c0, 200); (wk 0, 100); (c1, 100)].
