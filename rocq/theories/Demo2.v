(** * Demo2.v: executions with listeners, exception handling actions, action
    appending and app services (used by the Examples) *)
From Verif Require Export Demo.

(** machine 0: multi-consumer listener 0; entry actions of B: one that throws,
    wrapped in an exception handler; one that appends to the list; another.
    machine 3: the first entry action of its initial state appends *)
Definition acts5 (en : bool) (s : sid) : list action :=
  match en, s with
  | true, SUser 1 => [AHandle (AUser 20) (HUser 0); AUser 11; AUser 13]
  | true, SUser 3 => [AUser 30; AUser 31]
  | true, SUser n => [AUser (10 + n)]
  | false, SUser n => [AUser n]
  | _, _ => []
  end.
Definition E5 : env :=
  demo own_strat (fun m => m) demo_app
    (fun c _ => match c with
     | KInner (AUser 20) _ _ => UThrow (XUser 4)
     | KAct true (AUser 11) _ _ _ => UDo (AAppend true (SUser 1) [Some (AUser 99)]) (fun _ => URet)
     | KAct true (AUser 30) _ _ _ => UDo (AAppend true (SUser 3) [Some (AUser 99)]) (fun _ => URet)
     | KListen true (LLeaf (LfUser 2)) _ _ _ _ => UThrow (XUser 8)
     | _ => URet end)
    [[AMultiAdd 0 (LfUser 1); AMultiAdd 0 (LfUser 1); AMultiAdd 0 (LfLog 5 (Some "m"%string));
      AMultiRem 0 (LfUser 9); AStart 0; AMultiRem 0 (LfUser 1); AMultiAdd 0 (LfUser 2); AMultiAdd 0 (LfUser 3);
      AFire 0 (EUser 0); AFire 0 (EUser 1); AStart 3]] (fun _ => 1).
Definition w5 : mem :=
  demo_mem E5 (fun m => match m with 3 => [CInit (SUser 3); CReceives (EUser 0); CTo (SUser 0)] | _ => flow_cfg end)
    (fun m => match m with 0 => Some (LMulti 0) | _ => None end) acts5 (fun _ => None).
Definition run5 : world := after E5 w5 [(c0, 300); (wk 0, 300)].

(** app 1 in exit mode, app 2 restartable, each with two subsystems; subsystem 1
    of app 2 throws when stopped, and its first start throws too *)
Definition app6 (p : nat) : app :=
  {| ap_mach := p; ap_exit := Nat.eqb p 1; ap_subs := [0; 1]; ap_name := "app"; ap_args := ["a"; "b"] |}.
Definition acts6 (en : bool) (s : sid) : list action :=
  match en, s with true, SApp p k => app_entry_actions p k | _, _ => [] end.
Definition E6 : env :=
  demo own_strat (fun m => m) app6
    (fun c h => match c with
     | KSub true 2 1 => if existsb (fun to => match snd to with OBack (KSub true 2 1) _ => true | _ => false end) h then URet else UThrow (XUser 1)
     | KSub false 2 1 => UThrow (XUser 2)
     | _ => URet end)
    [[AAppStart 1; AAppStop 1]; [AAppStart 2];
     [AAppStop 1; AAppStart 1; AAppStart 2]; [AAppStop 2]; [AAppStop 2]; [AAppStop 1]; [AAppStop 1]] (fun _ => 1).
Definition w6 : mem := demo_mem E6 (fun m => lifecycle_calls m) (fun _ => None) acts6 (fun _ => None).
Notation c2 := (TClient 2).
(** app 1: started by client 0, which blocks; worker 1 starts it; client 5
    stops it; worker 1 stops it (client 6 calls stop again just then) and
    releases client 0.  app 2: started by client 1, the start fails; started
    again by client 2 and stopped by client 3, then by client 4 *)
Definition run6 : world := after E6 w6
  [(c0, 60); (c2, 5); (wk 1, 100); (c1, 60); (wk 2, 200); (c2, 100); (wk 2, 200);
   (TClient 3, 50); (wk 2, 200); (TClient 4, 50); (wk 2, 200);
   (TClient 5, 50); (wk 1, 88); (TClient 6, 50); (wk 1, 200); (c0, 50)].
