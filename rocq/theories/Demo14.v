(** * Demo14.v: app services whose subsystems fail (used by the Examples and by
    the refutations about subsystems) *)
From Verif Require Export Demo Demo2 Demo3 Demo8 Demo13.

(** app service 1 (exit-on-stop): subsystem 1 throws when it is started *)
Definition E30 : env :=
  demo own_strat (fun m => m) app6 (fun c _ => match c with KSub true 1 1 => UThrow (XUser 1) | _ => URet end)
    [[AAppStart 1]] (fun x => if Nat.eqb x 1 then 1 else 0).
Definition w30 : mem := demo_mem E30 (fun m => lifecycle_calls m) (fun _ => None) acts6 (fun _ => None).
Definition run30 : world := after E30 w30 [(c0, 60); (wk 1, 300); (c0, 50)].

(** app service 2 (restartable): error() while it is STARTED, then start() again *)
Definition E31 : env :=
  demo own_strat (fun m => m) app6 quiet [[AAppStart 2]; [AAppError 2]; [AAppStart 2]] (fun x => if Nat.eqb x 2 then 1 else 0).
Definition w31 : mem := demo_mem E31 (fun m => lifecycle_calls m) (fun _ => None) acts6 (fun _ => None).
Definition run31 : world := after E31 w31 [(c0, 60); (wk 2, 300); (c1, 50); (wk 2, 300); (c2, 50); (wk 2, 300)].

(** app service 2: started, stopped; then start(), error() and start() are called
    before its thread gets its turn; the third start of subsystem 1 fails *)
Definition starts_of (h : trace) : nat := List.length (filter (fun to => match snd to with OBack (KSub true 2 1) _ => true | _ => false end) h).
Definition E32 : env :=
  demo own_strat (fun m => m) app6
    (fun c h => match c with KSub true 2 1 => if Nat.eqb (starts_of h) 2 then UThrow (XUser 1) else URet | _ => URet end)
    [[AAppStart 2]; [AAppStop 2]; [AAppStart 2]; [AAppError 2]; [AAppStart 2]] (fun x => if Nat.eqb x 2 then 1 else 0).
Definition w32 : mem := demo_mem E32 (fun m => lifecycle_calls m) (fun _ => None) acts6 (fun _ => None).
Definition run32 (n : nat) : world := after E32 w32 [(c0, 60); (wk 2, 300); (c1, 50); (wk 2, 300); (c2, 50); (c3, 50); (c4, 50); (wk 2, n)].

(** app service 2: client 1 calls stop() and reads STARTED, client 2 stops the app
    meanwhile, then client 1 goes on *)
Definition E33 : env :=
  demo own_strat (fun m => m) app6 quiet [[AAppStart 2]; [AAppStop 2]; [AAppStop 2]] (fun x => if Nat.eqb x 2 then 1 else 0).
Definition w33 : mem := demo_mem E33 (fun m => lifecycle_calls m) (fun _ => None) acts6 (fun _ => None).
Definition run33 : world := after E33 w33 [(c0, 60); (wk 2, 300); (c1, 3); (c2, 50); (wk 2, 300); (c1, 50); (wk 2, 300)].
