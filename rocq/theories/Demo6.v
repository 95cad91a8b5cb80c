(** * Demo6.v: machines built with and without Config objects *)
From Verif Require Export BuildSpec Demo3.

(** one thread builds two machines without setting a strategy *)
Definition two_builds (i : nat) : list bop := match i with 0 => [OBuild 0; OBuild 1] | _ => [] end.
Definition built2 : bsys := brun two_builds (repeat 0 60).
(** the machines of E10 (Demo3.v), but built that way *)
Definition E20 : env := env_of built2 E10.
Definition w20 : mem :=
  demo_mem E20 (fun m => match m with 0 => abc | _ => [CInit (SUser 3); CReceives (EUser 0); CTo (SUser 0)] end) (fun _ => None) (fun _ _ => []) (fun _ => None).
Definition run20 : world := after E20 w20 [(c0, 200); (wk 5, 200)].
Definition run20' : world := after E20 w20 [(c0, 200); (c1, 100); (wk 5, 200)].

(** one Builder used twice: machines with different configurations *)
Definition reused (i : nat) : list bop := match i with 0 => [OBuild 0; OBuild 0] | _ => [] end.
Definition built21 : bsys := brun reused (repeat 0 60).
Definition E21 : env := env_of built21 (demo own_strat (fun m => m) demo_app quiet [[AStart 0; AFire 0 (EUser 0)]] (fun _ => 1)).
Definition w21 : mem :=
  demo_mem E21 (fun m => match m with 0 => abc | _ => [CInit (SUser 3); CReceives (EUser 0); CTo (SUser 0)] end) (fun _ => None) (fun _ _ => []) (fun _ => None).
Definition run21 : world := after E21 w21 [(c0, 200); (wk 5, 200)].

(** two threads building at the same time: different queues; the same queue but
    different executors *)
Definition racing (i : nat) : list bop := match i with 0 | 1 => [OBuild i] | _ => [] end.
Definition raced : bsys := brun racing (repeat 0 12 ++ repeat 1 9 ++ repeat 0 30 ++ repeat 1 30).
Definition raced_exec : bsys := brun racing (repeat 0 5 ++ repeat 1 4 ++ repeat 0 30 ++ repeat 1 30).

(** two Config objects, one with settings; a drop duplicate strategy; a default
    machine *)
Definition mixed (i : nat) : list bop :=
  match i with
  | 0 => [OWith 0 FExec (Some 3); OMax 0 5; OName 0 (Some "n"); OCreate 0 true (CUser 0); OSetStrategy 0 (Some 0); OBuild 0; OMax 0 7]
  | 1 => [OName 1 (Some "k"); OCreate 1 false (CUser 1); OSetStrategy 1 (Some 1); OBuild 1; OBuild 2]
  | _ => []
  end.
Definition built_mixed : bsys := brun mixed (flat_map (fun _ => [0; 1]) (repeat tt 60)).

(** two strategies from one Config, the thread name given in between, with and
    without an executor *)
Definition named_calls (i : nat) : list bop :=
  match i with 0 => [OCreate 0 false (CUser 0); OName 0 (Some "n"); OWith 0 FExec (Some 4); OCreate 1 true (CUser 0)] | _ => [] end.
Definition named : bsys := brun named_calls (repeat 0 40).
Definition renamed_calls (i : nat) : list bop :=
  match i with 0 => [OCreate 0 false (CUser 0); OName 0 (Some "n"); OCreate 1 false (CUser 0)] | _ => [] end.
Definition renamed : bsys := brun renamed_calls (repeat 0 40).
