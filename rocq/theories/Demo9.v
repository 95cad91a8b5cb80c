(** * Demo9.v: app services constructed at the same time (C55) *)
From Verif Require Export AppBuildSpec Demo6.

(** two threads, step by step in turn: each constructs an app service; one of them
    builds a default machine before, the other gives the default strategy away *)
Definition app_progs (i : nat) : list bop :=
  match i with
  | 0 => OBuild 5 :: app_constructor 0 0 0 (app_thread_name []) ++ [OBuild 5]
  | 1 => app_constructor 1 1 1 (app_thread_name [Some "x"%string; None]) ++ [OCreate 2 true CBasic; OSetStrategy 6 (Some 2); OBuild 6]
  | _ => []
  end.
Definition app_built2 : bsys := brun app_progs (flat_map (fun _ => [0; 1]) (repeat tt 80)).
(** the app services: on machine 3 that of thread 0, on machine 1 that of thread 1 *)
Definition app_rest : env := demo own_strat (fun m => m) (fun p => {| ap_mach := p; ap_exit := true; ap_subs := [0]; ap_name := "app"%string; ap_args := [] |}) quiet [] (fun _ => 1).
Definition app_mem : mem := demo_mem (env_of app_built2 app_rest) (fun m => match m with 1 | 3 => lifecycle_calls m | _ => [] end) (fun _ => None)
  (fun en st => match en, st with true, SApp p k => app_entry_actions p k | _, _ => [] end) (fun _ => None).
