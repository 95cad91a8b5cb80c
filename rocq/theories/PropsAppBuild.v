(** * PropsAppBuild.v: the state machine an app service makes for itself (C55) *)
From Verif Require Import Spec AppBuildSpec AppBuildProofs Demo9.

(** ** C55: the machine of an app service *)
(** However the constructor is interleaved with other threads that build machines,
    strategies and app services: the machine has a queue and an executor that no
    other machine has, the executor one thread, named after the app, the queue no
    limit, the machine its own table and the default handlers, and drops no
    duplicates. *)
Theorem C55_own_machine :
  forall progs i before u h b calls after, constructs progs i before u h b (app_thread_name calls) after ->
  forall sched rest mid r name, let s := brun progs sched in let E := env_of s rest in
    after = mid ++ r -> finished s i r -> named_by calls name ->
    exists m, (exists d, built_with s m d /\ made_from s d (CUser u)) /\
      (forall m' d', built_with s m' d' -> made_from s d' (CUser u) -> m' = m) /\
      private_queue E m /\ n_workers E (exec_of E m) = 1 /\ (forall m', exec_of E m' = exec_of E m -> m' = m) /\ table_of E m = m /\
      s_drop (strat E (strat_of E m)) = false /\ s_max (strat E (strat_of E m)) = (-1)%Z /\
      s_unmapped (strat E (strat_of E m)) = UDefault /\ s_ufl (strat E (strat_of E m)) = FDefault /\
      exists k, exec_of E m = 4 * k + 1 /\ nth_error (origin s) k = Some (CUser u, FExec, name).
Proof. exact own_named. Qed.
Print Assumptions C55_own_machine.

(** So it is as C52 and C53 take it to be, once it is configured. *)
Theorem C55_app_built :
  forall progs i before u h b n after, constructs progs i before u h b n after ->
  forall sched rest mid r p w0 d, let s := brun progs sched in let E := env_of s rest in
    after = mid ++ r -> finished s i r -> built_with s (ap_mach (apps rest p)) d -> made_from s d (CUser u) ->
    app_configured E w0 p -> app_built E w0 p.
Proof. exact app_is_built. Qed.
Print Assumptions C55_app_built.

(** two threads in turn: each constructs an app service and does other things *)
Example C55_example :
  constructs app_progs 0 [OBuild 5] 0 0 0 (app_thread_name []) [OBuild 5] /\ named_by [] "app" /\
  constructs app_progs 1 [] 1 1 1 (app_thread_name [Some "x"%string; None]) [OCreate 2 true CBasic; OSetStrategy 6 (Some 2); OBuild 6] /\ named_by [Some "x"%string; None] "state-machine" /\
  finished app_built2 0 [] /\ finished app_built2 1 [] /\
  map snd (machines app_built2) = [0; 1; 2; 3; 0] /\
  map d_from (dstrats app_built2) = [Some CBasic; Some (CUser 1); Some CBasic; Some (CUser 0)] /\
  built_with app_built2 (ap_mach (apps app_rest 1)) 1 /\ made_from app_built2 1 (CUser 1) /\ app_configured (env_of app_built2 app_rest) app_mem 1 /\
  built_with app_built2 (ap_mach (apps app_rest 3)) 3 /\ made_from app_built2 3 (CUser 0) /\ app_configured (env_of app_built2 app_rest) app_mem 3.
Proof.
  assert (Hc : forall p, In p [1; 3] -> app_configured (env_of app_built2 app_rest) app_mem p).
  { intros p [<-|[<-|[]]]; constructor; try reflexivity; intros p' Hp'; exact Hp'. }
  split; [|split; [constructor|split; [|split; [exact (n_null [Some "x"%string])|]]]].
  1, 2: (constructor; [reflexivity| | |]; [intros op H..|intros [|[|j]] op Hj H; [try congruence..|contradiction]]; simpl in H;
    repeat (destruct H as [<-|H]); try contradiction; simpl; intuition congruence).
  split; [vm_compute; reflexivity|]. split; [vm_compute; reflexivity|]. split; [vm_compute; reflexivity|]. split; [vm_compute; reflexivity|].
  split; [exists false; vm_compute; reflexivity|]. split; [eexists; vm_compute; split; reflexivity|]. split; [apply Hc; simpl; auto|].
  split; [exists false; vm_compute; reflexivity|]. split; [eexists; vm_compute; split; reflexivity|apply Hc; simpl; auto].
Qed.
