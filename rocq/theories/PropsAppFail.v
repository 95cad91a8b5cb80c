(** * PropsAppFail.v: app services whose subsystems fail (C59) *)
From Verif Require Import AppFailSpec AppFailProofs Demo14.

(** ** C59: what one expects of the subsystems, and does not get *)
(** When start() of an exit-on-stop app returns normally, one of its subsystems
    may still run: one that was started before another one failed is never
    stopped. *)
Theorem C59_nothing_runs_after_start_returns_refuted :
  ~ forall E w0 w, init_mem E w0 -> reach E w0 w ->
    forall p, app_built E w0 p -> proper_use p (tr (wm w)) -> ap_exit (apps E p) = true ->
    forall h t r i, tr (wm w) = h ++ (t, ORet (AAppStart p) RvUnit) :: r -> ~ sub_runs p i h.
Proof. exact p_C59_nothing_runs_after_start_returns_refuted. Qed.
Print Assumptions C59_nothing_runs_after_start_returns_refuted.

(** The same in the state STOPPED, without any subsystem failing: error() takes
    a STARTED app to STOPPED without stopping its subsystems. *)
Theorem C59_nothing_runs_when_stopped_refuted :
  ~ forall E w0 w, init_mem E w0 -> reach E w0 w ->
    forall p, app_built E w0 p -> proper_use p (tr (wm w)) -> (forall t b i y, ~ In (t, OBack (KSub b p i) (Some y)) (tr (wm w))) ->
    forall h r i, tr (wm w) = h ++ r -> cur_at (ap_mach (apps E p)) h = Some (SApp p STOPPED) -> ~ sub_runs p i h.
Proof. exact p_C59_nothing_runs_when_stopped_refuted. Qed.
Print Assumptions C59_nothing_runs_when_stopped_refuted.

(** A restart then starts subsystems that already run. *)
Theorem C59_started_only_when_not_running_refuted :
  ~ forall E w0 w, init_mem E w0 -> reach E w0 w ->
    forall p, app_built E w0 p -> proper_use p (tr (wm w)) -> (forall t b i y, ~ In (t, OBack (KSub b p i) (Some y)) (tr (wm w))) ->
    forall h t r i, tr (wm w) = h ++ (t, OCall (KSub true p i)) :: r -> ~ sub_runs p i h.
Proof. exact p_C59_started_only_when_not_running_refuted. Qed.
Print Assumptions C59_started_only_when_not_running_refuted.

(** In STARTED not every subsystem need run: the complete event of an earlier
    start can complete a later one that failed. *)
Theorem C59_started_means_running_refuted :
  ~ forall E w0 w, init_mem E w0 -> reach E w0 w ->
    forall p, app_built E w0 p -> proper_use p (tr (wm w)) ->
    cur_at (ap_mach (apps E p)) (tr (wm w)) = Some (SApp p STARTED) ->
    forall i, In i (ap_subs (apps E p)) -> sub_runs p i (tr (wm w)).
Proof. exact p_C59_started_means_running_refuted. Qed.
Print Assumptions C59_started_means_running_refuted.

(** A restartable app that users only start, and only stop when it is STARTED,
    can end for good: when stop() is called twice at the same time. *)
Theorem C59_restartable_stays_restartable_refuted :
  ~ forall E w0 w, init_mem E w0 -> reach E w0 w ->
    forall p, app_built E w0 p -> restartable E p ->
    (forall h t x r, tr (wm w) = h ++ (t, OInv x) :: r -> x = AAppStart p \/ (x = AAppStop p /\ cur_at (ap_mach (apps E p)) h = Some (SApp p STARTED))) ->
    (forall t c y, ~ In (t, OBack c (Some y)) (tr (wm w))) ->
    ended_at (ap_mach (apps E p)) (tr (wm w)) = false.
Proof. exact p_C59_restartable_stays_restartable_refuted. Qed.
Print Assumptions C59_restartable_stays_restartable_refuted.

(** the executions behind these: app service 1, whose subsystem 1 throws; app
    service 2 after error() and start(); app service 2 whose third start fails *)
Example C59_example :
  subsystem_marks 1 (tr (wm run30)) = called (KSub true 1 0) None ++ called (KSub true 1 1) (Some (XUser 1)) /\
  In (c0, ORet (AAppStart 1) RvUnit) (tr (wm run30)) /\ cur_at 1 (tr (wm run30)) = Some (SEnd 1) /\
  subsystem_marks 2 (tr (wm run31)) = flat_map (fun k => called k None) [KSub true 2 0; KSub true 2 1; KSub true 2 0; KSub true 2 1] /\
  cur_at 2 (tr (wm (run32 157))) = Some (SApp 2 STARTED) /\ cur_at 2 (tr (wm (run32 400))) = Some (SApp 2 STOPPED) /\
  ended_at 2 (tr (wm run33)) = true.
Proof.
  split; [vm_compute; reflexivity|]. split; [apply (nth_error_In _ 128); vm_compute; reflexivity|]. repeat split; vm_compute; reflexivity.
Qed.
