(** * PropsSubs.v: the subsystems of an app service, which may be replaced (C66) *)
From Verif Require Import SubsSpec SubsProofs SubsRefute Demo18.

(** ** C66: which subsystems are started and stopped *)
(** Whenever a subsystem of an app service is started (stopped), the action of
    STARTING (STOPPING) is running.  The subsystem is one of those that
    getSubsystems() returned at a moment of this action, and the ones before it
    in the list (after it, when stopping) have been started (stopped) without
    exception in this action. *)
Theorem C66_dealt_with :
  forall E w0 w, init_mem E w0 -> reach E w0 w ->
  forall up p i h t r, tr (wm w) = h ++ (t, OCall (KSub up p i)) :: r ->
    exists a c b its e m, performs c (subs_action up p) e m /\ h = a ++ (t, OCall c) :: b /\ fst (scan t b) = [(FRoot, its)] /\
      exists b1 b2 l l1 l2, b = b1 ++ (t, ORd (RdSubs p l)) :: b2 /\ l = subsystems_at w0 p (a ++ (t, OCall c) :: b1) /\
        in_order up l = l1 ++ i :: l2 /\ filter (is_sub p) its = flat_map (fun j => called (KSub up p j) None) l1.
Proof. exact dealt_with. Qed.
Print Assumptions C66_dealt_with.
(** the last subsystem that is started, and the first that is stopped *)
Example C66_dealt_with_example :
  let T := tr (wm run45) in
  init_mem E45 w45 /\ reach E45 w45 run45 /\
  T = part 0 133 T ++ (wk 2, OCall (KSub false 2 1)) :: part 134 1000 T /\
  T = part 0 216 T ++ (wk 2, OCall (KSub true 2 1)) :: part 217 1000 T /\
  subsystems_at w45 2 (part 0 42 T) = [0; 1] /\ subsystems_at w45 2 (part 0 132 T) = [2; 1].
Proof. cbv zeta. split; [apply demo_init|]. split; [apply after_reach|].
  split; [vm_compute; reflexivity|]. split; [vm_compute; reflexivity|]. split; vm_compute; reflexivity.
Qed.

(** If withSubsystems() is not called between the beginning of the action of
    STARTING and the end of the action of STOPPING, the second stops the
    subsystems that the first has started, in reverse order, up to the first that
    throws. *)
Theorem C66_mirrored :
  forall E w0 w, init_mem E w0 -> reach E w0 w ->
  forall p t a c b its d e m t' r c' b' its' x' d' e' m',
    performs c (AAppStarting p) e m -> span t (tr (wm w)) a (OCall c) b its (OBack c None) d ->
    let a' := a ++ (t, OCall c) :: b ++ (t, OBack c None) :: r in
    performs c' (AAppStopping p) e' m' -> span t' (tr (wm w)) a' (OCall c') b' its' (OBack c' x') d' ->
    not_replaced p a ((t, OCall c) :: b ++ (t, OBack c None) :: r ++ (t', OCall c') :: b') ->
    exists l y, filter (is_sub p) its = flat_map (fun i => called (KSub true p i) None) l /\
      one_by_one (map (KSub false p) (rev l)) y (filter (is_sub p) its') /\ (y = None \/ x' = y).
Proof. exact mirrored. Qed.
Print Assumptions C66_mirrored.
Example C66_mirrored_example :
  let T := tr (wm (run32 300)) in
  let c := KInner (AAppStarting 2) (ELife LStart) 2 in let c' := KInner (AAppStopping 2) (ELife LStop) 2 in
  init_mem E32 w32 /\ reach E32 w32 (run32 300) /\
  spans (wk 2) T 40 57 (OCall c) (OBack c None) /\ spans (wk 2) T 121 138 (OCall c') (OBack c' None) /\
  not_replaced 2 (part 0 40 T) (part 40 138 T) /\
  filter (is_sub 2) (items (wk 2) (part 41 57 T)) = called (KSub true 2 0) None ++ called (KSub true 2 1) None /\
  filter (is_sub 2) (items (wk 2) (part 122 138 T)) = called (KSub false 2 1) None ++ called (KSub false 2 0) None.
Proof.
  cbv zeta. split; [apply demo_init|]. split; [apply after_reach|]. split; [sp|]. split; [sp|].
  split; [apply not_replaced_ok; vm_compute; reflexivity|]. split; vm_compute; reflexivity.
Qed.

(** What the thread that calls withSubsystems() did before - setting up the
    subsystems, say - happens-before the starting (stopping) of subsystems in
    every action that begins after the call has returned. *)
Theorem C66_published :
  forall E w0 w, init_mem E w0 -> reach E w0 w ->
  forall p l t a b its v d t' r1 c e m b' its' up i r,
    span t (tr (wm w)) a (OInv (ASetSubs p l)) b its (ORet (ASetSubs p l) v) d ->
    let a' := a ++ (t, OInv (ASetSubs p l)) :: b ++ (t, ORet (ASetSubs p l) v) :: r1 in
    performs c (subs_action up p) e m -> tr (wm w) = a' ++ (t', OCall c) :: b' ++ (t', OCall (KSub up p i)) :: r ->
    fst (scan t' b') = [(FRoot, its')] ->
    forall k o, k <= List.length a -> on (tr (wm w)) k t o -> hb sw_min (tr (wm w)) k (List.length (a' ++ (t', OCall c) :: b')).
Proof. exact published. Qed.
Print Assumptions C66_published.
Example C66_published_example :
  let T := tr (wm run45) in
  let c := KInner (AAppStarting 2) (ELife LStart) 2 in
  init_mem E45 w45 /\ reach E45 w45 run45 /\
  spans c1 T 94 96 (OInv (ASetSubs 2 [2; 1])) (ORet (ASetSubs 2 [2; 1]) RvUnit) /\ performs c (subs_action true 2) (ELife LStart) 2 /\
  T = part 0 211 T ++ (wk 2, OCall c) :: part 212 216 T ++ (wk 2, OCall (KSub true 2 1)) :: part 217 1000 T /\
  (exists its, fst (scan (wk 2) (part 212 216 T)) = [(FRoot, its)]) /\
  on T 92 c1 (ORd (RdSubs 2 [0; 1])).
Proof.
  cbv zeta. split; [apply demo_init|]. split; [apply after_reach|]. split; [sp|]. split; [right; reflexivity|].
  split; [vm_compute; reflexivity|]. split; [eexists; vm_compute; reflexivity|vm_compute; reflexivity].
Qed.

(** *** What one expects when the subsystems of a running app are replaced, and does not get *)
(** The old subsystems are not stopped by stop(). *)
Theorem C66_nothing_runs_when_stopped_refuted :
  ~ forall E w0 w, init_mem E w0 -> reach E w0 w ->
    forall p, app_built E w0 p -> replacing_use p (tr (wm w)) -> none_threw (tr (wm w)) ->
    forall h r i, tr (wm w) = h ++ r -> cur_at (ap_mach (apps E p)) h = Some (SApp p STOPPED) -> ~ sub_runs p i h.
Proof. exact p_C66_nothing_runs_when_stopped_refuted. Qed.
Print Assumptions C66_nothing_runs_when_stopped_refuted.
(** The new ones are, although they were never started. *)
Theorem C66_only_started_ones_are_stopped_refuted :
  ~ forall E w0 w, init_mem E w0 -> reach E w0 w ->
    forall p, app_built E w0 p -> replacing_use p (tr (wm w)) -> none_threw (tr (wm w)) ->
    forall h t r i, tr (wm w) = h ++ (t, OCall (KSub false p i)) :: r -> sub_started p i h.
Proof. exact p_C66_only_started_ones_are_stopped_refuted. Qed.
Print Assumptions C66_only_started_ones_are_stopped_refuted.
(** the execution behind both *)
Example C66_refuted_example :
  subsystem_marks 2 (tr (wm run45)) =
    flat_map (fun k => called k None) [KSub true 2 0; KSub true 2 1; KSub false 2 1; KSub false 2 2; KSub true 2 2; KSub true 2 1].
Proof. vm_compute. reflexivity. Qed.
