(** * ErrorRefute.v: errors reported to an app service that get lost (for C67) *)
From Verif Require Import OwnSpec Spec ErrorSpec Demo19 Witness AppFailProofs.

Definition touchesb (E : env) (p : apid) (x : api) : bool :=
  match x with
  | AFire m _ | AStart m | AStartIn m _ | AStop m | ASetListener m _ | ACfg m _ => Nat.eqb m (ap_mach (apps E p))
  | AAppend _ _ _ => true
  | ASetPay (ELife _) _ => true
  | _ => false
  end.
Lemma touchesb_ok E p x : touches E p x -> touchesb E p x = true.
Proof. destruct x; simpl; try contradiction; try reflexivity; try (intros ->; apply Nat.eqb_refl). destruct e; try contradiction; reflexivity. Qed.
Definition untouched_check (E : env) (p : apid) (T : trace) : bool :=
  forallb (fun to => match snd to with OInv x => negb (touchesb E p x) | _ => true end) T.
Lemma untouched_ok E p T : untouched_check E p T = true -> forall t x, In (t, OInv x) T -> ~ touches E p x.
Proof.
  intros H t x Hi Ht. unfold untouched_check in H. rewrite forallb_forall in H. specialize (H _ Hi). simpl in H. rewrite (touchesb_ok _ _ _ Ht) in H. discriminate.
Qed.
Definition only_check (E : env) (p : apid) (T : trace) : bool :=
  untouched_check E p T && forallb (fun to => match snd to with OBack (KListen false _ _ _ _ _) (Some _) => false | _ => true end) T.
Lemma only_ok E p T : only_check E p T = true -> only_through_app E p T.
Proof.
  intro H. apply andb_prop in H. destruct H as [H1 H2]. split; [apply untouched_ok; exact H1|].
  intros t l f e st y Hi. rewrite forallb_forall in H2. specialize (H2 _ Hi). discriminate.
Qed.

(** error() between the start of the machine and the moment it leaves UNINITIALISED *)
Lemma p_C67_error_while_initialising_refuted :
  ~ forall E w0 w p, init_mem E w0 -> reach E w0 w -> app_built E w0 p -> only_through_app E p (tr (wm w)) ->
    forall t a b its d, span t (tr (wm w)) a (OInv (AAppError p)) b its (ORet (AAppError p) RvUnit) d -> started_at (ap_mach (apps E p)) a = true ->
      let q := queue_of E (ap_mach (apps E p)) in
      accepted q (tr (wm w)) = taken q (tr (wm w)) -> rests q (worker_of E (ap_mach (apps E p))) (tr (wm w)) ->
      is_stopped E p (tr (wm w)) \/ is_over E p (tr (wm w)).
Proof.
  intro H. pose (T := tr (wm (run48 22))).
  assert (Hs : spans c1 T 21 33 (OInv (AAppError 2)) (ORet (AAppError 2) RvUnit)) by sp.
  assert (Hst : started_at 2 (part 0 21 T) = true) by (vm_compute; reflexivity).
  assert (Hq : accepted 2 T = taken 2 T) by (vm_compute; reflexivity).
  assert (Hre : rests 2 (wk 2) T) by (apply rests_ok; vm_compute; reflexivity).
  destruct (H E48 w48 (run48 22) 2 (demo_init _ _ _ _ _) (after_reach _ _ _) (app6_built _ _ 2) (only_ok E48 2 T eq_refl) _ _ _ _ _ Hs Hst Hq Hre) as [X|X];
    vm_compute in X; discriminate.
Qed.
(** a listener that throws when it is told that the transition begins *)
Lemma p_C67_error_with_throwing_listener_refuted :
  ~ forall E w0 w p, init_mem E w0 -> reach E w0 w -> app_built E w0 p -> (forall t x, In (t, OInv x) (tr (wm w)) -> ~ touches E p x) ->
    forall t a b its d, span t (tr (wm w)) a (OInv (AAppError p)) b its (ORet (AAppError p) RvUnit) d -> left_init E p a ->
      let q := queue_of E (ap_mach (apps E p)) in
      accepted q (tr (wm w)) = taken q (tr (wm w)) -> rests q (worker_of E (ap_mach (apps E p))) (tr (wm w)) ->
      is_stopped E p (tr (wm w)) \/ is_over E p (tr (wm w)).
Proof.
  intro H. pose (T := tr (wm run49)).
  assert (Hbu : app_built E49 w49 2) by (split; try reflexivity; [intros m' X; exact X|unfold one_thread, exec_of; simpl; lia|intros p' X; exact X]).
  assert (Hs : spans c1 T 109 121 (OInv (AAppError 2)) (ORet (AAppError 2) RvUnit)) by sp.
  assert (Hst : left_init E49 2 (part 0 109 T)) by (exists (SApp 2 STARTED); split; [vm_compute; reflexivity|discriminate]).
  assert (Hq : accepted 2 T = taken 2 T) by (vm_compute; reflexivity).
  assert (Hre : rests 2 (wk 2) T) by (apply rests_ok; vm_compute; reflexivity).
  destruct (H E49 w49 run49 2 (demo_init _ _ _ _ _) (after_reach _ _ _) Hbu (untouched_ok E49 2 T eq_refl) _ _ _ _ _ Hs Hst Hq Hre) as [X|X];
    vm_compute in X; discriminate.
Qed.
