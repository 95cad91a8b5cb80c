(** * SubsRefute.v: what replacing the subsystems of a running app service breaks *)
From Verif Require Import Place Demo18 AppFailProofs.

(** the tests of the witnesses *)
Definition replaces (p : apid) (to : tid * obs) : bool :=
  match snd to with OInv (AAppStart p') | OInv (AAppStop p') | OInv (AGetSubs p') | OInv (ASetSubs p' _) => Nat.eqb p' p | OInv _ => false | _ => true end.
Lemma replaces_ok p T : forallb (replaces p) T = true -> replacing_use p T.
Proof.
  intros H t x Hi. rewrite forallb_forall in H. specialize (H _ Hi). unfold replaces in H. simpl in H.
  destruct x; try discriminate; apply Nat.eqb_eq in H; subst; eauto 6.
Qed.
Lemma none_threw_ok T : forallb (fun to => match snd to with OBack _ (Some _) => false | _ => true end) T = true -> none_threw T.
Proof. intros H t c y Hi. rewrite forallb_forall in H. specialize (H _ Hi). discriminate. Qed.
Definition sets_subs (p : apid) (x : api) : bool := match x with ASetSubs p' _ => Nat.eqb p' p | _ => false end.
Definition not_replaced_check (p : apid) (h r : trace) : bool :=
  forallb (fun to => match snd to with OInv x => negb (sets_subs p x) | _ => true end) r &&
  forallb (fun to => forallb (fun f => match fst f with FApi x => negb (sets_subs p x) | _ => true end) (fst (scan (fst to) h))) h.
Lemma not_replaced_ok p h r : not_replaced_check p h r = true -> not_replaced p h r.
Proof.
  intro H. apply andb_prop in H. destruct H as [H1 H2]. rewrite forallb_forall in H1, H2. intros t l. split.
  - intro Hi. specialize (H1 _ Hi). simpl in H1. rewrite Nat.eqb_refl in H1. discriminate.
  - intros its Ho. destruct (opened_earlier t [] h (FApi (ASetSubs p l)) its Ho ltac:(discriminate)) as [[i [Hi|[]]]|(op & _ & Hin)]; [discriminate|].
    specialize (H2 _ Hin). simpl in H2. rewrite forallb_forall in H2. specialize (H2 _ Ho). simpl in H2. rewrite Nat.eqb_refl in H2. discriminate.
Qed.

(** stop() stops the new subsystems, the old ones go on *)
Lemma p_C66_nothing_runs_when_stopped_refuted :
  ~ forall E w0 w, init_mem E w0 -> reach E w0 w ->
    forall p, app_built E w0 p -> replacing_use p (tr (wm w)) -> none_threw (tr (wm w)) ->
    forall h r i, tr (wm w) = h ++ r -> cur_at (ap_mach (apps E p)) h = Some (SApp p STOPPED) -> ~ sub_runs p i h.
Proof.
  intro H. pose (T := tr (wm run45)).
  apply (H E45 w45 run45 (demo_init _ _ _ _ _) (after_reach _ _ _) 2 (app6_built _ _ 2) (replaces_ok 2 T eq_refl)
    (none_threw_ok T eq_refl)) with (h := part 0 180 T) (r := part 180 1000 T) (i := 0); [vm_compute; reflexivity..|].
  assert (Hp : part 0 180 T = part 0 44 T ++ (wk 2, OBack (KSub true 2 0) None) :: part 45 180 T) by (vm_compute; reflexivity).
  rewrite Hp. apply runs_ok. vm_compute. reflexivity.
Qed.
(** ... and a subsystem is stopped that was never started *)
Lemma p_C66_only_started_ones_are_stopped_refuted :
  ~ forall E w0 w, init_mem E w0 -> reach E w0 w ->
    forall p, app_built E w0 p -> replacing_use p (tr (wm w)) -> none_threw (tr (wm w)) ->
    forall h t r i, tr (wm w) = h ++ (t, OCall (KSub false p i)) :: r -> sub_started p i h.
Proof.
  intro H. pose (T := tr (wm run45)).
  destruct (H E45 w45 run45 (demo_init _ _ _ _ _) (after_reach _ _ _) 2 (app6_built _ _ 2) (replaces_ok 2 T eq_refl)
    (none_threw_ok T eq_refl) (part 0 135 T) (wk 2) (part 136 1000 T) 2) as [t Hi]; [vm_compute; reflexivity|].
  assert (Hf : forallb (fun to => match snd to with OBack (KSub true 2 2) None => false | _ => true end) (part 0 135 T) = true) by (vm_compute; reflexivity).
  rewrite forallb_forall in Hf. specialize (Hf _ Hi). discriminate.
Qed.
