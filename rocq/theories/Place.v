(** * Place.v: where in the call structure a mark of the trace lies *)
From Verif Require Import Spec MemInv Lang Tree Nodes Marks QueueProofs.

Lemma thread_obs_one t t' o : thread_obs t [(t', o)] = if tid_eqb t' t then [o] else [].
Proof. unfold thread_obs. simpl. destruct (tid_eqb t' t); reflexivity. Qed.
Lemma tid_eqb_refl t : tid_eqb t t = true.
Proof. unfold tid_eqb. destruct (tid_eq_dec t t); congruence. Qed.
Lemma tid_eqb_neq t t' : t' <> t -> tid_eqb t' t = false.
Proof. unfold tid_eqb. destruct (tid_eq_dec t' t); congruence. Qed.

(** the stack after the marks of [l] inside a bracket *)
Lemma under l : forall u its, fst (scan0 l) = u ++ [(FRoot, its)] ->
  forall k i st, fst (scanl ((k, i) :: st, []) l) = u ++ (k, i ++ its) :: st.
Proof.
  induction l as [|l x IH] using snoc_ind; intros u its H k i st.
  - simpl in H. destruct u as [|f u]; [injection H as <-; simpl; rewrite app_nil_r; reflexivity|]. destruct u; discriminate.
  - rewrite scan_fst_snoc in H. rewrite scanl_snoc.
    destruct (scanl ((k, i) :: st, []) l) as [st' ns'] eqn:Es.
    rewrite scan1_nodes. simpl.
    unfold scan1 in *.
    assert (Hst : forall u its, fst (scan0 l) = u ++ [(FRoot, its)] -> st' = u ++ (k, i ++ its) :: st).
    { intros u1 i1 H1. specialize (IH _ _ H1 k i st). rewrite Es in IH. exact IH. }
    destruct (closes x) eqn:Ec.
    + destruct (fst (scan0 l)) as [|[k1 i1] r] eqn:El; [simpl in H; destruct u; discriminate|].
      simpl in H. destruct (add_item_split _ _ _ _ _ H) as [(-> & k2 & i2 & Hf & ->)|(u0 & -> & Hu & ->)].
      * injection Hf as <- ->. rewrite (Hst [(k1, i1)] i2 eq_refl). simpl. rewrite app_assoc. reflexivity.
      * rewrite (Hst ((k1, i1) :: u0) its eq_refl). simpl. destruct u0 as [|[k3 i3] u0]; [congruence|]. reflexivity.
    + destruct (opens x) as [kk|] eqn:Eo; simpl in H.
      * destruct u as [|f u]; [simpl in H; injection H as -> Hx _; exfalso; apply (opens_not_root _ _ Eo eq_refl)|].
        injection H as <- H. destruct (add_item_split _ _ _ _ _ H) as [(-> & k2 & i2 & Hf & Hl)|(u0 & -> & Hu & Hl)].
        -- injection Hf as <- ->. rewrite (Hst [] i2 Hl). simpl. rewrite app_assoc. reflexivity.
        -- rewrite (Hst u0 its Hl). simpl. destruct u0 as [|[k3 i3] u0]; [congruence|]. reflexivity.
      * destruct (add_item_split _ _ _ _ _ H) as [(-> & k2 & i2 & Hf & Hl)|(u0 & -> & Hu & Hl)].
        -- injection Hf as <- ->. rewrite (Hst [] i2 Hl). simpl. rewrite app_assoc. reflexivity.
        -- rewrite (Hst u0 its Hl). simpl. destruct u0 as [|[k3 i3] u0]; [congruence|]. reflexivity.
Qed.

Lemma stack_at t a op b k u its : opens op = Some k -> fst (scan t b) = u ++ [(FRoot, its)] ->
  fst (scan t (a ++ (t, op) :: b)) = u ++ (k, its) :: add_item op (fst (scan t a)).
Proof.
  intros Ho Hs. change ((t, op) :: b) with ([(t, op)] ++ b). rewrite !scan_eq in *. rewrite !thread_obs_app, thread_obs_one, tid_eqb_refl.
  rewrite !scanl_app. destruct (scan0 (thread_obs t a)) as [st ns]. 
  assert (H1 : scanl (st, ns) [op] = ((k, []) :: add_item op st, ns)).
  { unfold scanl. simpl. rewrite (opens_not_closes _ _ Ho), Ho. reflexivity. }
  rewrite H1, scanl_nodes. simpl. rewrite (under _ _ _ Hs). reflexivity.
Qed.

(** the bottom frame of a stack was there before *)
Lemma root_kept l1 l2 u its : fst (scan0 (l1 ++ l2)) = u ++ [(FRoot, its)] ->
  exists u1 i1 i2, fst (scan0 l1) = u1 ++ [(FRoot, i1)] /\ its = i1 ++ i2.
Proof.
  revert u its. induction l2 as [|l x IH] using snoc_ind; intros u its H.
  - rewrite app_nil_r in H. exists u, its, []. rewrite app_nil_r. auto.
  - rewrite app_assoc, scan_fst_snoc in H. unfold scan1 in H.
    destruct (closes x) eqn:Ec.
    + destruct (fst (scan0 (l1 ++ l))) as [|[k1 j1] r] eqn:El; [simpl in H; destruct u; discriminate|].
      simpl in H. destruct (add_item_split _ _ _ _ _ H) as [(-> & k2 & j2 & Hf & ->)|(u0 & -> & Hu & ->)].
      * injection Hf as <- ->. destruct (IH [(k1, j1)] j2 eq_refl) as (u1 & i1 & i2 & H1 & ->).
        exists u1, i1, (i2 ++ [x]). rewrite app_assoc. auto.
      * apply (IH ((k1, j1) :: u0) its eq_refl).
    + destruct (opens x) as [kk|] eqn:Eo; simpl in H.
      * destruct u as [|f u]; [simpl in H; injection H as -> Hx _; exfalso; apply (opens_not_root _ _ Eo eq_refl)|].
        injection H as <- H. destruct (add_item_split _ _ _ _ _ H) as [(-> & k2 & j2 & Hf & Hl)|(u0 & -> & Hu & Hl)].
        -- injection Hf as <- ->. destruct (IH [] j2 Hl) as (u1 & i1 & i2 & H1 & ->).
           exists u1, i1, (i2 ++ [x]). rewrite app_assoc. auto.
        -- apply (IH u0 its Hl).
      * destruct (add_item_split _ _ _ _ _ H) as [(-> & k2 & j2 & Hf & Hl)|(u0 & -> & Hu & Hl)].
        -- injection Hf as <- ->. destruct (IH [] j2 Hl) as (u1 & i1 & i2 & H1 & ->).
           exists u1, i1, (i2 ++ [x]). rewrite app_assoc. auto.
        -- apply (IH u0 its Hl).
Qed.
Lemma root_kept_t t b1 b2 u its : fst (scan t (b1 ++ b2)) = u ++ [(FRoot, its)] ->
  exists u1 i1 i2, fst (scan t b1) = u1 ++ [(FRoot, i1)] /\ its = i1 ++ i2.
Proof. rewrite !scan_eq, thread_obs_app. apply root_kept. Qed.

(** a bracket open after [a ++ c] was open after [a] or opened in [c] *)
Lemma opened_earlier t a c k its : opened t (a ++ c) k its -> k <> FRoot ->
  (exists its', opened t a k its') \/ (exists op, opens op = Some k /\ In (t, op) c).
Proof.
  intros H Hk. destruct (opened_inv _ _ _ _ H Hk) as (a1 & op & b & u & Heq & Ho & Hs).
  apply app_eq_app in Heq. destruct Heq as (l & [[H1 H2]|[H1 H2]]).
  - subst a. destruct l as [|x l].
    + simpl in H2. right. exists op. split; [exact Ho|]. subst c. left. reflexivity.
    + injection H2 as <- ->. left. destruct (root_kept_t _ _ _ _ _ Hs) as (u1 & i1 & i2 & H3 & _).
      exists i1. unfold opened. rewrite (stack_at _ _ _ _ _ _ _ Ho H3). apply in_or_app. right. left. reflexivity.
  - right. exists op. split; [exact Ho|]. subst c. apply in_or_app. right. left. reflexivity.
Qed.

Section Place.
  Context (E : env) (w0 : mem) (w : world) (H0 : init_mem E w0) (Hr : reach E w0 w).
  Notation T := (tr (wm w)).

  Lemma root_stack t h r : T = h ++ r -> exists u its, fst (scan t h) = u ++ [(FRoot, its)].
  Proof.
    intro HT. destruct (reach_prefix E w0 w (im_tr _ _ H0) Hr _ _ HT) as (w1 & Hr1 & <-).
    rewrite scan_eq. apply root_stays. apply Forall_forall. intros [[k its] z] Hn. simpl. intros ->.
    apply (proj1 (tree_ok E w0 w1 H0 Hr1) t FRoot its z) in Hn. contradiction.
  Qed.
  Lemma scan_snoc t h o : fst (scan t (h ++ [(t, o)])) = fst (scan1 (fst (scan t h), []) o).
  Proof. rewrite !scan_eq, thread_obs_app, thread_obs_one, tid_eqb_refl. apply scan_fst_snoc. Qed.
  Lemma scan_other t t' h o : t' <> t -> scan t (h ++ [(t', o)]) = scan t h.
  Proof. intro N. rewrite !scan_eq, thread_obs_app, thread_obs_one, (tid_eqb_neq _ _ N), app_nil_r. reflexivity. Qed.

  (** the innermost open bracket when a mark is made may contain it *)
  Lemma placed_at t h o r : T = h ++ (t, o) :: r -> closes o = false ->
    exists k its u, fst (scan t h) = (k, its) :: u /\ may E t k o.
  Proof.
    intros HT Hc. destruct (root_stack t h _ HT) as (u & i & Hs).
    assert (HT2 : T = (h ++ [(t, o)]) ++ r) by (rewrite <- app_assoc; exact HT).
    destruct (reach_prefix E w0 w (im_tr _ _ H0) Hr _ _ HT2) as (w1 & Hr1 & Hw1).
    destruct (fst (scan t h)) as [|[k its] v] eqn:Es; [destruct u; discriminate|].
    exists k, its, v. split; [reflexivity|].
    assert (Ho : opened t (tr (wm w1)) k (its ++ [o])).
    { unfold opened. rewrite Hw1, scan_snoc, Es. unfold scan1. rewrite Hc. destruct (opens o); simpl; auto. }
    apply (proj2 (tree_ok E w0 w1 H0 Hr1)) in Ho. apply frame_may in Ho. apply Forall_app in Ho.
    destruct Ho as [_ Ho]. inversion Ho; auto.
  Qed.
  (** the processing of an event is never nested in another bracket *)
  Lemma may_take t k q p c : may E t k (OTake q p c) -> k = FRoot.
  Proof.
    intro H. destruct k as [|a|cc|q' p' c']; [reflexivity|..]; simpl in H.
    - destruct a; simpl in H; try contradiction; dmay; discriminate.
    - exfalso. assert (Ha : forall a e0 m0, mact E a e0 m0 (OTake q p c) -> False).
      { intros a e0 m0 Ha. destruct a; simpl in Ha; dmay; try discriminate; auto. }
      destruct cc; simpl in H; try (eapply Ha; exact H);
        try (destruct h; dmay; discriminate); try (destruct u; dmay; try discriminate; contradiction).
      + destruct l as [[n|n nm]|n]; dmay; discriminate.
      + dmay; discriminate.
    - dmay; discriminate.
  Qed.
  Lemma take_on_root t h r u q p c its v : T = h ++ r -> fst (scan t h) = u ++ (FTake q p c, its) :: v ->
    exists i, v = [(FRoot, i)].
  Proof.
    intros HT Hs. rewrite scan_eq in Hs.
    destruct (open_bracket _ _ _ _ _ Hs ltac:(discriminate)) as (l1 & op & l2 & Hl & Ho & _ & Hv).
    destruct op; try discriminate. injection Ho as -> -> ->.
    destruct (thread_obs_split _ _ _ _ _ Hl) as (h1 & h2 & -> & Hh1 & _).
    rewrite <- app_assoc in HT. simpl in HT.
    destruct (placed_at t h1 _ _ HT eq_refl) as (k & i & u1 & Hs1 & Hm).
    apply may_take in Hm. subst k. rewrite <- Hh1, <- scan_eq, Hs1 in Hv.
    destruct (root_stack t h1 _ HT) as (u2 & i2 & Hs2). rewrite scan_eq in Hs1.
    apply (root_bottom _ [] i u1) in Hs1. destruct Hs1 as [-> _]. simpl in Hv. exists (i ++ [OTake q p c]). auto.
  Qed.
  (** at most one event is being processed by a thread *)
  Lemma take_unique t h r q p c its q' p' c' its' : T = h ++ r ->
    opened t h (FTake q p c) its -> opened t h (FTake q' p' c') its' -> (q', p', c', its') = (q, p, c, its).
  Proof.
    intros HT H1 H2. apply in_split in H1. destruct H1 as (u & v & H1).
    apply in_split in H2. destruct H2 as (u' & v' & H2).
    destruct (take_on_root _ _ _ _ _ _ _ _ _ HT H1) as [i ->].
    destruct (take_on_root _ _ _ _ _ _ _ _ _ HT H2) as [i' ->].
    rewrite H1 in H2. clear H1.
    change [(FTake q p c, its); (FRoot, i)] with ([(FTake q p c, its)] ++ [(FRoot, i)]) in H2.
    change [(FTake q' p' c', its'); (FRoot, i')] with ([(FTake q' p' c', its')] ++ [(FRoot, i')]) in H2.
    rewrite !app_assoc in H2. apply app_inj_tail in H2. destruct H2 as [H2 _].
    apply app_inj_tail in H2. destruct H2 as [_ H2]. injection H2 as -> -> -> ->. reflexivity.
  Qed.
  Lemma opened_live t k its : opened t T k its -> k <> FRoot -> live E t.
  Proof.
    intros H Hk. destruct (opened_inv _ _ _ _ H Hk) as (a & op & b & u & HT & _).
    destruct (reach_mark E w0 w (im_tr _ _ H0) Hr _ _ _ _ HT) as (_ & _ & _ & _ & _ & _ & Hl & _). exact Hl.
  Qed.
  Lemma mark_live t o : In (t, o) T -> live E t.
  Proof.
    intro Hi. apply in_split in Hi. destruct Hi as (a & b & HT).
    destruct (reach_mark E w0 w (im_tr _ _ H0) Hr _ _ _ _ HT) as (_ & _ & _ & _ & _ & _ & Hl & _). exact Hl.
  Qed.
End Place.
