(** * SubsProofs.v: the subsystems of an app service (proofs for C66) *)
From Verif Require Import SubsSpec MemInv Lang Tree Nodes Marks Place Moments Truth StartProofs CallProofs AccessProofs AppLive1 AppLive2 AppLive3 HbProofs Chain.

Lemma called_split up p i tl ext : forall l its, flat_map (fun j => called (KSub up p j) None) l ++ tl = its ++ OCall (KSub up p i) :: ext ->
  (exists l1 l2, l = l1 ++ i :: l2 /\ its = flat_map (fun j => called (KSub up p j) None) l1) \/
  (exists tl1, tl = tl1 ++ OCall (KSub up p i) :: ext /\ its = flat_map (fun j => called (KSub up p j) None) l ++ tl1).
Proof.
  induction l as [|j l IH]; intros its H; [right; exists its; auto|].
  destruct its as [|o1 its]; [injection H as -> H; left; exists [], l; auto|].
  injection H as <- H. destruct its as [|o2 its]; [discriminate|]. injection H as <- H.
  destruct (IH its H) as [(l1 & l2 & -> & ->)|(tl1 & -> & ->)].
  - left. exists (j :: l1), l2. auto.
  - right. exists tl1. auto.
Qed.

Section Subs.
  Context (E : env) (w0 : mem) (w : world) (H0 : init_mem E w0) (Hr : reach E w0 w).
  Notation T := (tr (wm w)).

  (** the marks of the action *)
  Lemma action_shape up p c e m x its : performs c (subs_action up p) e m -> callCode E c x its ->
    exists s l o1 o2, its = OLog s :: R (RdSubs p l) :: o1 ++ o2 /\
      ((exists y j l1 l2, x = Some y /\ in_order up l = l1 ++ j :: l2 /\ o2 = [] /\
          o1 = flat_map (fun i => called (KSub up p i) None) l1 ++ called (KSub up p j) (Some y)) \/
       (o1 = flat_map (fun i => called (KSub up p i) None) (in_order up l) /\
          Forall (mfire E (ap_mach (apps E p)) (ELife LComplete)) o2)).
  Proof.
    intros Hp Hl. rewrite (performs_code _ _ _ _ _ Hp) in Hl.
    assert (Hl2 : exists s, seqx (emit [OLog s]) (seqx (subsL up p) (fireL E (ap_mach (apps E p)) (ELife LComplete))) x its)
      by (destruct up; eexists; exact Hl).
    clear Hl. destruct Hl2 as (s & [(y & -> & [? _])|(o1 & o2 & Hi & [_ ->] & Hl)]); [discriminate|]. exists s.
    destruct Hl as [(y & -> & (l & o & -> & Hl))|(o3 & o4 & -> & (l & o & -> & Hl) & Hf)].
    - exists l, o, []. split; [rewrite app_nil_r; exact Hi|]. left. apply calls_one in Hl.
      destruct Hl as [[? _]|(c1 & c' & c2 & y' & Hc & [= <-] & ->)]; [discriminate|].
      change (map (KSub up p) (in_order up l) = c1 ++ c' :: c2) in Hc.
      apply map_eq_app in Hc. destruct Hc as (l1 & l2' & Hl & <- & Hc). destruct l2' as [|j l2]; [discriminate|]. injection Hc as <- <-.
      exists y, j, l1, l2. split; [reflexivity|]. split; [exact Hl|]. split; [reflexivity|].
      rewrite flat_map_concat_map, map_map, <- flat_map_concat_map. reflexivity.
    - exists l, o, o4. split; [exact Hi|]. right. apply calls_one in Hl.
      destruct Hl as [[_ ->]|(c1 & c' & c2 & y' & _ & ? & _)]; [|discriminate].
      split; [|exact (only_fire _ _ _ _ _ Hf)].
      change (flat_map (fun c0 => called c0 None) (map (KSub up p) (in_order up l)) = flat_map (fun i => called (KSub up p i) None) (in_order up l)).
      rewrite flat_map_concat_map, map_map, <- flat_map_concat_map. reflexivity.
  Qed.
  Lemma fire_no_sub p' up' i' p : ~ mfire E (ap_mach (apps E p)) (ELife LComplete) (OCall (KSub up' p' i')).
  Proof. intro H. remember (OCall (KSub up' p' i')) as o. dmay; subst; try discriminate. Qed.

  (** a subsystem is started (stopped) only by the action of STARTING (STOPPING) *)
  Lemma dealt_with up p i h t r : T = h ++ (t, OCall (KSub up p i)) :: r ->
    exists a c b its e m, performs c (subs_action up p) e m /\ h = a ++ (t, OCall c) :: b /\ fst (scan t b) = [(FRoot, its)] /\
      exists b1 b2 l l1 l2, b = b1 ++ (t, R (RdSubs p l)) :: b2 /\ l = subsystems_at w0 p (a ++ (t, OCall c) :: b1) /\
        in_order up l = l1 ++ i :: l2 /\ filter (is_sub p) its = flat_map (fun j => called (KSub up p j) None) l1.
  Proof.
    intro HT. destruct (placed_frame E w0 w H0 Hr _ _ _ _ HT eq_refl) as (k & its & u & Hs & Hf).
    assert (Hm : may E t k (OCall (KSub up p i))).
    { apply frame_may in Hf. apply Forall_app in Hf. destruct Hf as [_ Hf]. inversion Hf. assumption. }
    destruct (may_sub _ _ _ _ _ _ Hm) as (c & a' & e & m & -> & Hp & Ha).
    destruct (top_bracket _ _ _ _ _ Hs ltac:(discriminate)) as (a & op & b & Hh & Hop & Hb & _).
    destruct op; try discriminate. injection Hop as ->. destruct Hf as (ext & z & Hn).
    assert (Hc : exists x, callCode E c x ((its ++ [OCall (KSub up p i)]) ++ ext)).
    { destruct z; simpl in Hn; try contradiction. eexists. exact (proj2 Hn). }
    destruct Hc as [x Hc].
    assert (Hup : exists up', a' = subs_action up' p) by (destruct Ha as [->| ->]; [exists true|exists false]; reflexivity).
    destruct Hup as [up' ->]. destruct (action_shape _ _ _ _ _ _ _ Hp Hc) as (s & l & o1 & o2 & Hi & Hcase).
    rewrite <- app_assoc in Hi. simpl in Hi.
    destruct its as [|i0 its]; [discriminate|]. injection Hi as -> Hi.
    destruct its as [|i1 its]; [discriminate|]. injection Hi as -> Hi.
    assert (Hin : In (OCall (KSub up p i)) (o1 ++ o2)) by (rewrite <- Hi; apply in_or_app; right; left; reflexivity).
    assert (Hmark : forall l, In (OCall (KSub up p i)) (flat_map (fun j => called (KSub up' p j) None) l) -> up' = up).
    { intros l0 Hl0. apply in_flat_map in Hl0. destruct Hl0 as (j & _ & [Hj|[Hj|[]]]); [|discriminate]. congruence. }
    assert (Hw : exists l1 l2, up' = up /\ in_order up' l = l1 ++ i :: l2 /\ its = flat_map (fun j => called (KSub up' p j) None) l1).
    { destruct Hcase as [(y & j & l1 & l2 & -> & Hl & -> & ->)|[-> Hf2]].
      - rewrite app_nil_r in Hi, Hin.
        assert (up' = up) as ->.
        { apply in_app_or in Hin. destruct Hin as [Hin|[Hin|[Hin|[]]]]; [eapply Hmark; exact Hin|congruence|discriminate]. }
        symmetry in Hi. destruct (called_split _ _ _ _ _ _ _ Hi) as [(l3 & l4 & -> & ->)|(tl1 & Htl & ->)].
        + exists l3, (l4 ++ j :: l2). rewrite Hl, <- app_assoc. auto.
        + destruct tl1 as [|? [|? [|? ?]]]; try discriminate. injection Htl as -> _. exists l1, l2. rewrite app_nil_r. auto.
      - assert (Hno : forall o3 o4, o2 <> o3 ++ OCall (KSub up p i) :: o4).
        { intros o3 o4 ->. apply Forall_app in Hf2. destruct Hf2 as [_ Hf2]. inversion Hf2. eapply fire_no_sub; eauto. }
        assert (up' = up) as ->.
        { apply in_app_or in Hin. destruct Hin as [Hin|Hin]; [eapply Hmark; exact Hin|].
          apply in_split in Hin. destruct Hin as (o3 & o4 & Hin). destruct (Hno _ _ Hin). }
        symmetry in Hi. destruct (called_split _ _ _ _ _ _ _ Hi) as [(l3 & l4 & Hl & ->)|(tl1 & Htl & _)]; [|destruct (Hno _ _ Htl)].
        exists l3, l4. auto. }
    destruct Hw as (l1 & l2 & -> & Hl & ->).
    exists a, c, b, (OLog s :: R (RdSubs p l) :: flat_map (fun j => called (KSub up p j) None) l1), e, m.
    split; [exact Hp|]. split; [exact Hh|]. split; [exact Hb|].
    destruct (item_inv t b [] [OLog s] (R (RdSubs p l)) _ Hb eq_refl) as (b1 & b2 & Hbb & _).
    exists b1, b2, l, l1, l2. split; [exact Hbb|].
    assert (HT2 : T = (a ++ (t, OCall c) :: b1) ++ (t, R (RdSubs p l)) :: b2 ++ (t, OCall (KSub up p i)) :: r).
    { rewrite HT, Hh, Hbb. repeat (rewrite <- !app_assoc; simpl). reflexivity. }
    split; [exact (read_true E w0 w H0 Hr _ _ _ _ HT2)|]. split; [exact Hl|].
    simpl. clear. induction l1 as [|j l1 IH]; [reflexivity|]. simpl. rewrite Nat.eqb_refl, IH. reflexivity.
  Qed.

  (** the list stays the same while nobody replaces it *)
  Lemma not_replaced_same p h r d : T = (h ++ r) ++ d -> not_replaced p h r -> subsystems_at w0 p (h ++ r) = subsystems_at w0 p h.
  Proof.
    intros HT Hn. assert (Hc : forall r1 r2, r = r1 ++ r2 -> content_at w0 (PSubs p) (h ++ r1) = content_at w0 (PSubs p) h).
    { induction r1 as [|[t o] r1 IH] using rev_ind; intros r2 Hr2; [rewrite app_nil_r; reflexivity|].
      rewrite <- app_assoc in Hr2. rewrite <- (IH _ Hr2), app_assoc.
      destruct (list_eq_dec Nat.eq_dec (subsystems_at w0 p ((h ++ r1) ++ [(t, o)])) (subsystems_at w0 p (h ++ r1))) as [H|N];
        [simpl; rewrite H; reflexivity|exfalso].
      assert (H : content_at w0 (PSubs p) ((h ++ r1) ++ [(t, o)]) <> content_at w0 (PSubs p) (h ++ r1)) by (simpl; congruence).
      assert (HT2 : T = (h ++ r1) ++ (t, o) :: r2 ++ d).
      { rewrite HT, Hr2. repeat (rewrite <- !app_assoc; simpl). reflexivity. }
      destruct (changed_by E w0 w H0 Hr _ _ _ _ _ HT2 H) as [(k & its & u & Hs & Hk)|(e & ? & _)]; [|discriminate].
      destruct k as [|x|c|q pr [[e' m']|]]; simpl in Hk; try contradiction. destruct x; try contradiction. subst p0.
      assert (Ho : opened t (h ++ r1) (FApi (ASetSubs p l)) its) by (unfold opened; rewrite Hs; left; reflexivity).
      destruct (opened_earlier _ _ _ _ _ Ho ltac:(discriminate)) as [[its' Ho']|(op & Hop & Hin)].
      - exact (proj2 (Hn t l) _ Ho').
      - destruct op; try discriminate. injection Hop as ->. apply (proj1 (Hn t l)). rewrite Hr2. apply in_or_app. auto. }
    specialize (Hc r [] ltac:(rewrite app_nil_r; reflexivity)). simpl in Hc. congruence.
  Qed.

  (** what an action that has returned did *)
  Lemma whole_round up p t a c b its x d e m : performs c (subs_action up p) e m -> span t T a (OCall c) b its (OBack c x) d ->
    exists b1 b2 y, b = b1 ++ (t, R (RdSubs p (subsystems_at w0 p (a ++ (t, OCall c) :: b1)))) :: b2 /\
      one_by_one (map (KSub up p) (in_order up (subsystems_at w0 p (a ++ (t, OCall c) :: b1)))) y (filter (is_sub p) its) /\
      (y = None \/ x = y).
  Proof.
    intros Hp Hs. pose proof (span_node E w0 w H0 Hr _ _ _ _ _ _ _ (FCall c) Hs eq_refl) as [_ Hl].
    destruct (action_shape _ _ _ _ _ _ _ Hp Hl) as (s & l & o1 & o2 & Hi & Hcase).
    destruct (read_moment E w0 w H0 Hr _ _ _ _ _ _ _ [OLog s] (RdSubs p l) (o1 ++ o2) Hs Hi) as (b1 & b2 & Hb & _ & Hv).
    simpl in Hv. exists b1, b2. rewrite <- Hv.
    assert (Hall : forall l, filter (is_sub p) (flat_map (fun j => called (KSub up p j) None) l) = flat_map (fun c => called c None) (map (KSub up p) l)).
    { clear. induction l as [|j l IH]; [reflexivity|]. simpl. rewrite Nat.eqb_refl, IH. reflexivity. }
    destruct Hcase as [(y & j & l1 & l2 & -> & Hl1 & -> & ->)|[-> Hf]].
    - exists (Some y). split; [exact Hb|]. split; [|right; reflexivity]. right.
      exists (map (KSub up p) l1), (KSub up p j), (map (KSub up p) l2), y. rewrite Hl1, map_app. split; [reflexivity|]. split; [reflexivity|].
      rewrite Hi, app_nil_r. cbn [filter is_sub]. rewrite filter_app, Hall. simpl. rewrite Nat.eqb_refl. reflexivity.
    - exists None. split; [exact Hb|]. split; [|left; reflexivity]. left. split; [reflexivity|].
      rewrite Hi. cbn [filter is_sub]. rewrite filter_app, Hall.
      assert (Hz : filter (is_sub p) o2 = []); [|rewrite Hz, app_nil_r; reflexivity].
      clear - Hf. induction o2 as [|o o2 IH]; [reflexivity|]. inversion Hf as [|? ? Ho Hf']; subst. specialize (IH Hf').
      assert (Hn : is_sub p o = false); [|simpl; rewrite Hn; exact IH].
      dmay; subst; reflexivity.
  Qed.

  (** stopping mirrors starting *)
  Lemma mirrored p t a c b its d e m t' r c' b' its' x' d' e' m' :
    performs c (AAppStarting p) e m -> span t T a (OCall c) b its (OBack c None) d ->
    let a' := a ++ (t, OCall c) :: b ++ (t, OBack c None) :: r in
    performs c' (AAppStopping p) e' m' -> span t' T a' (OCall c') b' its' (OBack c' x') d' ->
    not_replaced p a ((t, OCall c) :: b ++ (t, OBack c None) :: r ++ (t', OCall c') :: b') ->
    exists l y, filter (is_sub p) its = flat_map (fun i => called (KSub true p i) None) l /\
      one_by_one (map (KSub false p) (rev l)) y (filter (is_sub p) its') /\ (y = None \/ x' = y).
  Proof.
    intros Hp Hs a' Hp' Hs' Hn.
    destruct (whole_round true _ _ _ _ _ _ _ _ _ _ Hp Hs) as (b1 & b2 & y & Hb & Hone & Hy).
    assert (y = None) as -> by (destruct Hy; congruence).
    destruct (whole_round false _ _ _ _ _ _ _ _ _ _ Hp' Hs') as (b1' & b2' & y' & Hb' & Hone' & Hy').
    assert (HT : T = a' ++ (t', OCall c') :: b' ++ (t', OBack c' x') :: d') by apply Hs'.
    assert (Hsame : forall r1 r2, (t, OCall c) :: b ++ (t, OBack c None) :: r ++ (t', OCall c') :: b' = r1 ++ r2 ->
      subsystems_at w0 p (a ++ r1) = subsystems_at w0 p a).
    { intros r1 r2 Hr12. apply (not_replaced_same p a r1 (r2 ++ (t', OBack c' x') :: d')).
      - transitivity ((a ++ r1 ++ r2) ++ (t', OBack c' x') :: d'); [rewrite <- Hr12, HT; unfold a'|];
          repeat (rewrite <- !app_assoc; simpl); reflexivity.
      - intros t1 l1. destruct (Hn t1 l1) as [N1 N2]. split; [|exact N2]. intro Hin. apply N1. rewrite Hr12. apply in_or_app. auto. }
    exists (subsystems_at w0 p a), y'.
    assert (H1 : subsystems_at w0 p (a ++ (t, OCall c) :: b1) = subsystems_at w0 p a).
    { eapply Hsame. rewrite Hb at 1. rewrite <- !app_assoc. simpl. reflexivity. }
    assert (H2 : subsystems_at w0 p (a' ++ (t', OCall c') :: b1') = subsystems_at w0 p a).
    { unfold a'. rewrite <- app_assoc. eapply Hsame. rewrite Hb' at 1. repeat (rewrite <- !app_assoc; simpl). reflexivity. }
    rewrite H1 in Hone. rewrite H2 in Hone'. split; [|split; [exact Hone'|exact Hy']].
    destruct Hone as [[_ Ho]|(c1 & c2 & c3 & y & _ & ? & _)]; [|discriminate]. rewrite Ho. simpl.
    rewrite flat_map_concat_map, map_map, <- flat_map_concat_map. reflexivity.
  Qed.

  (** what precedes withSubsystems() is visible to the subsystems *)
  Lemma published p l t a b its v d t' r1 c e m b' its' up i r :
    span t T a (OInv (ASetSubs p l)) b its (ORet (ASetSubs p l) v) d ->
    let a' := a ++ (t, OInv (ASetSubs p l)) :: b ++ (t, ORet (ASetSubs p l) v) :: r1 in
    performs c (subs_action up p) e m -> T = a' ++ (t', OCall c) :: b' ++ (t', OCall (KSub up p i)) :: r ->
    fst (scan t' b') = [(FRoot, its')] ->
    forall k o, k <= List.length a -> on T k t o -> hb sw_min T k (List.length (a' ++ (t', OCall c) :: b')).
  Proof.
    intros Hs a' Hp HT Hsc k o Hle Hk.
    assert (HT1 : T = (a' ++ (t', OCall c) :: b') ++ (t', OCall (KSub up p i)) :: r) by (rewrite HT, <- app_assoc; reflexivity).
    destruct (dealt_with _ _ _ _ _ _ HT1) as (a2 & c2 & b2 & its2 & e2 & m2 & _ & Hh & Hb & b3 & b4 & l0 & l1 & l2 & Hbb & _ & _ & _).
    destruct (open_unique t' a' (OCall c) b' a2 (OCall c2) b2 (FCall c) (FCall c2) [] [] its' its2 Hh eq_refl eq_refl Hsc Hb eq_refl) as (<- & [= <-] & <-).
    pose proof (span_node E w0 w H0 Hr _ _ _ _ _ _ _ (FApi (ASetSubs p l)) Hs eq_refl) as [_ [_ Hi]].
    destruct (item_moment w _ _ _ _ _ _ _ [] _ [] Hs Hi eq_refl) as (x1 & x2 & Hx & _ & HT2).
    pose proof (on_at w _ _ _ _ HT2) as Hw. pose proof (on_at w _ _ _ _ HT1) as Hj.
    assert (HT3 : T = (a' ++ (t', OCall c) :: b3) ++ (t', R (RdSubs p l0)) :: b4 ++ (t', OCall (KSub up p i)) :: r).
    { rewrite HT at 1. rewrite Hbb at 1. repeat (rewrite <- !app_assoc; simpl). reflexivity. }
    pose proof (on_at w _ _ _ _ HT3) as Hrd.
    assert (L1 : List.length (a ++ (t, OInv (ASetSubs p l)) :: x1) < List.length (a' ++ (t', OCall c) :: b3)).
    { unfold a'. rewrite Hx, !app_length. simpl. rewrite !app_length. simpl. lia. }
    assert (L2 : List.length (a' ++ (t', OCall c) :: b3) < List.length (a' ++ (t', OCall c) :: b')).
    { rewrite Hbb, !app_length. simpl. rewrite app_length. simpl. lia. }
    eapply hb_trans; [eapply hb_po; [|exact Hk|exact Hw]; rewrite app_length; simpl; lia|].
    eapply hb_trans; [apply hb_sw; [exact L1|eapply sw_subs; eassumption]|]. eapply hb_po; eassumption.
  Qed.
End Subs.
