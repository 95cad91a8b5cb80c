(** * StartProofs.v: starting and ending (proofs for C06, C07, C20, C21, C43) *)
From Verif Require Import ApiSpec MemInv Lang Tree Nodes Marks QueueProofs Place Moments Truth FlowProofs ConfTruth Copies.

(** the bracket directly around a mark is unique *)
Lemma bracket_unique t a1 op1 b1 i1 a2 op2 b2 i2 k1 k2 :
  a1 ++ (t, op1) :: b1 = a2 ++ (t, op2) :: b2 -> opens op1 = Some k1 -> opens op2 = Some k2 ->
  fst (scan t b1) = [(FRoot, i1)] -> fst (scan t b2) = [(FRoot, i2)] ->
  a1 = a2 /\ op1 = op2 /\ b1 = b2 /\ i1 = i2.
Proof.
  assert (Hno : forall l b i op k j, opens op = Some k -> fst (scan t b) = [(FRoot, i)] ->
            fst (scan t (l ++ (t, op) :: b)) = [(FRoot, j)] -> False).
  { intros l b i op k j Ho Hs Hs2. rewrite (stack_at _ _ _ _ k [] i Ho Hs) in Hs2. simpl in Hs2.
    injection Hs2 as -> _ _. exact (opens_not_root _ _ Ho eq_refl). }
  intros H O1 O2 S1 S2. apply app_eq_app in H. destruct H as (l & [[-> H]|[-> H]]).
  - destruct l as [|x l].
    + injection H as -> ->. rewrite app_nil_r. rewrite S1 in S2. injection S2 as ->. auto.
    + injection H as <- ->. exfalso. first [exact (Hno _ _ _ _ _ _ O1 S1 S2)|exact (Hno _ _ _ _ _ _ O2 S2 S1)].
  - destruct l as [|x l].
    + injection H as -> ->. rewrite app_nil_r. rewrite S1 in S2. injection S2 as ->. auto.
    + injection H as <- ->. exfalso. first [exact (Hno _ _ _ _ _ _ O1 S1 S2)|exact (Hno _ _ _ _ _ _ O2 S2 S1)].
Qed.
Lemma top_bracket t h k its v : fst (scan t h) = (k, its) :: v -> k <> FRoot ->
  exists a op b, h = a ++ (t, op) :: b /\ opens op = Some k /\ fst (scan t b) = [(FRoot, its)] /\
    v = add_item op (fst (scan t a)).
Proof.
  rewrite scan_eq. intros H Hk.
  destruct (open_bracket _ [] _ _ _ H Hk) as (l1 & op & l2 & Hl & Ho & Hs & Hv).
  destruct (thread_obs_split _ _ _ _ _ Hl) as (a & b & -> & Ha & Hb).
  exists a, op, b. rewrite !scan_eq, Ha, Hb. auto.
Qed.
(** a bracket without nested brackets *)
Lemma flat l : forall its, fst (scan0 l) = [(FRoot, its)] -> Forall (fun o => opens o = None /\ closes o = false) its -> l = its.
Proof.
  induction l as [|l x IH] using snoc_ind; intros its H Hf; [injection H as <-; reflexivity|].
  rewrite scan_fst_snoc in H. unfold scan1 in H. destruct (closes x) eqn:Ec.
  - destruct (fst (scan0 l)) as [|[k i] r]; [discriminate|]. simpl in H. destruct r as [|[k2 i2] r]; [discriminate|].
    injection H as -> <- ->. apply Forall_app in Hf. destruct Hf as [_ Hf]. inversion Hf as [|? ? [_ Hx]]. congruence.
  - destruct (opens x) eqn:Eo.
    + simpl in H. injection H as -> _ _. exfalso. exact (opens_not_root _ _ Eo eq_refl).
    + simpl in H. destruct (fst (scan0 l)) as [|[k i] r]; [discriminate|]. injection H as -> <- ->.
      apply Forall_app in Hf. destruct Hf as [Hf _]. rewrite (IH _ eq_refl Hf). reflexivity.
Qed.
Lemma flat_t t b its : fst (scan t b) = [(FRoot, its)] -> Forall (fun o => opens o = None /\ closes o = false) its ->
  forall o, In (t, o) b -> In o its.
Proof. intros H Hf o Hi. rewrite scan_eq in H. apply flat in H; [|exact Hf]. rewrite <- H. apply thread_obs_in. exact Hi. Qed.

Lemma eqb_refl_name n : Nat.eqb n n = true. Proof. apply Nat.eqb_refl. Qed.
Lemma started_app m a b : started_at m a = true -> started_at m (a ++ b) = true.
Proof.
  unfold started_at, started_of. rewrite replay_app. intros ->. induction b as [|[t o] b IH] using rev_ind; [reflexivity|].
  rewrite replay_snoc. destruct o; auto. destruct (Nat.eqb m0 m); auto.
Qed.
Lemma started_in m h t : In (t, OStarted m) h -> started_at m h = true.
Proof.
  intro H. apply in_split in H. destruct H as (a & b & ->). change ((t, OStarted m) :: b) with ([(t, OStarted m)] ++ b).
  rewrite app_assoc. apply started_app. unfold started_at, started_of. rewrite replay_snoc. simpl. rewrite Nat.eqb_refl. reflexivity.
Qed.
Lemma started_witness m h : started_at m h = true -> exists t, In (t, OStarted m) h.
Proof.
  induction h as [|[t o] h IH] using rev_ind; [discriminate|]. unfold started_at, started_of. rewrite replay_snoc. simpl.
  intro H. assert (Hc : started_at m h = true \/ o = OStarted m).
  { destruct o; auto. destruct (Nat.eqb_spec m0 m) as [->|]; auto. }
  destruct Hc as [Hc| ->]; [destruct (IH Hc) as [t' Hi]; exists t'; apply in_or_app; auto|].
  exists t. apply in_or_app. right. left. reflexivity.
Qed.

Lemma started_same m h l : (forall t, ~ In (t, OStarted m) l) -> started_at m (h ++ l) = started_at m h.
Proof.
  intro Hn. unfold started_at, started_of. rewrite replay_app. generalize (replay (fun (b : bool) (o : obs) =>
    match o with OStarted m' => if Nat.eqb m' m then true else b | _ => b end) false h). intro v.
  induction l as [|[t o] l IH] using rev_ind; [reflexivity|]. rewrite replay_snoc.
  rewrite IH by (intros t' Hi; apply (Hn t'); apply in_or_app; auto).
  destruct o; try reflexivity. destruct (Nat.eqb_spec m0 m) as [->|]; [|reflexivity].
  exfalso. apply (Hn t). apply in_or_app. right. left. reflexivity.
Qed.
Lemma conf_same E w0 m h l c : (forall t o, ~ In (t, OWr (WrCfg m o None)) l) ->
  conf_at E w0 m h c -> conf_at E w0 m (h ++ l) c.
Proof.
  intros Hn (os & s0 & H1 & H2 & ->). exists os, s0. split; [exact H1|]. split; [exact H2|].
  induction l as [|[t o] l IH] using rev_ind; [rewrite app_nil_r; reflexivity|].
  rewrite app_assoc, conf_snoc. rewrite <- IH by (intros t' o' Hi; apply (Hn t' o'); apply in_or_app; auto).
  destruct o; try reflexivity. destruct w; try reflexivity. destruct x; try reflexivity.
  destruct (Nat.eqb_spec m0 m) as [->|]; [|reflexivity]. exfalso. eapply Hn. apply in_or_app. right. left. reflexivity.
Qed.

Section Start.
  Context (E : env) (w0 : mem) (w : world) (H0 : init_mem E w0) (Hr : reach E w0 w).
  Notation T := (tr (wm w)).

  Lemma placed_frame t h o r : T = h ++ (t, o) :: r -> closes o = false ->
    exists k its u, fst (scan t h) = (k, its) :: u /\ frame_ok E t (k, its ++ [o]).
  Proof.
    intros HT Hc. destruct (root_stack E w0 w H0 Hr t h _ HT) as (u & i & Hs).
    assert (HT2 : T = (h ++ [(t, o)]) ++ r) by (rewrite <- app_assoc; exact HT).
    destruct (reach_prefix E w0 w (im_tr _ _ H0) Hr _ _ HT2) as (w1 & Hr1 & Hw1).
    destruct (fst (scan t h)) as [|[k its] v] eqn:Es; [destruct u; discriminate|].
    exists k, its, v. split; [reflexivity|].
    apply (proj2 (tree_ok E w0 w1 H0 Hr1)). unfold opened. rewrite Hw1, scan_snoc, Es. unfold scan1. rewrite Hc. destruct (opens o); simpl; auto.
  Qed.

  Lemma started_before m t h r : T = h ++ (t, OStarted m) :: r -> started_at m h = false.
  Proof.
    intro HT. destruct (truth E w0 w (im_tr _ _ H0) Hr) as [_ Ht]. destruct (Ht _ _ _ _ HT) as [Hw _]. simpl in Hw.
    rewrite (im_started _ _ H0) in Hw. exact Hw.
  Qed.
  Lemma started_unique m t1 h1 r1 t2 h2 r2 : T = h1 ++ (t1, OStarted m) :: r1 -> T = h2 ++ (t2, OStarted m) :: r2 ->
    h1 = h2 /\ t1 = t2.
  Proof.
    intros T1 T2. pose proof (started_before _ _ _ _ T1) as B1. pose proof (started_before _ _ _ _ T2) as B2.
    rewrite T1 in T2. apply app_eq_app in T2. destruct T2 as (l & [[-> H]|[-> H]]).
    - destruct l as [|x l]; [injection H as ->; rewrite app_nil_r; auto|]. injection H as <- ->. exfalso.
      rewrite (started_in m _ t2) in B1; [discriminate|]. apply in_or_app. right. left. reflexivity.
    - destruct l as [|x l]; [injection H as ->; rewrite app_nil_r; auto|]. injection H as <- ->. exfalso.
      rewrite (started_in m _ t1) in B2; [discriminate|]. apply in_or_app. right. left. reflexivity.
  Qed.
  (** two brackets that both start m are the same *)
  Lemma starter_unique m t1 a1 op1 b1 i1 j1 r1 k1 t2 a2 op2 b2 i2 j2 r2 k2 :
    T = a1 ++ (t1, op1) :: b1 ++ r1 -> opens op1 = Some k1 -> fst (scan t1 b1) = [(FRoot, i1 ++ OStarted m :: j1)] ->
    T = a2 ++ (t2, op2) :: b2 ++ r2 -> opens op2 = Some k2 -> fst (scan t2 b2) = [(FRoot, i2 ++ OStarted m :: j2)] ->
    t1 = t2 /\ a1 = a2 /\ op1 = op2.
  Proof.
    intros T1 O1 S1 T2 O2 S2.
    destruct (item_inv _ _ [] _ _ _ S1 eq_refl) as (c1 & d1 & -> & C1).
    destruct (item_inv _ _ [] _ _ _ S2 eq_refl) as (c2 & d2 & -> & C2).
    destruct (started_unique m t1 (a1 ++ (t1, op1) :: c1) (d1 ++ r1) t2 (a2 ++ (t2, op2) :: c2) (d2 ++ r2)) as [Hh ->].
    - rewrite T1. repeat (rewrite <- !app_assoc; simpl). reflexivity.
    - rewrite T2. repeat (rewrite <- !app_assoc; simpl). reflexivity.
    - destruct (bracket_unique _ _ _ _ _ _ _ _ _ _ _ Hh O1 O2 C1 C2) as (-> & -> & _). auto.
  Qed.

  (** ** C07 *)
  Lemma starting_marks m x its : starting m x -> apiL E x RvUnit its -> exists i j, its = i ++ OStarted m :: j.
  Proof.
    intros [->|[s ->]]; simpl.
    - intros ([y|] & Hv & Hl); [discriminate|]. destruct Hl as (i & o1 & -> & Hl). destruct i as [init|]; [|destruct Hl; discriminate].
      destruct Hl as (b & o2 & -> & Hl). destruct b; [destruct Hl; discriminate|]. destruct Hl as (b & o3 & -> & Hl).
      destruct b; [destruct Hl; discriminate|]. destruct Hl as [[Hx _]|(o4 & -> & Hl)]; [discriminate|].
      eexists [_; _; _], _. reflexivity.
    - intros ([y|] & Hv & Hl); [discriminate|]. destruct Hl as [[Hx _]|[[Hx _]|[_ ->]]]; try discriminate.
      eexists [_], _. reflexivity.
  Qed.
  Lemma start_once m t1 x1 a1 b1 its1 d1 t2 x2 a2 b2 its2 d2 :
    span t1 T a1 (OInv x1) b1 its1 (ORet x1 RvUnit) d1 -> starting m x1 ->
    span t2 T a2 (OInv x2) b2 its2 (ORet x2 RvUnit) d2 -> starting m x2 ->
    t1 = t2 /\ a1 = a2 /\ x1 = x2.
  Proof.
    intros S1 X1 S2 X2.
    pose proof (span_node E w0 w H0 Hr _ _ _ _ _ _ _ (FApi x1) S1 eq_refl) as [_ N1].
    pose proof (span_node E w0 w H0 Hr _ _ _ _ _ _ _ (FApi x2) S2 eq_refl) as [_ N2].
    destruct (starting_marks _ _ _ X1 N1) as (i1 & j1 & ->). destruct (starting_marks _ _ _ X2 N2) as (i2 & j2 & ->).
    destruct S1 as (T1 & _ & S1). destruct S2 as (T2 & _ & S2).
    destruct (starter_unique m _ _ _ _ _ _ _ (FApi x1) _ _ _ _ _ _ _ (FApi x2) T1 eq_refl S1 T2 eq_refl S2) as (-> & -> & Hx).
    injection Hx as ->. auto.
  Qed.
  Lemma started_reads m t h r t' a b its v d :
    T = h ++ (t, ORet (AIsStarted m) (RvBool true)) :: r ->
    span t' T a (OInv (AIsStarted m)) b its (ORet (AIsStarted m) v) d -> upto h a -> v = RvBool true.
  Proof.
    intros HT Hs [l ->].
    pose proof (span_node E w0 w H0 Hr _ _ _ _ _ _ _ (FApi (AIsStarted m)) Hs eq_refl) as [_ (b1 & -> & Hi)].
    destruct (read_moment E w0 w H0 Hr _ _ _ _ _ _ _ [] _ [] Hs Hi) as (c1 & c2 & _ & _ & Hrd). simpl in Hrd. subst b1.
    f_equal. rewrite <- app_assoc. apply started_app.
    (* the returned value was true at a moment before h *)
    assert (HT2 : T = (h ++ [(t, ORet (AIsStarted m) (RvBool true))]) ++ r) by (rewrite <- app_assoc; exact HT).
    destruct (reach_prefix E w0 w (im_tr _ _ H0) Hr _ _ HT2) as (w1 & Hr1 & Hw1).
    destruct (root_stack E w0 w H0 Hr t _ _ HT2) as (u1 & j1 & Hs1).
    destruct (root_stack E w0 w H0 Hr t _ _ HT) as (u2 & j2 & Hs2).
    destruct (fst (scan t h)) as [|[k i] v0] eqn:Es; [destruct u2; discriminate|].
    assert (Hc : closed t (tr (wm w1)) k i (ORet (AIsStarted m) (RvBool true))).
    { unfold closed. rewrite Hw1, scan_eq, thread_obs_app, thread_obs_one, tid_eqb_refl, scanl_snoc, <- scan_eq.
      destruct (scan t h) as [st ns]. simpl in Es. subst st. simpl. apply in_or_app. right. left. reflexivity. }
    pose proof (proj1 (tree_ok E w0 w1 H0 Hr1) _ _ _ _ Hc) as Hn. destruct k; try contradiction. simpl in Hn.
    destruct Hn as [<- (b1 & [= <-] & ->)].
    destruct (top_bracket _ _ _ _ _ Es ltac:(discriminate)) as (a1 & op & c & -> & Hop & Hsc & _).
    destruct (item_inv t c [] [] _ [] Hsc eq_refl) as (c3 & c4 & -> & _).
    assert (Hm : true = started_at m (a1 ++ (t, op) :: c3)).
    { apply (read_true E w0 w H0 Hr t _ (RdStarted m true) (c4 ++ (t, ORet (AIsStarted m) (RvBool true)) :: r)).
      rewrite HT. repeat (rewrite <- !app_assoc; simpl). reflexivity. }
    replace (a1 ++ (t, op) :: c3 ++ (t, ORd (RdStarted m true)) :: c4)
      with ((a1 ++ (t, op) :: c3) ++ (t, ORd (RdStarted m true)) :: c4) by (rewrite <- app_assoc; reflexivity).
    apply started_app. symmetry. exact Hm.
  Qed.

  (** ** C20 *)
  Lemma unended_after m its ext x : startL m x (its ++ OUnended m :: ext) -> In (OStarted m) its.
  Proof.
    intros (i & o1 & H1 & Hl). destruct its as [|o its]; [discriminate|]. injection H1 as _ <-.
    destruct i as [init|]; [|destruct Hl as [_ Hl]; destruct its; discriminate].
    destruct Hl as (b & o2 & H2 & Hl). destruct its as [|o' its]; [discriminate|]. injection H2 as _ <-.
    destruct b; [destruct Hl as [_ Hl]; destruct its; discriminate|].
    destruct Hl as (b & o3 & H3 & Hl). destruct its as [|o3' its]; [discriminate|]. injection H3 as _ <-.
    destruct b; [destruct Hl as [_ Hl]; destruct its; discriminate|].
    destruct Hl as [[_ Hl]|(o4 & Hl & _)]; [destruct its as [|? [|]]; discriminate|].
    destruct its as [|o5 its]; [discriminate|]. injection Hl as -> _. do 3 right. left. reflexivity.
  Qed.
  Lemma fire_no_unended m0 e0 x out m : fireL E m0 e0 x out -> ~ In (OUnended m) out.
  Proof. intros H Hi. apply only_fire in H. rewrite Forall_forall in H. apply H in Hi. dmay; discriminate. Qed.
  Lemma stop_no_unended p x out m : appStopL E p x out -> ~ In (OUnended m) out.
  Proof. intros H Hi. apply only_appstop in H. rewrite Forall_forall in H. apply H in Hi. dmay; discriminate. Qed.
  Lemma start_marks m x out : startL m x out -> x = None -> In (OStarted m) out.
  Proof.
    intros H ->. destruct (starting_marks m (AStart m) out) as (i & j & ->); [left; reflexivity|exists None; auto|].
    apply in_or_app. right. left. reflexivity.
  Qed.
  Lemma unended_node t k its ext z m : node_ok E t (k, its ++ OUnended m :: ext, z) -> In (OStarted m) its.
  Proof.
    intro Hn. pose proof (node_may E _ _ _ _ Hn) as Hm. rewrite Forall_forall in Hm.
    specialize (Hm (OUnended m)). rewrite in_app_iff in Hm. specialize (Hm (or_intror (or_introl eq_refl))).
    destruct k as [|a|c|q p c]; [destruct z; contradiction|..]; simpl in Hm.
    - destruct z; try contradiction. destruct Hn as [-> Hn]. destruct a; simpl in Hm; try contradiction; try (dmay; discriminate).
      + assert (m0 = m) as -> by (dmay; congruence). destruct Hn as (x & _ & Hl). exact (unended_after _ _ _ _ Hl).
      + assert (m0 = m) as -> by (dmay; congruence). destruct Hn as (x & _ & Hl).
        destruct Hl as [[_ Hl]|[[_ Hl]|[_ Hl]]]; try (destruct its as [|? [|? [|]]]; discriminate).
        destruct its as [|o1 its]; [discriminate|]. injection Hl as _ Hl. destruct its as [|o2 its]; [discriminate|].
        injection Hl as -> _. right. left. reflexivity.
      + assert (ap_mach (apps E p) = m) as Hp by (dmay; congruence). destruct Hn as (x & _ & Hl).
        destruct Hl as (c & o1 & H1 & Hl). destruct its as [|o its]; [discriminate|]. injection H1 as _ <-. right.
        destruct Hl as [(o2 & H2 & Hl)|(o2 & H2 & Hl)]; (destruct its as [|o' its]; [discriminate|]); injection H2 as _ <-; right.
        2:{ exfalso. destruct (andb _ _); [apply (fire_no_unended _ _ _ _ m Hl); apply in_or_app; right; left; reflexivity|].
            destruct Hl as [_ Hl]. destruct its; discriminate. }
        rewrite Hp in Hl. destruct Hl as [(y & -> & Hl)|(l1 & l2 & Heq & Hl1 & Hl2)]; [exact (unended_after _ _ _ _ Hl)|].
        assert (Hno : ~ In (OUnended m) l2).
        { destruct Hl2 as [(y & -> & Hf)|(k1 & k2 & -> & Hf & Hl2)]; [exact (fire_no_unended _ _ _ _ _ Hf)|].
          rewrite in_app_iff. intros [Hi|Hi]; [exact (fire_no_unended _ _ _ _ _ Hf Hi)|].
          destruct Hl2 as [(y & -> & Hy & _)|(k3 & k4 & -> & Ha & Hl2)]; [discriminate|].
          apply in_app_or in Hi. destruct Hi as [Hi|Hi].
          - destruct Ha as [_ [->| ->]]; simpl in Hi; intuition discriminate.
          - destruct Hl2 as (b & k5 & -> & Hl2). destruct Hi as [Hi|Hi]; [discriminate|].
            destruct b; [destruct Hl2 as [_ ->]; destruct Hi|exact (stop_no_unended _ _ _ _ Hl2 Hi)]. }
        apply app_eq_app in Heq. destruct Heq as (l & [[-> Heq]|[-> Heq]]).
        * apply in_or_app. left. exact (start_marks _ _ _ Hl1 eq_refl).
        * destruct l as [|o3 l].
          -- simpl in Heq. exfalso. apply Hno. rewrite <- Heq. left. reflexivity.
          -- injection Heq as <- ->. eapply unended_after. exact Hl1.
    - exfalso. assert (Ha : forall a e0 m0, mact E a e0 m0 (OUnended m) -> False).
      { intros a e0 m0 Ha. destruct a; simpl in Ha; dmay; try discriminate; auto. }
      destruct c; simpl in Hm; try (eapply Ha; exact Hm);
        try (destruct h; dmay; discriminate); try (destruct u; dmay; try discriminate; contradiction).
      + destruct l as [[n|n nm]|n]; dmay; discriminate.
      + dmay; discriminate.
    - dmay; discriminate.
  Qed.
  Lemma unended_frame t h m r : T = h ++ (t, OUnended m) :: r ->
    exists a op b k its, h = a ++ (t, op) :: b /\ opens op = Some k /\ fst (scan t b) = [(FRoot, its)] /\ In (OStarted m) its.
  Proof.
    intro HT. destruct (placed_frame _ _ _ _ HT eq_refl) as (k & its & u & Hs & Hf).
    assert (Hk : k <> FRoot).
    { intros ->. apply frame_may in Hf. apply Forall_app in Hf. destruct Hf as [_ Hf]. inversion Hf as [|? ? Hm _]; subst.
      simpl in Hm. destruct t; simpl in Hm; [dmay; discriminate|contradiction]. }
    destruct (top_bracket _ _ _ _ _ Hs Hk) as (a & op & b & -> & Ho & Hb & _). exists a, op, b, k, its.
    repeat split; auto. unfold frame_ok in Hf. destruct k as [|x|c|q p c]; [congruence|..]; destruct Hf as (ext & z & Hn);
      rewrite <- app_assoc in Hn; eapply unended_node; exact Hn.
  Qed.
  (** *** what a call that starts a machine writes, in order *)
  Definition setw (m : mid) (o : obs) : bool :=
    match o with OState m' _ | OUnended m' => Nat.eqb m' m | _ => false end.
  Notation no m := (Forall (fun o => setw m o = false)).
  Definition wshape (m : mid) (out : list obs) : Prop := no m out \/
    exists pre s mid post, out = pre ++ OStarted m :: OState m s :: mid ++ post /\ no m pre /\ no m mid /\
      (post = [] \/ exists p, post = OUnended m :: p /\ no m p).
  Lemma no_in m o l : no m l -> setw m o = true -> ~ In o l.
  Proof. rewrite Forall_forall. intros H Ho Hi. rewrite (H _ Hi) in Ho. discriminate. Qed.
  Lemma wshape_after m out o2 : wshape m out -> no m o2 -> (exists out1, out = out1 ++ [OUnended m]) -> wshape m (out ++ o2).
  Proof.
    intros [H|(pre & s & mid & post & -> & H1 & H2 & H3)] Hn (o1 & Ho).
    - exfalso. subst out. apply Forall_app in H. destruct H as [_ H]. inversion H as [|? ? H4 _]. simpl in H4. rewrite Nat.eqb_refl in H4. discriminate.
    - right. exists pre, s, mid, (post ++ o2). split; [repeat (rewrite <- app_assoc; simpl); reflexivity|]. split; [exact H1|]. split; [exact H2|].
      destruct H3 as [->|(p & -> & Hp)]; [|right; exists (p ++ o2); split; [reflexivity|apply Forall_app; auto]].
      exfalso. rewrite app_nil_r in Ho. destruct mid as [|x mid] using rev_ind.
      + replace (pre ++ [OStarted m; OState m s]) with ((pre ++ [OStarted m]) ++ [OState m s]) in Ho by (rewrite <- app_assoc; reflexivity).
        apply app_inj_tail in Ho. destruct Ho; discriminate.
      + replace (pre ++ OStarted m :: OState m s :: mid ++ [x]) with ((pre ++ OStarted m :: OState m s :: mid) ++ [x]) in Ho
          by (rewrite <- app_assoc; reflexivity).
        apply app_inj_tail in Ho. destruct Ho as [_ ->]. apply Forall_app in H2. destruct H2 as [_ H2]. inversion H2 as [|? ? H4 _].
        simpl in H4. rewrite Nat.eqb_refl in H4. discriminate.
  Qed.
  Lemma wshape_pre m o out : setw m o = false -> wshape m out -> wshape m (o :: out).
  Proof.
    intros Ho [H|(pre & s & mid & post & -> & H1 & H)]; [left; constructor; auto|].
    right. exists (o :: pre), s, mid, post. repeat split; auto; apply H.
  Qed.
  Lemma wshape_inv m its o ext : wshape m (its ++ o :: ext) -> setw m o = true -> In (OStarted m) its /\ ~ In (OUnended m) its.
  Proof.
    intros [H|(pre & s & mid & post & Heq & H1 & H2 & H3)] Ho.
    - exfalso. apply (no_in m o _ H Ho). apply in_or_app. right. left. reflexivity.
    - assert (Hu : setw m (OUnended m) = true) by (simpl; apply Nat.eqb_refl).
      apply app_eq_app in Heq. destruct Heq as (l & [[-> Heq]|[-> Heq]]).
      + destruct l as [|x l]; [injection Heq as <- _; discriminate|]. injection Heq as <- Heq. split; [apply in_or_app; right; left; reflexivity|].
        destruct l as [|x l]; simpl in Heq.
        * intro Hi. apply in_app_or in Hi. destruct Hi as [Hi|[Hi|[]]]; [exact (no_in _ _ _ H1 Hu Hi)|discriminate].
        * injection Heq as <- Heq. intro Hi. apply in_app_or in Hi. destruct Hi as [Hi|[Hi|[Hi|Hi]]]; try discriminate; [exact (no_in _ _ _ H1 Hu Hi)|].
          apply app_eq_app in Heq. destruct Heq as (l' & [[-> Heq]|[-> Heq]]).
          -- apply Forall_app in H2. apply (no_in _ _ _ (proj1 H2) Hu Hi).
          -- apply in_app_or in Hi. destruct Hi as [Hi|Hi]; [apply (no_in _ _ _ H2 Hu Hi)|].
             destruct H3 as [->|(p & -> & Hp)]; [destruct l'; discriminate|].
             destruct l' as [|x' l']; [destruct Hi|]. injection Heq as <- ->.
             apply Forall_app in Hp. destruct Hp as [_ Hp]. inversion Hp; congruence.
      + exfalso. destruct l as [|x l].
        * simpl in Heq. injection Heq as -> _. discriminate.
        * injection Heq as <- ->. apply Forall_app in H1. destruct H1 as [_ H1]. inversion H1; congruence.
  Qed.
  Lemma only_no m (L : lang) P : L <<= P -> (forall o, P o -> setw m o = false) -> forall x out, L x out -> no m out.
  Proof. intros HL HP x out H. eapply Forall_impl; [exact HP|eauto]. Qed.
  Lemma no_fire m m' e x out : fireL E m' e x out -> no m out.
  Proof. apply (only_no _ _ _ (only_fire E m' e)). intros o Ho. dmay; subst; reflexivity. Qed.
  Lemma no_appstop m p x out : appStopL E p x out -> no m out.
  Proof. apply (only_no _ _ _ (only_appstop E p)). intros o Ho. dmay; subst; reflexivity. Qed.
  Lemma no_notify m m' fin f e s x out : notifyL m' fin f e s x out -> no m out.
  Proof. apply (only_no _ _ _ (only_notify m' fin f e s)). intros o Ho. dmay; subst; reflexivity. Qed.
  Lemma no_acts m en s e m' x out : actsL en s e m' x out -> no m out.
  Proof. apply (only_no _ _ _ (only_acts en s e m')). intros o Ho. dmay; subst; reflexivity. Qed.
  Lemma start_shape m x out : startL m x out -> wshape m out /\ (x = None -> exists out1, out = out1 ++ [OUnended m]).
  Proof.
    intros (i & o1 & -> & Hl).
    assert (Hk : forall l, no m l -> x <> None -> wshape m l /\ (x = None -> exists out1, l = out1 ++ [OUnended m])).
    { intros l Hn Hx. split; [left; exact Hn|intro; congruence]. }
    destruct i as [init|]; [|destruct Hl as [-> ->]; apply Hk; [repeat constructor|discriminate]].
    destruct Hl as (b & o2 & -> & Hl). destruct b; [destruct Hl as [-> ->]; apply Hk; [repeat constructor|discriminate]|].
    destruct Hl as (d & o3 & -> & Hl). destruct d; [destruct Hl as [-> ->]; apply Hk; [repeat constructor|discriminate]|].
    destruct Hl as [[-> ->]|(o4 & -> & Hl)]; [apply Hk; [repeat constructor|discriminate]|].
    assert (Hp : exists mid post, o4 = mid ++ post /\ no m mid /\ (post = [] \/ post = [OUnended m]) /\ (x = None -> post = [OUnended m])).
    { destruct Hl as [(y & -> & Hn)|(n1 & l1 & -> & Hn & Hl)].
      { exists o4, []. rewrite app_nil_r. repeat split; auto; [exact (no_notify _ _ _ _ _ _ _ _ Hn)|discriminate]. }
      destruct Hl as [(y & -> & Ha)|(n2 & l2 & -> & Ha & Hl)].
      { exists (n1 ++ l1), []. rewrite app_nil_r. repeat split; auto; [|discriminate]. apply Forall_app. split; [exact (no_notify _ _ _ _ _ _ _ _ Hn)|exact (no_acts _ _ _ _ _ _ _ Ha)]. }
      assert (H12 : no m (n1 ++ n2)) by (apply Forall_app; split; [exact (no_notify _ _ _ _ _ _ _ _ Hn)|exact (no_acts _ _ _ _ _ _ _ Ha)]).
      destruct Hl as [(y & -> & Hb)|(n3 & l3 & -> & Hb & [-> ->])].
      { exists (n1 ++ n2 ++ l2), []. rewrite app_nil_r. repeat split; auto; [|discriminate].
        rewrite app_assoc. apply Forall_app. split; [exact H12|exact (no_notify _ _ _ _ _ _ _ _ Hb)]. }
      exists (n1 ++ n2 ++ n3), [OUnended m]. split; [repeat rewrite <- app_assoc; reflexivity|]. split; [|auto].
      rewrite app_assoc. apply Forall_app. split; [exact H12|exact (no_notify _ _ _ _ _ _ _ _ Hb)]. }
    destruct Hp as (mid & post & -> & H1 & H2 & H3). split.
    - right. exists [R (RdInit m (Some init)); R (RdMapEmpty m false); R (RdDangling m false)], init, mid, post.
      split; [reflexivity|]. split; [repeat constructor|]. split; [exact H1|]. destruct H2 as [->| ->]; [left; reflexivity|].
      right. exists []. auto.
    - intro Hx. rewrite (H3 Hx). exists (R (RdInit m (Some init)) :: R (RdMapEmpty m false) :: R (RdDangling m false) :: OStarted m :: OState m init :: mid). reflexivity.
  Qed.
  Lemma starts_shape m x v out : starts E m x -> apiL E x v out -> wshape m out.
  Proof.
    intros Hx Ha. destruct x; simpl in Hx; try contradiction; simpl in Ha.
    - subst m0. destruct Ha as (y & _ & Ha). apply (start_shape _ _ _ Ha).
    - subst m0. destruct Ha as (y & _ & Ha). destruct Ha as [[_ ->]|[[_ ->]|[_ ->]]]; [left; repeat constructor|left; repeat constructor|].
      right. exists [R (RdHas m s true)], s, [], [OUnended m]. split; [reflexivity|]. split; [repeat constructor|]. split; [constructor|].
      right. exists []. auto.
    - destruct Ha as (y & _ & Ha). destruct Ha as (c & o1 & -> & Ha). apply wshape_pre; [reflexivity|].
      destruct Ha as [(o2 & -> & Ha)|(o2 & -> & Ha)]; (apply wshape_pre; [reflexivity|]).
      + rewrite Hx in Ha. destruct Ha as [(z & -> & Hl)|(l1 & l2 & -> & Hl1 & Hl2)]; [apply (start_shape _ _ _ Hl)|].
        destruct (start_shape _ _ _ Hl1) as [Hs He]. apply wshape_after; [exact Hs| |exact (He eq_refl)].
        destruct Hl2 as [(z & -> & Hf)|(k1 & k2 & -> & Hf & Hl2)]; [exact (no_fire _ _ _ _ _ Hf)|].
        apply Forall_app. split; [exact (no_fire _ _ _ _ _ Hf)|].
        destruct Hl2 as [(z & -> & Hz & _)|(k3 & k4 & -> & Hw & Hl2)]; [discriminate|].
        apply Forall_app. split; [destruct Hw as [_ [->| ->]]; repeat constructor|].
        destruct Hl2 as (b & k5 & -> & Hl2). constructor; [reflexivity|].
        destruct b; [destruct Hl2 as [_ ->]; constructor|exact (no_appstop _ _ _ _ Hl2)].
      + left. destruct (andb _ _); [exact (no_fire _ _ _ _ _ Ha)|destruct Ha as [_ ->]; constructor].
  Qed.
  (** once its start is over, no call that starts the machine writes to it *)
  Lemma start_quiet m h1 h2 r t o x its u : T = (h1 ++ h2) ++ (t, o) :: r -> start_over m h1 ->
    fst (scan t (h1 ++ h2)) = (FApi x, its) :: u -> starts E m x -> setw m o = true -> False.
  Proof.
    intros HT Hover Hs Hx Ho.
    assert (Hc : closes o = false) by (destruct o; try discriminate; reflexivity).
    destruct (placed_frame _ _ _ _ HT Hc) as (k & its' & u' & Hs' & Hf). rewrite Hs in Hs'. injection Hs' as <- <- <-.
    destruct Hf as (ext & z & Hn). rewrite <- app_assoc in Hn. simpl in Hn. destruct z; try contradiction. destruct Hn as [-> Hn].
    destruct (wshape_inv _ _ _ _ (starts_shape _ _ _ _ Hx Hn) Ho) as [Hi Hnu].
    destruct (top_bracket _ _ _ _ _ Hs ltac:(discriminate)) as (a & op & b & Heq & Hop & Hsb & _).
    apply in_split in Hi. destruct Hi as (i & j & ->).
    assert (T2 : T = a ++ (t, op) :: b ++ ((t, o) :: r)).
    { rewrite HT, Heq. repeat (rewrite <- !app_assoc; simpl). reflexivity. }
    destruct Hover as [(t0 & Hin)|(t0 & k0 & its0 & z0 & Hc0 & Hi0)].
    - apply in_split in Hin. destruct Hin as (g1 & g2 & ->).
      assert (HTu : T = g1 ++ (t0, OUnended m) :: (g2 ++ h2 ++ (t, o) :: r)).
      { rewrite HT. repeat (rewrite <- !app_assoc; simpl). reflexivity. }
      destruct (unended_frame _ _ _ _ HTu) as (a0 & op0 & b0 & k0 & its0 & Heq0 & Ho0 & Hs0 & Hi0).
      apply in_split in Hi0. destruct Hi0 as (i0 & j0 & ->).
      assert (T1 : T = a0 ++ (t0, op0) :: b0 ++ ((t0, OUnended m) :: g2 ++ h2 ++ (t, o) :: r)).
      { rewrite HTu, Heq0. repeat (rewrite <- !app_assoc; simpl). reflexivity. }
      destruct (starter_unique m _ _ _ _ _ _ _ _ _ _ _ _ _ _ _ _ T1 Ho0 Hs0 T2 Hop Hsb) as (<- & <- & <-).
      rewrite Heq0 in Heq. repeat (rewrite <- !app_assoc in Heq; simpl in Heq). apply app_inv_head in Heq. injection Heq as Heq.
      rewrite <- Heq in Hsb.
      replace (b0 ++ (t0, OUnended m) :: g2 ++ h2) with ((b0 ++ [(t0, OUnended m)]) ++ g2 ++ h2) in Hsb by (rewrite <- app_assoc; reflexivity).
      destruct (root_kept_t _ _ _ [] _ Hsb) as (u1 & i1 & i2 & H1 & H2). apply Hnu. rewrite H2.
      rewrite scan_snoc, Hs0 in H1. unfold scan1 in H1. simpl in H1. destruct u1 as [|? u1]; [|destruct u1; discriminate].
      injection H1 as <-. apply in_or_app. left. apply in_or_app. right. left. reflexivity.
    - assert (Hk0 : k0 <> FRoot).
      { intros ->. destruct (reach_prefix E w0 w (im_tr _ _ H0) Hr h1 (h2 ++ (t, o) :: r)) as (w1 & Hr1 & Hw1).
        { rewrite HT, <- app_assoc. reflexivity. }
        rewrite <- Hw1 in Hc0. apply (proj1 (tree_ok E w0 w1 H0 Hr1)) in Hc0. exact Hc0. }
      destruct (closed_span _ _ _ _ _ Hc0 Hk0) as (a0 & op0 & b0 & d0 & Ho0 & -> & Hz0 & Hs0).
      apply in_split in Hi0. destruct Hi0 as (i0 & j0 & ->).
      assert (T1 : T = a0 ++ (t0, op0) :: b0 ++ (((t0, z0) :: d0) ++ h2 ++ (t, o) :: r)).
      { rewrite HT. repeat (rewrite <- !app_assoc; simpl). reflexivity. }
      destruct (starter_unique m _ _ _ _ _ _ _ _ _ _ _ _ _ _ _ _ T1 Ho0 Hs0 T2 Hop Hsb) as (<- & <- & <-).
      repeat (rewrite <- !app_assoc in Heq; simpl in Heq). apply app_inv_head in Heq. injection Heq as Heq.
      rewrite <- Heq in Hsb.
      replace (b0 ++ (t0, z0) :: d0 ++ h2) with ((b0 ++ [(t0, z0)]) ++ d0 ++ h2) in Hsb by (rewrite <- app_assoc; reflexivity).
      destruct (root_kept_t _ _ _ [] _ Hsb) as (u1 & i1 & i2 & H1 & _).
      rewrite scan_snoc, Hs0 in H1. unfold scan1 in H1. rewrite Hz0 in H1. simpl in H1. destruct u1; discriminate.
  Qed.
  Lemma no_unended m h1 h2 r t : T = (h1 ++ h2) ++ (t, OUnended m) :: r -> start_over m h1 -> False.
  Proof.
    intros HT Hover. destruct (placed_at E w0 w H0 Hr _ _ _ _ HT eq_refl) as (k & its & u & Hs & Hm).
    assert (Hx : exists x, k = FApi x /\ starts E m x).
    { destruct k as [|a|c|q p c]; simpl in Hm.
      - exfalso. destruct t; simpl in Hm; [dmay; discriminate|contradiction].
      - exists a. split; [reflexivity|]. destruct a; simpl in Hm |- *; try contradiction; dmay; try discriminate; congruence.
      - exfalso. assert (Ha : forall a e0 m0, mact E a e0 m0 (OUnended m) -> False).
        { intros a e0 m0 Ha. destruct a; simpl in Ha; dmay; try discriminate; auto. }
        destruct c; simpl in Hm; try (eapply Ha; exact Hm);
          try (destruct h; dmay; discriminate); try (destruct u0; dmay; try discriminate; contradiction).
        + destruct l as [[n|n nm]|n]; dmay; discriminate.
        + dmay; discriminate.
      - exfalso. dmay; discriminate. }
    destruct Hx as (x & -> & Hx). eapply start_quiet; [exact HT|exact Hover|exact Hs|exact Hx|]. simpl. apply Nat.eqb_refl.
  Qed.
  Lemma over_started m a r : T = a ++ r -> start_over m a -> started_at m a = true.
  Proof.
    intros HT [[t Hi]|(t' & k & its' & z' & Hc & Hin)].
    - apply in_split in Hi. destruct Hi as (a1 & a2 & ->). rewrite <- app_assoc in HT.
      destruct (unended_frame _ _ _ _ HT) as (a0 & op & b & k & its & -> & Ho & Hs & Hi).
      apply in_split in Hi. destruct Hi as (i1 & i2 & ->). destruct (item_inv t b [] i1 (OStarted m) i2 Hs eq_refl) as (b1 & b2 & -> & _).
      apply started_in with t. apply in_or_app. left. apply in_or_app. right. right. apply in_or_app. right. left. reflexivity.
    - destruct (closed_span _ _ _ _ _ Hc) as (a' & op' & b' & d' & Ho & Hs').
      { intros ->. destruct (reach_prefix E w0 w (im_tr _ _ H0) Hr _ _ HT) as (w1 & Hr1 & Hw1). rewrite <- Hw1 in Hc.
        pose proof (proj1 (tree_ok E w0 w1 H0 Hr1) _ _ _ _ Hc) as Hk. simpl in Hk. destruct z'; contradiction. }
      apply in_split in Hin. destruct Hin as (i1 & i2 & Hi). destruct Hs' as (Ha & Hz & Hsc). subst its'.
      destruct (item_inv t' b' [] i1 (OStarted m) i2 Hsc eq_refl) as (b1 & b2 & -> & _).
      apply started_in with t'. rewrite Ha. apply in_or_app. right. right. apply in_or_app. left. apply in_or_app. right. left. reflexivity.
  Qed.
  Lemma over_later m h l : start_over m h -> start_over m (h ++ l).
  Proof.
    intros [[t Hi]|(t & k & its & z & Hc & Hi)]; [left; exists t; apply in_or_app; auto|]. right. exists t, k, its, z. split; [|exact Hi].
    unfold closed in *. rewrite scan_eq in *. rewrite thread_obs_app, scanl_app. destruct (scan0 (thread_obs t h)) as [st ns].
    rewrite scanl_nodes. simpl. apply in_or_app. left. exact Hc.
  Qed.
  Lemma ended_stays m h1 h2 r : T = (h1 ++ h2) ++ r -> start_over m h1 -> ended_at m h1 = true -> ended_at m (h1 ++ h2) = true.
  Proof.
    revert r. induction h2 as [|[t o] h2 IH] using rev_ind; intros r HT Ho He; [rewrite app_nil_r; exact He|].
    assert (HT2 : T = (h1 ++ h2) ++ (t, o) :: r) by (rewrite HT; repeat (rewrite <- !app_assoc; simpl); reflexivity).
    rewrite app_assoc. unfold ended_at, ended_of. rewrite replay_snoc. fold (ended_of m false (h1 ++ h2)).
    change (ended_of m false (h1 ++ h2)) with (ended_at m (h1 ++ h2)). rewrite (IH _ HT2 Ho He).
    destruct o; try reflexivity; destruct (Nat.eqb_spec m0 m) as [->|]; try reflexivity.
    exfalso. exact (no_unended _ _ _ _ _ HT2 Ho).
  Qed.
  (** a start() or startInState() that returned is over *)
  Lemma returned_over m t x h r : T = h ++ r -> starting m x -> In (t, ORet x RvUnit) h -> start_over m h.
  Proof.
    intros HT Hx Hi. apply in_split in Hi. destruct Hi as (h1 & h2 & ->).
    assert (HT1 : T = h1 ++ (t, ORet x RvUnit) :: h2 ++ r) by (rewrite HT, <- app_assoc; reflexivity).
    destruct (root_stack E w0 w H0 Hr t _ _ HT1) as (u2 & j2 & Hs2).
    destruct (fst (scan t h1)) as [|[k its] v] eqn:Es; [destruct u2; discriminate|].
    assert (Hc : closed t (h1 ++ (t, ORet x RvUnit) :: h2) k its (ORet x RvUnit)).
    { replace (h1 ++ (t, ORet x RvUnit) :: h2) with ((h1 ++ [(t, ORet x RvUnit)]) ++ h2) by (rewrite <- app_assoc; reflexivity).
      unfold closed. rewrite scan_eq, !thread_obs_app, thread_obs_one, tid_eqb_refl, scanl_app, scanl_snoc, <- scan_eq.
      destruct (scan t h1) as [st ns]. simpl in Es. subst st. unfold scan1. simpl. rewrite scanl_nodes. simpl.
      apply in_or_app. left. apply in_or_app. right. left. reflexivity. }
    right. exists t, k, its, (ORet x RvUnit). split; [exact Hc|].
    destruct (reach_prefix E w0 w (im_tr _ _ H0) Hr _ _ HT) as (w1 & Hr1 & Hw1). rewrite <- Hw1 in Hc.
    apply (proj1 (tree_ok E w0 w1 H0 Hr1)) in Hc. destruct k; try contradiction. destruct Hc as [-> Hc].
    destruct (starting_marks _ _ _ Hx Hc) as (i & j & ->). apply in_or_app. right. left. reflexivity.
  Qed.
  Lemma ended_reads m h r t a b its v d : T = h ++ r -> start_over m h -> ended_at m h = true ->
    span t T a (OInv (AIsEnded m)) b its (ORet (AIsEnded m) v) d -> upto h a -> v = RvBool true.
  Proof.
    intros HT Ho He Hs [l ->].
    pose proof (span_node E w0 w H0 Hr _ _ _ _ _ _ _ (FApi (AIsEnded m)) Hs eq_refl) as [_ (b1 & -> & Hi)].
    destruct (read_moment E w0 w H0 Hr _ _ _ _ _ _ _ [] _ [] Hs Hi) as (c1 & c2 & -> & _ & Hrd). simpl in Hrd. subst b1.
    f_equal. rewrite <- app_assoc. destruct Hs as (HTs & _). eapply ended_stays; eauto.
    rewrite HTs. repeat (rewrite <- !app_assoc; simpl). reflexivity.
  Qed.

  (** ** C21 *)
  Lemma discarded m h r t a p c b its z d : T = h ++ r -> start_over m h -> ended_at m h = true -> private_queue E m ->
    span t T a (OTake (queue_of E m) p c) b its z d -> upto h a ->
    shown its = [] /\ z = ODone (queue_of E m) p None /\ exists e, c = Some (e, m).
  Proof.
    intros HT Ho He Hp Hs Hu.
    assert (Hc : exists e, c = Some (e, m)).
    { destruct Hs as (HTs & _). destruct (taken_accepted E w0 w t (queue_of E m) p c H0 Hr) as (t' & e1 & e' & m' & -> & Hq & _).
      { rewrite HTs. apply in_or_app. right. left. reflexivity. }
      symmetry in Hq. apply Hp in Hq. subst m'. eauto. }
    destruct Hc as [e ->].
    destruct (take_inv E w0 w H0 Hr _ _ _ _ _ _ _ _ _ _ Hs) as (tm & x & bb & o1 & o2 & y & [Htm _] & Hz & Hi & Hb).
    apply Hp in Htm. subst tm.
    assert (bb = true) as ->.
    { destruct (read_moment E w0 w H0 Hr _ _ _ _ _ _ _ [R (RdPair p (Some (e, m)))] _ _ Hs Hi) as (c1 & c2 & -> & _ & Hrd).
      simpl in Hrd. rewrite Hrd. destruct Hu as [l ->]. rewrite <- app_assoc. destruct Hs as (HTs & _). eapply ended_stays; eauto.
      rewrite HTs. repeat (rewrite <- !app_assoc; simpl). reflexivity. }
    destruct Hb as (-> & -> & -> & _). rewrite Hi, Hz. split; [reflexivity|]. split; [reflexivity|eauto].
  Qed.

  (** ** C06 *)
  Definition reads (l : list obs) : Prop := Forall (fun o => is_read o = true) l.
  Lemma reads_flat l : reads l -> Forall (fun o => opens o = None /\ closes o = false) l.
  Proof. apply Forall_impl. intros o Ho. destruct o; try discriminate. auto. Qed.
  (** the first reads of a call see the configuration at the call *)
  Lemma early_read m t a op b its z d i1 r i2 conf : span t T a op b its z d -> (exists k, opens op = Some k) -> untouched m t b ->
    its = i1 ++ ORd r :: i2 -> reads i1 -> conf_at E w0 m a conf ->
    match r with
    | RdInit m' s => m' = m -> s = initial conf
    | RdMapEmpty m' v => m' = m -> (v = true <-> initial conf = None)
    | RdDangling m' v => m' = m -> (v = true <-> dangling conf)
    | RdHas m' s v => m' = m -> v = known conf (sname E s)
    | RdStarted m' v => m' = m -> v = started_at m a
    | _ => True
    end.
  Proof.
    intros Hs [k Hk] Hu Hi H1 Hc. destruct (item_moment w _ _ _ _ _ _ _ _ _ _ Hs Hi eq_refl) as (b1 & b2 & -> & Hb & HT).
    pose proof (flat_t _ _ _ Hb (reads_flat _ H1)) as Hf.
    assert (Hno : forall t' o, In (t', o) ((t, op) :: b1) -> match o with OStarted m' | OWr (WrCfg m' _ _) => m' <> m | _ => True end).
    { intros t' o [Ho|Ho].
      - injection Ho as <- <-. destruct op; try exact I; discriminate.
      - destruct (tid_eq_dec t' t) as [->|N].
        + specialize (Hf _ Ho). unfold reads in H1. rewrite Forall_forall in H1. specialize (H1 _ Hf). destruct o; try discriminate. exact I.
        + apply (Hu t' o); [apply in_or_app; auto|exact N]. }
    assert (Hc' : conf_at E w0 m (a ++ (t, op) :: b1) conf).
    { apply conf_same; [|exact Hc]. intros t' o Ho. apply (Hno t' _ Ho). reflexivity. }
    destruct Hc' as (os & s0 & C1 & C2 & Hcf). rewrite Hcf in *.
    assert (Hs0 : conf0 E w0 m s0) by (exists os; auto).
    destruct (conf_truth E w0 H0 m s0 Hs0 w Hr) as (_ & _ & Hk'). pose proof (Hk' _ _ _ _ HT) as Hk2.
    pose proof (read_true E w0 w H0 Hr _ _ _ _ HT) as Hrd.
    destruct r; try exact I; simpl in Hk2; auto. intros ->. simpl in Hrd. rewrite Hrd. apply started_same.
    intros t' Ho. apply (Hno t' _ Ho). reflexivity.
  Qed.
  Lemma cas_started m t a op b its z d i1 i2 : span t T a op b its z d -> (exists k, opens op = Some k) -> untouched m t b ->
    its = i1 ++ OStarted m :: i2 -> reads i1 -> started_at m a = false.
  Proof.
    intros Hs Hk Hu Hi H1. destruct (item_moment w _ _ _ _ _ _ _ _ _ _ Hs Hi eq_refl) as (b1 & b2 & -> & Hb & HT).
    pose proof (started_before _ _ _ _ HT) as Hn. destruct (started_at m a) eqn:Ha; [|reflexivity].
    rewrite (started_app _ _ _ Ha) in Hn. discriminate.
  Qed.
  Ltac rds := repeat (apply Forall_cons; [reflexivity|]); apply Forall_nil.
  Lemma start_accepted m t a b its v d conf :
    span t T a (OInv (AStart m)) b its (ORet (AStart m) v) d -> untouched m t b -> conf_at E w0 m a conf ->
    (initial conf = None -> v = RvErr (XIllegalState RNoInit) /\ only_reads t b) /\
    (initial conf <> None -> dangling conf -> v = RvErr (XIllegalState RDangling) /\ only_reads t b) /\
    (initial conf <> None -> ~ dangling conf -> started_at m a = true -> v = RvErr (XIllegalState RAlreadyStarted) /\ only_reads t b) /\
    (forall i, initial conf = Some i -> ~ dangling conf -> started_at m a = false ->
       exists out, shown its = OStarted m :: OState m i :: out).
  Proof.
    intros Hs Hu Hc.
    pose proof (span_node E w0 w H0 Hr _ _ _ _ _ _ _ (FApi (AStart m)) Hs eq_refl) as [_ (x & Hv & Hl)].
    pose proof (proj2 (proj2 Hs)) as Hsc.
    assert (Honly : reads its -> only_reads t b).
    { intros Hrd o Ho. pose proof (flat_t _ _ _ Hsc (reads_flat _ Hrd) _ Ho) as Hi. unfold reads in Hrd. rewrite Forall_forall in Hrd. auto. }
    assert (Hop : exists k, opens (OInv (AStart m)) = Some k) by (eexists; reflexivity).
    destruct Hl as (i & o1 & H1 & Hl).
    pose proof (early_read m _ _ _ _ _ _ _ [] _ o1 conf Hs Hop Hu H1 ltac:(constructor) Hc eq_refl) as Hinit.
    destruct i as [init|].
    2:{ destruct Hl as [-> ->]. split; [intros _; split; [exact Hv|apply Honly; rewrite H1; rds]|].
        rewrite <- Hinit. split; [congruence|]. split; [congruence|discriminate]. }
    destruct Hl as (e & o2 & -> & Hl).
    pose proof (early_read m _ _ _ _ _ _ _ [R (RdInit m (Some init))] _ o2 conf Hs Hop Hu H1 ltac:(rds) Hc eq_refl) as He.
    destruct e; [rewrite <- Hinit in He; discriminate (proj1 He eq_refl)|].
    destruct Hl as (dd & o3 & -> & Hl).
    pose proof (early_read m _ _ _ _ _ _ _ [R (RdInit m (Some init)); R (RdMapEmpty m false)] _ o3 conf Hs Hop Hu H1 ltac:(rds) Hc eq_refl) as Hd.
    split; [congruence|].
    destruct dd.
    { destruct Hl as [-> ->]. split; [intros _ _; split; [exact Hv|apply Honly; rewrite H1; rds]|].
      split; [intros _ Hn; destruct Hn; apply Hd; reflexivity|]. intros i _ Hn; destruct Hn; apply Hd; reflexivity. }
    split; [intros _ Hx; apply Hd in Hx; discriminate|].
    destruct Hl as [[-> ->]|(o4 & -> & Hl)].
    - pose proof (early_read m _ _ _ _ _ _ _ [R (RdInit m (Some init)); R (RdMapEmpty m false); R (RdDangling m false)] _ [] conf Hs Hop Hu H1 ltac:(rds) Hc eq_refl) as Hst.
      split; [intros _ _ _; split; [exact Hv|apply Honly; rewrite H1; rds]|]. intros i _ _ Hx. congruence.
    - pose proof (cas_started m _ _ _ _ _ _ _ [R (RdInit m (Some init)); R (RdMapEmpty m false); R (RdDangling m false)] _ Hs Hop Hu H1 ltac:(rds)) as Hst.
      split; [intros _ _ Hx; congruence|]. intros i Hi _ _. rewrite <- Hinit in Hi. injection Hi as <-.
      exists (shown o4). rewrite H1. reflexivity.
  Qed.
  Lemma start_in_accepted m s t a b its v d conf :
    span t T a (OInv (AStartIn m s)) b its (ORet (AStartIn m s) v) d -> untouched m t b -> conf_at E w0 m a conf ->
    (known conf (sname E s) = false -> v = RvErr (XIllegalState RNotConfigured) /\ only_reads t b) /\
    (known conf (sname E s) = true -> started_at m a = true -> v = RvErr (XIllegalState RAlreadyStarted) /\ only_reads t b) /\
    (known conf (sname E s) = true -> started_at m a = false -> v = RvUnit /\ shown its = [OStarted m; OState m s; OUnended m]).
  Proof.
    intros Hs Hu Hc.
    pose proof (span_node E w0 w H0 Hr _ _ _ _ _ _ _ (FApi (AStartIn m s)) Hs eq_refl) as [_ (x & Hv & Hl)].
    pose proof (proj2 (proj2 Hs)) as Hsc.
    assert (Honly : reads its -> only_reads t b).
    { intros Hrd o Ho. pose proof (flat_t _ _ _ Hsc (reads_flat _ Hrd) _ Ho) as Hi. unfold reads in Hrd. rewrite Forall_forall in Hrd. auto. }
    assert (Hop : exists k, opens (OInv (AStartIn m s)) = Some k) by (eexists; reflexivity).
    destruct Hl as [[-> H1]|[[-> H1]|[-> H1]]].
    - pose proof (early_read m _ _ _ _ _ _ _ [] _ [] conf Hs Hop Hu H1 ltac:(constructor) Hc eq_refl) as Hk.
      split; [intros _; split; [exact Hv|apply Honly; rewrite H1; rds]|]. split; congruence.
    - pose proof (early_read m _ _ _ _ _ _ _ [] _ _ conf Hs Hop Hu H1 ltac:(constructor) Hc eq_refl) as Hk.
      pose proof (early_read m _ _ _ _ _ _ _ [R (RdHas m s true)] _ [] conf Hs Hop Hu H1 ltac:(rds) Hc eq_refl) as Hst.
      split; [congruence|]. split; [intros _ _; split; [exact Hv|apply Honly; rewrite H1; rds]|]. congruence.
    - pose proof (early_read m _ _ _ _ _ _ _ [] _ _ conf Hs Hop Hu H1 ltac:(constructor) Hc eq_refl) as Hk.
      pose proof (cas_started m _ _ _ _ _ _ _ [R (RdHas m s true)] _ Hs Hop Hu H1 ltac:(rds)) as Hst.
      split; [congruence|]. split; [congruence|]. intros _ _. split; [exact Hv|]. rewrite H1. reflexivity.
  Qed.

  (** ** C43 *)
  Lemma start_sequence m t a b its v d : span t T a (OInv (AStart m)) b its (ORet (AStart m) v) d -> In (OStarted m) its ->
    exists init h conf x out, during t a (OInv (AStart m)) b h /\ conf_at E w0 m h conf /\ initial conf = Some init /\
      v = outcome x /\ shown its = OStarted m :: OState m init :: out /\ startup w0 m init t a (OInv (AStart m)) b x out.
  Proof.
    intros Hs Hin.
    pose proof (span_node E w0 w H0 Hr _ _ _ _ _ _ _ (FApi (AStart m)) Hs eq_refl) as [_ (x & Hv & Hl)].
    destruct Hl as (i & o1 & H1 & Hl).
    assert (Hl2 : exists init o4, i = Some init /\ its = [R (RdInit m (Some init)); R (RdMapEmpty m false); R (RdDangling m false); OStarted m; OState m init] ++ o4 /\
         seqx (notifyL m false (SNone m) (EImm m) init)
        (seqx (actsL true init (EImm m) m)
        (seqx (notifyL m true (SNone m) (EImm m) init) (emit [OUnended m]))) x o4).
    { destruct i as [init|]; [|destruct Hl as [-> ->]; rewrite H1 in Hin; destruct Hin as [Hin|[]]; discriminate].
      destruct Hl as (e & o2 & -> & Hl). destruct e; [destruct Hl as [_ ->]; rewrite H1 in Hin; simpl in Hin; intuition discriminate|].
      destruct Hl as (e & o3 & -> & Hl). destruct e; [destruct Hl as [_ ->]; rewrite H1 in Hin; simpl in Hin; intuition discriminate|].
      destruct Hl as [[_ ->]|(o4 & -> & Hl)]; [rewrite H1 in Hin; simpl in Hin; intuition discriminate|].
      exists init, o4. auto. }
    clear Hl. destruct Hl2 as (init & o4 & -> & Hi & Hl).
    destruct (read_moment E w0 w H0 Hr _ _ _ _ _ _ _ [] _ o1 Hs H1) as (b1 & b2 & -> & _ & conf & Hc & Hin2).
    exists init, (a ++ (t, OInv (AStart m)) :: b1), conf, x, (shown o4).
    split; [eexists _, _; split; reflexivity|]. split; [exact Hc|]. split; [auto|]. split; [exact Hv|].
    split; [rewrite Hi; reflexivity|].
    assert (Har : all_read its o4) by (intros o Ho; rewrite Hi; apply in_or_app; auto).
    revert Hl. revert Har. generalize x, o4.
    apply seqx_script; [intros; eapply told_ok; eassumption|].
    apply seqx_script.
    { intros x1 out Ha (l & o2 & -> & Hrun). apply ar_cons in Ha. destruct Ha as [Ha1 Ha2].
      apply (ac_rd _ _ _ H0 Hr _ _ _ _ _ _ _ Hs) in Ha1. exists l. split; [exact Ha1|].
      exact (ran_ok _ _ _ H0 Hr _ _ _ _ _ _ _ Hs _ _ _ _ _ _ _ _ eq_refl Ha2 [] l eq_refl Hrun). }
    apply seqx_script; [intros; eapply told_ok; eassumption|].
    intros x1 out _ [-> ->]. split; reflexivity.
  Qed.
  Lemma start_in_silent m s t a b its v d : span t T a (OInv (AStartIn m s)) b its (ORet (AStartIn m s) v) d ->
    forall o, In (t, o) b -> In o its /\ match o with OCall _ => False | _ => True end.
  Proof.
    intros Hs o Ho. pose proof (span_node E w0 w H0 Hr _ _ _ _ _ _ _ (FApi (AStartIn m s)) Hs eq_refl) as [_ (x & Hv & Hl)].
    assert (Hf : Forall (fun o => opens o = None /\ closes o = false) its).
    { destruct Hl as [[_ ->]|[[_ ->]|[_ ->]]]; repeat constructor. }
    pose proof (flat_t _ _ _ (proj2 (proj2 Hs)) Hf _ Ho) as Hi. split; [exact Hi|].
    rewrite Forall_forall in Hf. apply Hf in Hi. destruct o; try exact I. destruct Hi; discriminate.
  Qed.
End Start.
