(** * AppLive2.v: where the events of an app service come from (proofs) *)
From Verif Require Import Sched Logic LiveSpec Lang Tree Nodes Marks Place Moments Truth Copies QueueProofs CallProofs FireProofs StartProofs
  TokenProofs ExactProofs FlowProofs2 Live LiveProofs LiveProofs2.
From Verif Require Import ConfTruth AppLiveSpec AppLive1.
From Verif Require Import ConfigSpec.

(** ** Positions in a bracket *)
(** a moment at which a bracket is still open lies inside it *)
Lemma inside_prefix t T a op b its z d b1 r u i : span t T a op b its z d -> T = (a ++ (t, op) :: b1) ++ r ->
  fst (scan t b1) = u ++ [(FRoot, i)] -> exists b2, b = b1 ++ b2 /\ r = b2 ++ (t, z) :: d.
Proof.
  intros (HT & Hz & Hs) HT2 Hb1. rewrite HT in HT2. rewrite <- app_assoc in HT2. apply app_inv_head in HT2. simpl in HT2.
  injection HT2 as HT2. apply app_eq_app in HT2. destruct HT2 as (l & [[Hl1 Hl2]|[Hl1 Hl2]]).
  - exists l. auto.
  - destruct l as [|y l]; [exists []; rewrite app_nil_r in *; simpl in *; auto|].
    exfalso. simpl in Hl2. injection Hl2 as <- _. rewrite Hl1 in Hb1. change ((t, z) :: l) with ([(t, z)] ++ l) in Hb1. rewrite app_assoc in Hb1.
    destruct (root_kept_t _ _ _ _ _ Hb1) as (u1 & j1 & j2 & Hj & _). rewrite Place.scan_snoc, Hs in Hj. unfold scan1 in Hj.
    rewrite Hz in Hj. simpl in Hj. destruct u1; discriminate.
Qed.
(** a mark that occurs once among the items has one position *)
Lemma same_place t b c1 c2 x r1 r2 i1 i2 u its j1 j2 : b = c1 ++ (t, x) :: r1 -> b = c2 ++ (t, x) :: r2 ->
  fst (scan t c1) = [(FRoot, i1)] -> fst (scan t c2) = [(FRoot, i2)] -> fst (scan t b) = u ++ [(FRoot, its)] ->
  closes x = false -> its = j1 ++ x :: j2 -> ~ In x j1 -> ~ In x j2 -> c1 = c2 /\ r1 = r2.
Proof.
  intros H1 H2 S1 S2 Hs Hx Hi N1 N2.
  destruct (two_items t c1 x r1 i1 S1 u its) as (k1 & K1); [rewrite <- H1; exact Hs|exact Hx|].
  destruct (two_items t c2 x r2 i2 S2 u its) as (k2 & K2); [rewrite <- H2; exact Hs|exact Hx|].
  assert (Hj : forall i k, its = i ++ x :: k -> i = j1).
  { intros i k Hk. rewrite Hi in Hk. apply app_eq_app in Hk. destruct Hk as (l & [[L1 L2]|[L1 L2]]).
    - destruct l as [|y l]; [rewrite app_nil_r in L1; auto|]. injection L2 as <- _. exfalso. apply N1. rewrite L1. apply in_or_app. right. left. reflexivity.
    - destruct l as [|y l]; [rewrite app_nil_r in L1; auto|]. injection L2 as <- ->. exfalso. apply N2. apply in_or_app. right. left. reflexivity. }
  apply Hj in K1 as ->. apply Hj in K2 as ->. rewrite H1 in H2. apply app_eq_app in H2. destruct H2 as (l & [[L1 L2]|[L1 L2]]).
  - destruct l as [|y l]; [rewrite app_nil_r in L1; simpl in L2; injection L2 as ->; auto|]. exfalso. injection L2 as <- _.
    destruct (two_items t c2 x l j1 S2 [] j1) as (k & Hk); [rewrite <- L1; exact S1|exact Hx|].
    apply (f_equal (@List.length obs)) in Hk. rewrite app_length in Hk. simpl in Hk. lia.
  - destruct l as [|y l]; [rewrite app_nil_r in L1; simpl in L2; injection L2 as ->; auto|]. exfalso. injection L2 as <- _.
    destruct (two_items t c1 x l j1 S1 [] j1) as (k & Hk); [rewrite <- L1; exact S2|exact Hx|].
    apply (f_equal (@List.length obs)) in Hk. rewrite app_length in Hk. simpl in Hk. lia.
Qed.

(** two brackets open at the same moment and the same depth are the same *)
Lemma open_unique t a1 op1 b1 a2 op2 b2 k1 k2 u1 u2 i1 i2 : a1 ++ (t, op1) :: b1 = a2 ++ (t, op2) :: b2 ->
  opens op1 = Some k1 -> opens op2 = Some k2 -> fst (scan t b1) = u1 ++ [(FRoot, i1)] -> fst (scan t b2) = u2 ++ [(FRoot, i2)] ->
  List.length u1 = List.length u2 -> a1 = a2 /\ op1 = op2 /\ b1 = b2.
Proof.
  assert (Hlt : forall b1 op2 b2 k2 u1 u2 i1 i2 l, b1 = l ++ (t, op2) :: b2 -> opens op2 = Some k2 ->
    fst (scan t b1) = u1 ++ [(FRoot, i1)] -> fst (scan t b2) = u2 ++ [(FRoot, i2)] -> List.length u1 = List.length u2 -> False).
  { clear. intros b1 op2 b2 k2 u1 u2 i1 i2 l -> H2 S1 S2 HL. pose proof (root_kept_t _ _ _ _ _ S1) as (v1 & j1 & j2 & Hl & _).
    rewrite (stack_at t l op2 b2 k2 u2 i2 H2 S2), Hl in S1. apply (f_equal (@List.length frame)) in S1.
    destruct v1 as [|[k i] v1]; simpl in S1; rewrite !app_length in S1; simpl in S1; try rewrite app_length in S1; simpl in S1; lia. }
  intros Heq H1 H2 S1 S2 HL. apply app_eq_app in Heq. destruct Heq as (l & [[L1 L2]|[L1 L2]]).
  - destruct l as [|y l]; [rewrite app_nil_r in L1; simpl in L2; injection L2 as -> ->; auto|]. injection L2 as <- ->.
    destruct (Hlt _ op1 b1 k1 u2 u1 i2 i1 l eq_refl H1 S2 S1 (eq_sym HL)).
  - destruct l as [|y l]; [rewrite app_nil_r in L1; simpl in L2; injection L2 as -> ->; auto|]. injection L2 as <- ->.
    destruct (Hlt _ op2 b2 k2 u1 u2 i1 i2 l eq_refl H2 S1 S2 HL).
Qed.
(** a visible mark shown once occurs once *)
Lemma shown_once its : forall s1 x s2, shown its = s1 ++ x :: s2 -> ~ In x s1 -> ~ In x s2 ->
  exists j1 j2, its = j1 ++ x :: j2 /\ ~ In x j1 /\ ~ In x j2.
Proof.
  induction its as [|o its IH]; intros s1 x s2 Hs N1 N2; [destruct s1; discriminate|].
  assert (Hv : visible x = true).
  { assert (Hi : In x (shown (o :: its))) by (rewrite Hs; apply in_or_app; right; left; reflexivity). apply shown_in in Hi. apply Hi. }
  simpl in Hs. destruct (visible o) eqn:Ho.
  - destruct s1 as [|y s1]; injection Hs as -> Hs.
    + exists [], its. split; [reflexivity|]. split; [auto|]. intro Hi. apply N2. rewrite <- Hs. apply shown_in. auto.
    + destruct (IH _ _ _ Hs) as (j1 & j2 & -> & M1 & M2); [intro Hi; apply N1; right; exact Hi|exact N2|].
      exists (y :: j1), j2. split; [reflexivity|]. split; [|exact M2]. intros [->|Hi]; [apply N1; left; reflexivity|exact (M1 Hi)].
  - destruct (IH _ _ _ Hs N1 N2) as (j1 & j2 & -> & M1 & M2). exists (o :: j1), j2. split; [reflexivity|]. split; [|exact M2].
    intros [->|Hi]; [congruence|exact (M1 Hi)].
Qed.

(** a is strictly inside the wrapped action ac *)
Fixpoint wrapped (ac a : action) : Prop :=
  match ac with AHandle a1 _ => a1 = a \/ wrapped a1 a | _ => False end.
Lemma wrapped_in ac a h : wrapped ac (AHandle a h) -> wrapped ac a.
Proof. induction ac; simpl; try tauto. intros [->|H]; [right; left; reflexivity|right; auto]. Qed.
Lemma wrapped_mentions p ac a : wrapped ac a -> mentions p a -> mentions p ac.
Proof. induction ac; simpl; try tauto. intros [->|H]; auto. Qed.

(** the actions run by start() are those it read for the initial state *)
Lemma run_act en s e m n l x out : runL en s e m n l x out -> forall j1 en' a s' e' m' j2, out = j1 ++ OCall (KAct en' a s' e' m') :: j2 ->
  en' = en /\ s' = s /\ In a l.
Proof.
  intro H. induction H; intros j1 en' a' s' e' m'' j2 Hj.
  - destruct j1 as [|o j1]; [discriminate|]. injection Hj as _ Hj. destruct j1; discriminate.
  - destruct j1 as [|o j1]; [discriminate|]. injection Hj as _ Hj. destruct j1; discriminate.
  - destruct j1 as [|o j1]; [discriminate|]. injection Hj as _ Hj. destruct j1 as [|o2 j1].
    + injection Hj as <- <- <- <- <- _. simpl. auto.
    + injection Hj as _ Hj. destruct j1 as [|o3 j1]; [discriminate|]. injection Hj as _ Hj. destruct j1; discriminate.
  - destruct j1 as [|o j1]; [discriminate|]. injection Hj as _ Hj. destruct j1 as [|o2 j1].
    + injection Hj as <- <- <- <- <- _. simpl. auto.
    + injection Hj as _ Hj. destruct j1 as [|o3 j1]; [discriminate|]. injection Hj as _ Hj. destruct (IHrunL _ _ _ _ _ _ _ Hj) as (-> & -> & Hi). simpl. auto.
Qed.
Definition is_kact (o : obs) : Prop := match o with OCall (KAct _ _ _ _ _) => True | _ => False end.
Lemma start_act m x out j1 en a s e m' j2 : startL m x out -> out = j1 ++ OCall (KAct en a s e m') :: j2 ->
  In (R (RdInit m (Some s))) j1 /\ exists l, In (R (RdActs true s l)) j1 /\ In a l.
Proof.
  intros (i & o1 & -> & Hl) Hj. destruct j1 as [|o j1]; [discriminate|]. injection Hj as <- Hj.
  destruct i as [init|]; [|destruct Hl as [_ ->]; destruct j1; discriminate].
  destruct Hl as (bb & o2 & -> & Hl). destruct j1 as [|o j1]; [discriminate|]. injection Hj as <- Hj.
  destruct bb; [destruct Hl as [_ ->]; destruct j1; discriminate|].
  destruct Hl as (d & o3 & -> & Hl). destruct j1 as [|o j1]; [discriminate|]. injection Hj as <- Hj.
  destruct d; [destruct Hl as [_ ->]; destruct j1; discriminate|].
  destruct Hl as [[_ ->]|(o4 & -> & Hl)].
  { destruct j1 as [|o j1]; [discriminate|]. injection Hj as _ Hj. destruct j1; discriminate. }
  destruct j1 as [|o j1]; [discriminate|]. injection Hj as <- Hj. destruct j1 as [|o j1]; [discriminate|]. injection Hj as <- Hj.
  assert (Hnot : forall fin f e0 s0 x0 out0 k1 k2, notifyL m fin f e0 s0 x0 out0 -> out0 = k1 ++ OCall (KAct en a s e m') :: k2 -> False).
  { intros fin f e0 s0 x0 out0 k1 k2 H Hk. apply only_notify in H. rewrite Hk in H. apply Forall_app in H. destruct H as [_ H].
    inversion H as [|? ? H1 _]. dmay; discriminate. }
  assert (Hact : forall x0 out0 k1 k2, actsL true init (EImm m) m x0 out0 -> out0 = k1 ++ OCall (KAct en a s e m') :: k2 ->
    s = init /\ exists l, In (R (RdActs true init l)) k1 /\ In a l).
  { intros x0 out0 k1 k2 (l & o5 & -> & H) Hk. destruct k1 as [|o k1]; [discriminate|]. injection Hk as <- Hk.
    destruct (run_act _ _ _ _ _ _ _ _ H _ _ _ _ _ _ _ Hk) as (_ & -> & Hin). split; [reflexivity|]. exists l. split; [left; reflexivity|exact Hin]. }
  assert (Hgoal : s = init /\ exists l, In (R (RdActs true init l)) j1 /\ In a l).
  { destruct Hl as [(y & _ & Hl)|(k1 & k2 & -> & Hl1 & Hl)]; [destruct (Hnot _ _ _ _ _ _ _ _ Hl Hj)|].
    destruct (split_app _ _ _ _ _ Hj) as [(j & Hk & _)|(j & Hk & ->)]; [destruct (Hnot _ _ _ _ _ _ _ _ Hl1 Hk)|].
    assert (Hmid : s = init /\ exists l, In (R (RdActs true init l)) j /\ In a l).
    { destruct Hl as [(y & _ & Hl)|(k3 & k4 & -> & Hl2 & Hl)]; [exact (Hact _ _ _ _ Hl Hk)|].
      destruct (split_app _ _ _ _ _ Hk) as [(j' & Hk' & _)|(j' & Hk' & ->)]; [exact (Hact _ _ _ _ Hl2 Hk')|].
      exfalso. destruct Hl as [(y & _ & Hl)|(k5 & k6 & -> & Hl3 & [_ ->])]; [exact (Hnot _ _ _ _ _ _ _ _ Hl Hk')|].
      destruct (split_app _ _ _ _ _ Hk') as [(j'' & Hk'' & _)|(j'' & Hk'' & ->)]; [exact (Hnot _ _ _ _ _ _ _ _ Hl3 Hk'')|].
      destruct j'' as [|o j'']; [discriminate|]. injection Hk'' as _ Hk''. destruct j''; discriminate. }
    destruct Hmid as (-> & l & Hl' & Ha). split; [reflexivity|]. exists l. split; [apply in_or_app; right; exact Hl'|exact Ha]. }
  destruct Hgoal as (-> & l & Hl' & Ha). split; [left; reflexivity|]. exists l. split; [|exact Ha]. do 5 right. exact Hl'.
Qed.
Lemma fire_no_kact E m0 e0 x out o : fireL E m0 e0 x out -> In o out -> ~ is_kact o.
Proof.
  intros H Hi Ho. apply only_fire in H. rewrite Forall_forall in H. apply H in Hi. destruct o; try contradiction. destruct c; try contradiction.
  dmay; discriminate.
Qed.
Lemma app_start_act E p x out j1 en a s e m' j2 : appStartL E p x out -> out = j1 ++ OCall (KAct en a s e m') :: j2 ->
  In (R (RdInit (ap_mach (apps E p)) (Some s))) j1 /\ exists l, In (R (RdActs true s l)) j1 /\ In a l.
Proof.
  intros (c & o1 & -> & Hl) Hj. destruct j1 as [|o j1]; [discriminate|]. injection Hj as <- Hj.
  destruct Hl as [(o2 & -> & Hl)|(o2 & -> & Hl)]; (destruct j1 as [|o j1]; [discriminate|]; injection Hj as <- Hj).
  - assert (Hgoal : In (R (RdInit (ap_mach (apps E p)) (Some s))) j1 /\ exists l, In (R (RdActs true s l)) j1 /\ In a l).
    { destruct Hl as [(y & _ & Hl)|(k1 & k2 & -> & Hl1 & Hl)]; [exact (start_act _ _ _ _ _ _ _ _ _ _ Hl Hj)|].
      destruct (split_app _ _ _ _ _ Hj) as [(j & Hk & _)|(j & Hk & ->)]; [exact (start_act _ _ _ _ _ _ _ _ _ _ Hl1 Hk)|exfalso].
      assert (Hstop : forall x0 out0, appStopL E p x0 out0 -> ~ In (OCall (KAct en a s e m')) out0).
      { intros x0 out0 H Hi. apply only_appstop in H. rewrite Forall_forall in H. apply H in Hi. dmay; discriminate. }
      assert (Hi : In (OCall (KAct en a s e m')) k2) by (rewrite Hk; apply in_or_app; right; left; reflexivity).
      destruct Hl as [(y & _ & Hl)|(k3 & k4 & -> & Hl2 & Hl)]; [exact (fire_no_kact _ _ _ _ _ _ Hl Hi I)|].
      apply in_app_or in Hi. destruct Hi as [Hi|Hi]; [exact (fire_no_kact _ _ _ _ _ _ Hl2 Hi I)|].
      destruct Hl as [(y & -> & ? & _)|(k5 & k6 & -> & (_ & Haw) & bb & k7 & -> & Hl)]; [discriminate|].
      apply in_app_or in Hi. destruct Hi as [Hi|Hi]; [destruct Haw as [->| ->]; simpl in Hi; intuition discriminate|].
      destruct Hi as [Hi|Hi]; [discriminate|]. destruct bb; [destruct Hl as [_ ->]; destruct Hi|exact (Hstop _ _ Hl Hi)]. }
    destruct Hgoal as (H1 & l & H2 & H3). split; [right; right; exact H1|]. exists l. split; [right; right; exact H2|exact H3].
  - exfalso. destruct (andb _ _).
    + eapply fire_no_kact; [exact Hl| |]; [rewrite Hj; apply in_or_app; right; left; reflexivity|exact I].
    + destruct Hl as [_ ->]. destruct j1; discriminate.
Qed.

Section Quiet.
  Context (E : env) (w0 : mem) (p : apid) (H0 : init_mem E w0) (Hb : app_built E w0 p).
  Context (w : world) (Hr : reach E w0 w).
  Notation T := (tr (wm w)).
  Notation m := (ap_mach (apps E p)).
  Notation q := (queue_of E m).
  Notation wkr := (worker_of E m).
  Context {f : fate} (HQ : app_quiet E p f T).

  Lemma inner_parent t k a e m' : may E t k (OCall (KInner a e m')) -> exists c h, k = FCall c /\ performs c (AHandle a h) e m'.
  Proof.
    intro Hm. destruct k as [|x|c|q' pr c]; simpl in Hm.
    - exfalso. destruct t; simpl in Hm; [dmay; discriminate|destruct Hm].
    - exfalso. destruct x; simpl in Hm; dmay; try discriminate; contradiction.
    - assert (Ha : forall a0 e0 m0, mact E a0 e0 m0 (OCall (KInner a e m')) -> exists h, a0 = AHandle a h /\ e0 = e /\ m0 = m').
      { intros a0 e0 m0 Ha. destruct a0; simpl in Ha; dmay; try discriminate; try contradiction.
        - match goal with H : OCall _ = OCall _ |- _ => injection H as -> -> -> end. eauto. }
      destruct c; simpl in Hm; try (destruct (Ha _ _ _ Hm) as (h & -> & -> & ->); eexists _, h; split; [reflexivity|];
         first [left; eauto; fail|right; reflexivity]); exfalso.
      all: try (destruct u); try (destruct h); try (destruct l as [[|]|]); dmay; try discriminate; try contradiction.
    - exfalso. dmay; try discriminate.
  Qed.
  Lemma act_parent t k en a s e m' : may E t k (OCall (KAct en a s e m')) ->
    (exists q' pr, k = FTake q' pr (Some (e, m'))) \/ (exists x, k = FApi x /\ e = EImm m' /\ en = true /\ starts E m' x).
  Proof.
    intro Hm. destruct k as [|x|c|q' pr c]; simpl in Hm.
    - exfalso. destruct t; simpl in Hm; [dmay; discriminate|destruct Hm].
    - right. exists x. split; [reflexivity|]. destruct x; simpl in Hm; dmay; try discriminate; try contradiction;
        match goal with H : OCall _ = OCall _ |- _ => injection H; intros; subst; simpl; auto end.
    - exfalso. assert (Ha : forall a0 e0 m0, mact E a0 e0 m0 (OCall (KAct en a s e m')) -> False).
      { intros a0 e0 m0 Ha. destruct a0; simpl in Ha; dmay; try discriminate; try contradiction. }
      destruct c; simpl in Hm; try (destruct (Ha _ _ _ Hm)).
      all: try (destruct u); try (destruct h); try (destruct l as [[|]|]); dmay; try discriminate; try contradiction.
    - left. exists q', pr. dmay; try discriminate; subst; match goal with H : OCall _ = OCall _ |- _ => injection H; intros; subst; reflexivity end.
  Qed.
  Lemma act_place n : forall t h r c its v a e m', List.length h <= n -> T = h ++ r -> fst (scan t h) = (FCall c, its) :: v ->
    performs c a e m' -> mentions p a ->
    m' = m /\ exists en ac st h1 b1 u i0 k j1 v1, h = h1 ++ (t, OCall (KAct en ac st e m)) :: b1 /\ fst (scan t b1) = u ++ [(FRoot, i0)] /\
      fst (scan t h1) = (k, j1) :: v1 /\ may E t k (OCall (KAct en ac st e m)) /\
      ((u = [] /\ i0 = its /\ c = KAct en a st e m /\ ac = a) \/
       (c = KInner a e m /\ wrapped ac a /\ ((u = [(FCall c, its)] /\ exists h', ac = AHandle a h') \/ exists h', wrapped ac (AHandle a h')))).
  Proof.
    induction n as [|n IH]; intros t h r c its v a e m' Hn HT Hs Hp Ha.
    { destruct h; [|simpl in Hn; lia]. discriminate. }
    destruct (top_bracket t h (FCall c) its v Hs ltac:(discriminate)) as (a0 & op & b & Hh & Hop & Hb0 & Hv).
    destruct op; try discriminate. injection Hop as ->.
    assert (HT0 : T = a0 ++ (t, OCall c) :: b ++ r) by (rewrite HT, Hh, <- app_assoc; reflexivity).
    assert (Hm : m' = m).
    { eapply (aq_own _ _ _ _ HQ); [|exact Hp|exact Ha]. rewrite HT0. apply in_or_app. right. left. reflexivity. }
    split; [exact Hm|]. subst m'.
    destruct (placed_at E w0 w H0 Hr _ _ _ _ HT0 eq_refl) as (k0 & j0 & v0 & Hs0 & Hmay).
    rewrite Hs0 in Hv. simpl in Hv. subst v. destruct Hp as [(en & st & ->)| ->].
    - exists en, a, st, a0, b, [], its, k0, j0, v0. split; [exact Hh|]. split; [exact Hb0|].
      split; [exact Hs0|]. split; [exact Hmay|]. left. auto.
    - destruct (inner_parent _ _ _ _ _ Hmay) as (c' & h' & -> & Hp').
      destruct (IH t a0 ((t, OCall (KInner a e m)) :: b ++ r) c' j0 v0 (AHandle a h') e m)
        as (_ & en & ac & st & h1 & b1 & u & i0 & k & j1 & v1 & Hst & Hin & Hmk & Hmm & Hc);
        [rewrite Hh, app_length in Hn; simpl in Hn; lia|exact HT0|exact Hs0|exact Hp'|left; exact Ha|].
      destruct (u) as [|fr u'] eqn:Eu.
      + exists en, ac, st, h1, (b1 ++ (t, OCall (KInner a e m)) :: b), [(FCall (KInner a e m), its)], (i0 ++ [OCall (KInner a e m)]), k, j1, v1.
        split; [rewrite Hh, Hst; repeat (rewrite <- !app_assoc; simpl); reflexivity|].
        split; [rewrite (stack_at t b1 (OCall (KInner a e m)) b (FCall (KInner a e m)) [] its eq_refl Hb0), Hin; reflexivity|].
        split; [exact Hmk|]. split; [exact Hmm|]. right. split; [reflexivity|].
        destruct Hc as [(_ & _ & _ & ->)|(_ & Hw & _)]; [|split; [eapply wrapped_in; exact Hw|right; eauto]].
        split; [left; reflexivity|]. left. eauto.
      + exists en, ac, st, h1, (b1 ++ (t, OCall (KInner a e m)) :: b),
          ((FCall (KInner a e m), its) :: add_item (OCall (KInner a e m)) (fr :: u')), i0, k, j1, v1.
        split; [rewrite Hh, Hst; repeat (rewrite <- !app_assoc; simpl); reflexivity|].
        split.
        { rewrite (stack_at t b1 (OCall (KInner a e m)) b (FCall (KInner a e m)) [] its eq_refl Hb0), Hin. destruct fr; reflexivity. }
        split; [exact Hmk|]. split; [exact Hmm|]. right. split; [reflexivity|].
        destruct Hc as [(N & _)|(_ & Hw & _)]; [discriminate|].
        split; [eapply wrapped_in; exact Hw|right; eauto].
  Qed.

  Lemma read_in t r : In (t, ORd r) T -> exists h rest, T = h ++ (t, ORd r) :: rest /\ read_at E w0 h r.
  Proof. intro Hi. apply in_split in Hi. destruct Hi as (h & rest & HT). exists h, rest. split; [exact HT|]. eapply read_true; eauto. Qed.
  Lemma frame_in t h r k its v o : T = h ++ r -> fst (scan t h) = (k, its) :: v -> In o its -> In (t, o) T.
  Proof. intros HT Hs Hi. rewrite HT. apply in_or_app. left. eapply (its_in t h []); eauto. Qed.
  (** what start() reads of the configuration *)
  Local Opaque life_conf.
  Lemma conf_read t h r rest : T = h ++ (t, ORd r) :: rest ->
    match r with
    | RdInit m' s => m' = m -> s = Some (SApp p UNINIT)
    | RdMapEmpty m' v => m' = m -> v = false
    | RdDangling m' v => m' = m -> v = false
    | _ => True
    end.
  Proof.
    intro HT. pose proof (conf_fixed E w0 p H0 Hb w Hr HQ h _ HT) as Hcf. rewrite (ab_table _ _ _ Hb) in Hcf.
    destruct Hcf as (os & s0 & Hos & Hh & Heq).
    assert (Hs0 : conf0 E w0 m s0) by (exists os; auto).
    destruct (conf_truth E w0 H0 m s0 Hs0 w Hr) as (_ & _ & Hk). pose proof (Hk _ _ _ _ HT) as Hk2.
    destruct r; try exact I; simpl in Hk2; intro Hm; specialize (Hk2 Hm); rewrite <- Heq in Hk2.
    - rewrite Hk2. apply life_initial.
    - destruct b; [|reflexivity]. destruct Hk2 as [Hk2 _]. specialize (Hk2 eq_refl). rewrite life_initial in Hk2. discriminate.
    - destruct b; [|reflexivity]. destruct Hk2 as [Hk2 _]. specialize (Hk2 eq_refl). exfalso. revert Hk2. apply life_complete.
  Qed.
  Lemma init_read t s : In (t, R (RdInit m s)) T -> s = Some (SApp p UNINIT).
  Proof. intro Hi. apply in_split in Hi. destruct Hi as (h & rest & HT). exact (conf_read _ _ _ _ HT eq_refl). Qed.
  (** start() runs no action: the first state has none *)
  Lemma start_no_act t h r x its v en ac st e : T = h ++ (t, OCall (KAct en ac st e m)) :: r -> fst (scan t h) = (FApi x, its) :: v ->
    starts E m x -> False.
  Proof.
    intros HT Hs Hx. destruct (placed_frame E w0 w H0 Hr _ _ _ _ HT eq_refl) as (k & its' & u & Hs' & Hf).
    rewrite Hs in Hs'. injection Hs' as <- <- _. destruct Hf as (ext & z & Hn).
    assert (Hop : opened t h (FApi x) its) by (unfold opened; rewrite Hs; left; reflexivity).
    pose proof (aq_none _ _ _ _ HQ _ _ (open_call w _ _ _ _ _ HT Hop)) as Hno.
    destruct z; simpl in Hn; try contradiction. destruct Hn as [_ Hn].
    destruct x; simpl in Hx; try contradiction; try (apply Hno; exact Hx).
    apply (ab_alone _ _ _ Hb) in Hx. subst p0. destruct Hn as (y & _ & Hn).
    destruct (app_start_act E p y _ its en ac st e m ext Hn) as (H1 & l & H2 & H3); [rewrite <- app_assoc; reflexivity|].
    pose proof (init_read t _ (frame_in _ _ _ _ _ _ _ HT Hs H1)) as [= ->].
    destruct (read_in _ _ (frame_in _ _ _ _ _ _ _ HT Hs H2)) as (h2 & rest & HT2 & Hl). simpl in Hl.
    rewrite (acts_fixed E w0 p H0 w Hr HQ h2 _ _ _ HT2), (ab_entry _ _ _ Hb) in Hl. rewrite Hl in H3. exact H3.
  Qed.

  Lemma act_in_take t h r c its v a e m' : T = h ++ r -> fst (scan t h) = (FCall c, its) :: v -> performs c a e m' -> mentions p a ->
    m' = m /\ t = wkr /\ exists pr en ac st h0 b0 b1 u i0 i1,
      h = h0 ++ (t, OTake q pr (Some (e, m))) :: b0 ++ (t, OCall (KAct en ac st e m)) :: b1 /\
      fst (scan t b0) = [(FRoot, i1)] /\ fst (scan t b1) = u ++ [(FRoot, i0)] /\
      ((u = [] /\ i0 = its /\ c = KAct en a st e m /\ ac = a) \/
       (c = KInner a e m /\ wrapped ac a /\ ((u = [(FCall c, its)] /\ exists h', ac = AHandle a h') \/ exists h', wrapped ac (AHandle a h')))).
  Proof.
    intros HT Hs Hp Ha.
    destruct (act_place (List.length h) t h r c its v a e m' (le_n _) HT Hs Hp Ha) as (-> & en & ac & st & h1 & b1 & u & i0 & k & j1 & v1 & Hh & Hb1 & Hh1 & Hm & Hc).
    split; [reflexivity|].
    assert (HT1 : T = h1 ++ (t, OCall (KAct en ac st e m)) :: b1 ++ r) by (rewrite HT, Hh, <- app_assoc; reflexivity).
    destruct (act_parent _ _ _ _ _ _ _ Hm) as [(q' & pr & ->)|(x & -> & _ & _ & Hx)]; [|destruct (start_no_act _ _ _ _ _ _ _ _ _ _ HT1 Hh1 Hx)].
    destruct (top_bracket t h1 _ _ _ Hh1 ltac:(discriminate)) as (h0 & op & b0 & Hh0 & Hop & Hb0 & _).
    destruct op; try discriminate. injection Hop as -> -> ->.
    assert (Hq : q' = q).
    { assert (Htk : In (t, OTake q' pr (Some (e, m))) T) by (rewrite HT1, Hh0; apply in_or_app; left; apply in_or_app; right; left; reflexivity).
      destruct (taken_accepted E w0 w _ _ _ _ H0 Hr Htk) as (t' & e0 & e' & m' & [= <- <-] & Hq & _). exact Hq. }
    subst q'.
    assert (Hopn : opened t h1 (FTake q pr (Some (e, m))) j1) by (unfold opened; rewrite Hh1; left; reflexivity).
    destruct (take_worker E w0 w H0 Hr m (ab_queue _ _ _ Hb) (ab_thread _ _ _ Hb) _ _ _ _ _ _ HT1 Hopn) as [Ht _].
    split; [exact Ht|]. exists pr, en, ac, st, h0, b0, b1, u, i0, j1.
    split; [rewrite Hh, Hh0; repeat (rewrite <- !app_assoc; simpl); reflexivity|]. auto.
  Qed.
End Quiet.
