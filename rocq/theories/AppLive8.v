(** * AppLive8.v: the life of an app service: up, and down again (proofs) *)
From Verif Require Import Sched MemInv Logic LiveSpec Lang Tree Nodes Marks Place Moments Truth Copies QueueProofs CallProofs FireProofs StartProofs
  TokenProofs ExactProofs FlowProofs2 Live LiveProofs LiveProofs2 AppLive1 AppLive2 AppLive3 AppLive4 AppLive5 AppLive6 AppLive7.
From Verif Require Import AppLiveSpec.
From Verif Require Import ConfigSpec.

(** ** Brackets of API calls *)
Lemma ret_inv E w0 w h t x v r : init_mem E w0 -> reach E w0 w -> tr (wm w) = h ++ (t, ORet x v) :: r ->
  exists a b its, h = a ++ (t, OInv x) :: b /\ span t (tr (wm w)) a (OInv x) b its (ORet x v) r.
Proof.
  intros H0 Hr HT. destruct (root_stack E w0 w H0 Hr t h _ HT) as (u & i & Hs).
  assert (HT2 : tr (wm w) = (h ++ [(t, ORet x v)]) ++ r) by (rewrite HT, <- app_assoc; reflexivity).
  destruct (root_stack E w0 w H0 Hr t _ _ HT2) as (u2 & i2 & Hs2). rewrite (scan_snoc t h) in Hs2.
  destruct u as [|[k its] u].
  - rewrite Hs in Hs2. destruct u2; discriminate.
  - assert (Hk : k <> FRoot).
    { intros ->. rewrite scan_eq in Hs. apply (root_bottom _ [] _ _) in Hs. destruct Hs as [Hs _]. destruct u; discriminate. }
    destruct (top_bracket t h k its (u ++ [(FRoot, i)]) Hs Hk) as (a & op & b & -> & Hop & Hb' & _).
    assert (Hsp : span t (tr (wm w)) a op b its (ORet x v) r).
    { split; [rewrite HT, <- app_assoc; reflexivity|]. split; [reflexivity|exact Hb']. }
    pose proof (span_node E w0 w H0 Hr _ _ _ _ _ _ _ _ Hsp Hop) as Hn.
    destruct k as [|x'|c'|q' pr c']; simpl in Hn; try contradiction. destruct Hn as [-> _].
    destruct op; try discriminate. injection Hop as ->. exists a, b, its. auto.
Qed.

Lemma past_last f i : f <> Again -> past f i = true -> i = S (lastk f).
Proof. unfold past. destruct f; intros Hfa H; try congruence; apply Nat.eqb_eq; exact H. Qed.
Lemma last_tostop f i : f <> Again -> S i = lastk f -> tostop f i = true.
Proof. unfold tostop. destruct f; intros Hfa H; try congruence; apply Nat.eqb_eq; exact H. Qed.
(** the first event of the last round *)
Definition turn (f : fate) : nat := match f with NoStart => 0 | _ => 2 end.
Lemma turn_last f : lastk f = S (S (turn f)). Proof. destruct f; reflexivity. Qed.
Lemma stays_1 f : f <> NoStart -> stays f 1 = true. Proof. destruct f; [reflexivity|congruence|reflexivity..]. Qed.
Lemma stays_0 f : stays f 0 = false. Proof. destruct f; reflexivity. Qed.
Lemma stays_turn f : f <> Again -> stays f (turn f) = false /\ stays f (S (turn f)) = false. Proof. destruct f; auto. congruence. Qed.
Lemma turn_2 f : f <> NoStart -> turn f = 2. Proof. destruct f; [reflexivity|congruence|reflexivity..]. Qed.
Lemma step_late E p f i l : f <> Again -> turn f < i -> step_marks E p f i l -> l = [].
Proof. unfold step_marks. destruct f; try congruence; destruct i as [|[|[|[|i]]]]; simpl; intros; try lia; auto. Qed.
Lemma marks_same E p f i j l : turn f < i -> turn f < j -> marks E p f i l -> marks E p f j l.
Proof.
  unfold marks. intros Hi Hj (l1 & l2 & -> & H1 & H2). exists l1, l2. split; [reflexivity|].
  destruct i as [|i]; [lia|]. destruct j as [|j]; [lia|]. split; [exact H1|].
  destruct f; simpl in Hi, Hj; cbn [lastk] in *; change (Nat.leb 3 2) with false in *; rewrite ?andb_false_r in *; auto;
    destruct i as [|[|i]]; try lia; destruct j as [|[|j]]; try lia; exact H2.
Qed.

Section Life.
  Context (E : env) (w0 : mem) (s : nat -> tid) (p : apid).
  Notation T := (LiveSpec.history E w0 s).
  Notation W := (moment E w0 s).
  Notation m := (ap_mach (apps E p)).
  Notation q := (queue_of E m).
  Notation wkr := (worker_of E m).
  Context (H0 : init_mem E w0) (Hb : app_built E w0 p) {f : fate} (HL : left_to_fate E w0 s p f) (Hsv : served E w0 s q).
  Notation part := (part E w0 s).
  Notation cont := (@cont E p f).
  Notation K h := (List.length (taken q h)).
  Notation J h := (List.length (accepted q h)).
  Notation HG := (HG E w0 s p H0 Hb HL Hsv).
  Notation hpart := (hpart E w0 s).

  (** the processing of the i-th event *)
  Lemma processed i n : i < J (T n) -> exists n' a pr b its z d, n <= n' /\ K a = i /\ inplan f i /\ start_over m a /\ mstate_at m a = (Some (lst E p f i), false) /\
    i < J a /\ span wkr (T n') a (OTake q pr (cont i)) b its z d.
  Proof.
    intro Hi. destruct (all_taken E w0 s q H0 Hsv i n Hi) as (n1 & Hn1 & Hk).
    destruct (taken_at q _ _ Hk) as (a & t & pr & c & r & HT & Ha & _).
    assert (Hpt : part (a ++ [(t, OTake q pr c)])) by (exists n1, r; rewrite HT, <- app_assoc; reflexivity).
    destruct (take_thread E w0 s p H0 Hb _ _ _ _ Hpt) as [-> _].
    destruct (taken_content E w0 s p H0 (List.length a) (HG _) a pr c Hpt (le_n _)) as (_ & Hj & _).
    destruct (take_all E w0 s p H0 Hb HL Hsv (List.length a) (HG _) a pr c (T n1) Hpt (le_n _) (hpart n1)) as (-> & H5 & Ho & Hst & n2 & b & its & z & d & r2 & Hs & HT2).
    rewrite Ha in *. destruct (history_le E w0 s n2 (n2 + n1) ltac:(lia)) as [x Hx].
    exists (n2 + n1), a, pr, b, its, z, (d ++ x). repeat split; auto; [lia| |apply Hs..].
    destruct Hs as (HT3 & _). rewrite Hx, HT3. repeat (rewrite <- ?app_assoc; simpl). reflexivity.
  Qed.
  Lemma next i n : i < J (T n) -> sends E p f i -> exists n', n <= n' /\ S i < J (T n').
  Proof.
    intros Hi Hse. destruct (processed i n Hi) as (n' & a & pr & b & its & z & d & Hn & Ha & H5 & Ho & Hst & Hj & Hs).
    destruct (take_offers E w0 p H0 Hb (W n') (moment_reach E w0 s n') (quiet E w0 s p HL Hsv n') wkr a pr b its z d i H5 Hs Ho Hst) as (X0 & H & _).
    destruct (H Hse) as (pr' & b2 & Hbb). exists n'. split; [exact Hn|]. destruct Hs as (HT & _). rewrite HT, Hbb.
    rewrite accepted_app, app_length. change ((wkr, OTake q pr (cont i)) :: (X0 ++ (wkr, OOffer q pr' (ELife (lev f (S i))) m (ELife (lev f (S i))) m) :: b2) ++ (wkr, z) :: d)
      with ([(wkr, OTake q pr (cont i))] ++ (X0 ++ (wkr, OOffer q pr' (ELife (lev f (S i))) m (ELife (lev f (S i))) m) :: b2) ++ (wkr, z) :: d).
    rewrite !accepted_app, !app_length. pose proof (in_accepted E p wkr pr' (ELife (lev f (S i))) m (ELife (lev f (S i))) m ((wkr, OOffer q pr' (ELife (lev f (S i))) m (ELife (lev f (S i))) m) :: b2) (or_introl eq_refl)) as Hne.
    destruct (accepted q ((wkr, OOffer q pr' (ELife (lev f (S i))) m (ELife (lev f (S i))) m) :: b2)); [congruence|simpl; lia].
  Qed.
  (** once the i-th event has been processed the machine rests until the next one is taken *)
  Lemma settle i n : i < J (T n) -> exists n1, K (T n1) = S i /\ rests q wkr (T n1).
  Proof.
    intro Hi. destruct (processed i n Hi) as (n' & a & pr & b & its & z & d & Hn & Ha & H5 & Ho & Hst & Hj & Hs).
    set (h := a ++ (wkr, OTake q pr (cont i)) :: b ++ [(wkr, z)]).
    assert (Hph : part h) by (exists n', d; destruct Hs as (HT & _); rewrite HT; unfold h; repeat (rewrite <- ?app_assoc; simpl); reflexivity).
    destruct (moment_at E w0 s H0 h Hph) as [n1 Hn1]. exists n1. rewrite Hn1.
    assert (Hpt : part (a ++ [(wkr, OTake q pr (cont i))])).
    { apply (part_pre E w0 s _ (b ++ [(wkr, z)])). rewrite <- app_assoc. exact Hph. }
    destruct (take_root E w0 s p H0 _ _ _ Hpt) as [ia Hia].
    destruct (after_span E p a (OTake q pr (cont i)) b its z ia Hia) as [j Hjj]; [eexists; reflexivity|apply Hs|apply Hs|].
    assert (Hre : rests q wkr h) by (eapply root_rests; exact Hjj). split; [|exact Hre].
    destruct (phase E w0 s p H0 Hb HL Hsv h Hph) as [Ht|(a' & pr' & b' & n2 & b2 & its2 & z2 & d2 & r2 & (Hh & Hb0 & _ & _ & _ & _ & Hs2 & HT2 & _) & Hc)].
    { exfalso. assert (Hin : In (wkr, OTake q pr (cont i)) h) by (unfold h; apply in_or_app; right; left; reflexivity).
      unfold h in Ht. rewrite taken_app, taken_cons in Ht. destruct (taken q a); discriminate. }
    unfold h in *. rewrite taken_app, taken_cons, app_length. simpl.
    assert (Hbz : taken q (b ++ [(wkr, z)]) = []).
    { (* a second take would start while the first one runs *)
      destruct (app_eq_app _ _ _ _ Hh) as (l & [[L1 L2]|[L1 L2]]).
      - destruct l as [|y l]; [|injection L2 as <- L2].
        + apply (f_equal (@tl _)) in L2. simpl in L2. rewrite <- L2. exact Hb0.
        + exfalso. assert (HaK : In (wkr, OTake q pr' (cont (K a'))) a) by (rewrite L1; apply in_or_app; right; left; reflexivity).
          rewrite L2 in Hb0. rewrite taken_app, taken_cons in Hb0. destruct (taken q l); discriminate.
      - destruct l as [|y l]; [apply (f_equal (@tl _)) in L2; simpl in L2; rewrite L2; exact Hb0|]. injection L2 as <- L2.
        exfalso. (* the later take lies inside the span *)
        assert (Hl : l ++ (wkr, OTake q pr' (cont (K a'))) :: b' = b ++ [(wkr, z)]) by (symmetry; exact L2).
        destruct b' as [|y b'] using rev_ind.
        { apply app_inj_tail in Hl. destruct Hl as [_ Hl]. injection Hl as Hz. destruct Hs as (_ & Hz' & _). rewrite <- Hz in Hz'. discriminate. }
        rewrite app_comm_cons, app_assoc in Hl. apply app_inj_tail in Hl. destruct Hl as [Hl _].
        assert (Hp' : part (a' ++ [(wkr, OTake q pr' (cont (K a'))) ])).
        { apply (part_pre E w0 s _ (b' ++ [y])). rewrite <- app_assoc. simpl. rewrite <- Hh. exact Hph. }
        destruct (take_root E w0 s p H0 _ _ _ Hp') as [ib Hib]. rewrite L1 in Hib.
        destruct Hs as (_ & _ & Hsb). rewrite <- Hl in Hsb. destruct (root_kept_t _ _ _ [] _ Hsb) as (u1 & i1 & i2 & Hu & _).
        rewrite (stack_at wkr a (OTake q pr (cont i)) l _ u1 i1 eq_refl Hu) in Hib. destruct u1 as [|? [|]]; discriminate. }
    rewrite Hbz. simpl. lia.
  Qed.
  Lemma settled i n1 n2 : K (T n1) = S i -> rests q wkr (T n1) -> n1 <= n2 -> J (T n2) <= S i ->
    mstate_at m (T n2) = (Some (lst E p f (S i)), past f (S i)) /\ subsystem_marks p (T n2) = subsystem_marks p (T n1).
  Proof.
    intros HK Hre Hn HJ. destruct (history_le E w0 s n1 n2 Hn) as [x Hx].
    pose proof (fifo_le E w0 s p H0 _ (hpart n2)) as Hle. assert (Hxt : taken q x = []).
    { rewrite Hx, taken_app, app_length, HK in Hle. destruct (taken q x); [reflexivity|]. simpl in Hle. rewrite <- Hx in Hle. lia. }
    assert (HK2 : K (T n2) = S i) by (rewrite Hx, taken_app, Hxt, app_nil_r; exact HK).
    assert (Hre2 : rests q wkr (T n2)) by (rewrite Hx; apply rests_on; assumption).
    split.
    - rewrite <- HK2. apply (state_rest E w0 s p H0 Hb HL Hsv); [apply hpart|exact Hre2|]. intro Hz. rewrite Hz in HK2. discriminate.
    - rewrite Hx. apply (gap_subs E w0 s p H0 Hb HL Hsv); [|exact Hre|exact Hxt]. rewrite <- Hx. apply hpart.
  Qed.
  Lemma settled_runs i n1 : K (T n1) = S i -> rests q wkr (T n1) -> runs E p f (S i) (subsystem_marks p (T n1)).
  Proof. intros HK Hre. rewrite <- HK. eapply (runs_rest E w0 s p H0 Hb HL Hsv); eauto. apply hpart. Qed.
  Lemma grows n n' : n <= n' -> J (T n) <= J (T n').
  Proof. intro Hn. destruct (history_le E w0 s n n' Hn) as [x ->]. rewrite accepted_app, app_length. lia. Qed.

  (** ** One round at most *)
  Context (Hfa : f <> Again).
  Lemma settled_marks i n1 : K (T n1) = S i -> rests q wkr (T n1) -> marks E p f (S i) (subsystem_marks p (T n1)).
  Proof. intros HK Hre. rewrite <- HK. eapply (marks_rest E w0 s p H0 Hb HL Hsv); eauto. apply hpart. Qed.
  (** the third event is the one of stop() *)
  Lemma third n : f <> NoStart -> 2 < J (T n) -> exists t, In (t, OInv (AAppStop p)) (T n).
  Proof.
    intros Hf Hj. destruct (offered_at q 2 (T n) Hj) as (a & t & pr & e1 & m1 & e2 & m2 & r & HT & Ha).
    assert (Hp : part (a ++ [(t, OOffer q pr e1 m1 e2 m2)])) by (exists n, r; rewrite HT, <- app_assoc; reflexivity).
    destruct (HG (S (List.length a)) a t pr e1 m1 e2 m2 (Nat.lt_succ_diag_r _) Hp) as (_ & _ & _ & _ & _ & Ho). rewrite Ha in Ho.
    apply (stop_origin E p Hfa 1) in Ho; [|exact (stays_1 f Hf)]. destruct Ho as (its & v & Hs). exists t. apply (open_call (W n) _ _ _ _ its HT). unfold opened. rewrite Hs. left. reflexivity.
  Qed.

  (** ** stop() that returned normally *)
  Lemma stop_third n t : f <> NoStart -> In (t, ORet (AAppStop p) RvUnit) (T n) -> 2 < J (T n).
  Proof.
    intros Hf Hin. apply in_split in Hin. destruct Hin as (h & r & HT).
    destruct (ret_inv E w0 (W n) h t (AAppStop p) RvUnit r H0 (moment_reach E w0 s n) HT) as (a & b & its & Hh & Hs). change (tr (wm (W n))) with (T n) in Hs.
    pose proof (span_node E w0 (W n) H0 (moment_reach E w0 s n) _ _ _ _ _ _ _ (FApi (AAppStop p)) Hs eq_refl) as [_ (x & Hx & Hl)].
    destruct x; [discriminate|]. destruct Hl as (c & o & Hi & Hl).
    assert (Hpref : forall b1 b2, b = b1 ++ b2 -> part (a ++ (t, OInv (AAppStop p)) :: b1) /\ exists y, T n = (a ++ (t, OInv (AAppStop p)) :: b1) ++ y).
    { intros b1 b2 Hbb. assert (X : exists y, T n = (a ++ (t, OInv (AAppStop p)) :: b1) ++ y).
      { destruct Hs as (HT' & _). eexists. rewrite HT', Hbb. repeat (rewrite <- ?app_assoc; simpl). reflexivity. }
      split; [|exact X]. destruct X as [y X]. exists n, y. exact X. }
    assert (HKJ : forall b1 b2, b = b1 ++ b2 -> K (a ++ (t, OInv (AAppStop p)) :: b1) <= J (T n)).
    { intros b1 b2 Hbb. destruct (Hpref _ _ Hbb) as [Hp [y Hy]]. pose proof (fifo_le E w0 s p H0 _ Hp). rewrite Hy, accepted_app, app_length. lia. }
    destruct (read_moment E w0 (W n) H0 (moment_reach E w0 s n) _ _ _ _ _ _ _ [] _ o Hs Hi) as (b1 & b2 & Hbb & Hsb & Hrd).
    destruct (Hpref _ _ Hbb) as [Hp1 _]. simpl in Hrd.
    destruct (orb _ _) eqn:Eo.
    - assert (HK2 : 2 <= K (a ++ (t, OInv (AAppStop p)) :: b1)).
      { destruct (stop_named E w0 s p H0 Hb HL Hsv (List.length (a ++ (t, OInv (AAppStop p)) :: b1)) (HG _) (a ++ (t, OInv (AAppStop p)) :: b1) c) as [(_ & X & _)|(X & _)]; [exact Hfa|assumption|lia|auto| |exact X|contradiction].
        apply orb_true_iff in Eo. destruct Eo as [Eo|Eo]; [left; exact Eo|right]. apply andb_true_iff in Eo. rewrite negb_true_iff in Eo. exact Eo. }
      destruct (fire_gives E p (ab_keep _ _ _ Hb) (ab_unbounded _ _ _ Hb) _ _ _ Hl) as [(pr & e1 & m1 & e2 & m2 & Hof)|[Hen|[j ->]]].
      + apply in_split in Hof. destruct Hof as (o1 & o2 & ->). simpl in Hi. rewrite app_comm_cons in Hi.
        destruct (item_moment (W n) _ _ _ _ _ _ _ _ _ _ Hs Hi eq_refl) as (c1 & c2 & Hc & Hsc & HTc).
        assert (Hp : part ((a ++ (t, OInv (AAppStop p)) :: c1) ++ [(t, OOffer q pr e1 m1 e2 m2)])) by (eexists n, _; rewrite <- app_assoc; exact HTc).
        destruct (HG _ _ t pr e1 m1 e2 m2 (Nat.lt_succ_diag_r _) Hp) as (_ & _ & _ & _ & _ & Ho).
        pose proof (stack_at t a (OInv (AAppStop p)) c1 _ [] _ eq_refl Hsc) as Hst. simpl in Hst.
        assert (HTc2 : J (T n) >= S (J (a ++ (t, OInv (AAppStop p)) :: c1))).
        { unfold LiveSpec.history. rewrite HTc, accepted_app, app_length.
          pose proof (in_accepted E p t pr e1 m1 e2 m2 ((t, OOffer q pr e1 m1 e2 m2) :: c2 ++ (t, ORet (AAppStop p) RvUnit) :: r) (or_introl eq_refl)) as Hne.
          destruct (accepted q ((t, OOffer q pr e1 m1 e2 m2) :: c2 ++ (t, ORet (AAppStop p) RvUnit) :: r)); [congruence|simpl; lia]. }
        destruct (J (a ++ (t, OInv (AAppStop p)) :: c1)) as [|[|[|k]]].
        * exfalso. destruct Ho as ((its1 & v1 & Hs1 & _) & _). rewrite Hst in Hs1. discriminate.
        * exfalso. unfold origin in Ho. rewrite (stays_0 f) in Ho. destruct Ho as (-> & a1 & pr1 & b3 & u1 & i1 & c3 & its1 & v1 & e & m' & _ & _ & _ & Hs1 & _). rewrite Hst in Hs1. discriminate.
        * lia.
        * lia.
      + apply in_split in Hen. destruct Hen as (o1 & o2 & ->). rewrite app_comm_cons in Hi.
        destruct (read_moment E w0 (W n) H0 (moment_reach E w0 s n) _ _ _ _ _ _ _ _ _ _ Hs Hi) as (c1 & c2 & Hc & _ & Hrd2). simpl in Hrd2.
        destruct (Hpref _ _ Hc) as [Hp2 _]. pose proof (ended_known E w0 s p H0 Hb HL Hsv _ Hp2 (eq_sym Hrd2)) as H5. apply (past_last f _ Hfa) in H5. pose proof (HKJ _ _ Hc). pose proof (last_ge f). lia.
      + exfalso. assert (Hi2 : its = [R (RdCur m c)] ++ R (RdStarted m false) :: j) by exact Hi.
        destruct (read_moment E w0 (W n) H0 (moment_reach E w0 s n) _ _ _ _ _ _ _ _ _ _ Hs Hi2) as (c1 & c2 & Hc & Hsc & Hrd2). simpl in Hrd2.
        destruct (item_inv t c1 [] [] (R (RdCur m c)) []) as (c3 & c4 & Hc3 & Hsc3); [exact Hsc|reflexivity|].
        destruct (Hpref _ _ Hc) as [Hp2 [y2 Hy2]].
        assert (Hb3 : b = c3 ++ (t, R (RdCur m c)) :: c4 ++ (t, R (RdStarted m false)) :: c2) by (rewrite Hc, Hc3, <- app_assoc; reflexivity).
        destruct (Hpref _ _ Hb3) as [Hp3 [y3 Hy3]].
        assert (Hcur : c = cur_at m (a ++ (t, OInv (AAppStop p)) :: c3)).
        { assert (HT3 : T n = (a ++ (t, OInv (AAppStop p)) :: c3) ++ (t, ORd (RdCur m c)) :: c4 ++ (t, R (RdStarted m false)) :: c2 ++ (t, ORet (AAppStop p) RvUnit) :: r).
          { destruct Hs as (HT' & _). rewrite HT', Hb3. repeat (rewrite <- ?app_assoc; simpl). reflexivity. }
          pose proof (read_true E w0 (W n) H0 (moment_reach E w0 s n) _ _ _ _ HT3) as X. exact X. }
        assert (HK3 : 2 <= K (a ++ (t, OInv (AAppStop p)) :: c3)).
        { destruct (stop_named E w0 s p H0 Hb HL Hsv (List.length (a ++ (t, OInv (AAppStop p)) :: c3)) (HG _) (a ++ (t, OInv (AAppStop p)) :: c3) c) as [(_ & X & _)|(X & _)]; [exact Hfa|assumption|lia|auto| |exact X|contradiction].
          apply orb_true_iff in Eo. destruct Eo as [Eo|Eo]; [left; exact Eo|right]. apply andb_true_iff in Eo. rewrite negb_true_iff in Eo. exact Eo. }
        pose proof (fifo_le E w0 s p H0 _ Hp3) as Hf3.
        destruct (was_started E w0 s p (List.length (a ++ (t, OInv (AAppStop p)) :: c1)) (HG _) (a ++ (t, OInv (AAppStop p)) :: c1) Hp2 (le_n _)) as [t5 Hu].
        { rewrite Hc3. intro X. rewrite app_comm_cons, app_assoc, accepted_app in X. apply app_eq_nil in X. destruct X as [X _]. rewrite X in Hf3. simpl in Hf3. lia. }
        pose proof (over_started E w0 (W n) H0 (moment_reach E w0 s n) m _ _ Hy2 (or_introl (ex_intro _ t5 Hu))). congruence.
    - clear Eo. destruct (andb _ _) eqn:Ea; [|destruct Hl; discriminate]. apply andb_true_iff in Ea. destruct Ea as [_ Ea]. subst c.
      apply (named_stopped E w0 s p H0 Hb HL Hsv (List.length (a ++ (t, OInv (AAppStop p)) :: b1)) (HG _)) in Ea; auto.
      pose proof (HKJ _ _ Hbb). pose proof (last_4 f Hf). lia.
  Qed.

  (** ** Up *)
  Lemma two n : 0 < J (T n) -> exists n', 1 < J (T n').
  Proof.
    intro Hj. destruct (next 0 n Hj) as (n' & _ & Hj'); [|eauto]. split; [apply stays_0|]. pose proof (last_ge f). split; [apply upto_le; intro; lia|]. intro Hts. apply (tostop_last f _ Hfa) in Hts. lia.
  Qed.
  Theorem comes_up n t : f <> NoStart -> starters_go_on E w0 s p -> In (t, OInv (AAppStart p)) (T n) ->
    exists n1, forall n2, n1 <= n2 -> n2 = n1 \/ (forall t', ~ In (t', OInv (AAppStop p)) (T n2)) ->
      cur_at m (T n2) = Some (SApp p STARTED) /\ ended_at m (T n2) = false /\ subsystem_marks p (T n2) = all_started E p.
  Proof.
    intros Hf HS Hin. destruct (starts_up E w0 s p H0 Hb HL Hsv HS n t Hin) as [n0 Hu].
    destruct (two n0) as [n' Hj]; [destruct (accepted q (T n0)); [congruence|simpl; lia]|].
    destruct (settle 1 n' Hj) as (n1 & HK & Hre). exists n1. intros n2 Hn2 Hor.
    assert (Hres : mstate_at m (T n2) = (Some (lst E p f 2), past f 2) /\ subsystem_marks p (T n2) = subsystem_marks p (T n1)).
    { destruct Hor as [->|Hno].
      - split; [|reflexivity]. rewrite (state_rest E w0 s p H0 Hb HL Hsv); [rewrite HK; reflexivity|apply hpart|exact Hre|]. intro Hz. rewrite Hz in HK. discriminate.
      - apply (settled 1 n1 n2 HK Hre Hn2). destruct (Nat.lt_ge_cases 2 (J (T n2))) as [Hlt|Hge]; [|exact Hge].
        exfalso. destruct (third n2 Hf Hlt) as [t' Ht']. exact (Hno t' Ht'). }
    destruct Hres as [Hst Hm]. unfold mstate_at in Hst. injection Hst as H1 H2. rewrite H1, H2, Hm.
    pose proof (settled_marks 1 n1 HK Hre) as (l1 & l2 & -> & M1 & M2). cbn [Nat.leb andb] in M1, M2. rewrite M2, app_nil_r.
    clear - Hf M1. unfold round_marks in M1. revert M1 Hf. unfold lst, past, lastk. case f; simpl; intros M1 Hf; try congruence; auto.
  Qed.
  (** ** Down *)
  Definition final : Prop := exists n1 l, marks E p f (lastk f) l /\ forall n2, n1 <= n2 ->
    cur_at m (T n2) = Some (if ap_exit (apps E p) then SEnd m else SApp p STOPPED) /\ ended_at m (T n2) = ap_exit (apps E p) /\
    subsystem_marks p (T n2) = l.
  Lemma last_offers n : turn f < J (T n) -> exists n', @NS E p f = J (T n').
  Proof.
    intro Hj. destruct (stays_turn f Hfa) as [S1 S2]. pose proof (turn_last f) as HL4.
    destruct (next (turn f) n Hj) as (n1 & _ & Hj1); [split; [exact S1|]; split; [apply upto_le; intro; lia|intro Hts; apply (tostop_last f _ Hfa) in Hts; lia]|].
    pose proof (offers_le E w0 s p H0 Hb HL Hsv _ Hfa (hpart n1)) as Hle1.
    destruct (ap_exit (apps E p)) eqn:Hx.
    - destruct (next (S (turn f)) n1 Hj1) as (n2 & _ & Hj2); [split; [exact S2|]; split; [apply upto_le; intro; lia|auto]|].
      pose proof (offers_le E w0 s p H0 Hb HL Hsv _ Hfa (hpart n2)) as Hle2. exists n2. unfold NS in *. rewrite Hx in *. lia.
    - exists n1. unfold NS in *. rewrite Hx in *. lia.
  Qed.
  Lemma gets_down n : turn f < J (T n) -> final.
  Proof.
    intro Hj0. pose proof (turn_last f) as HL4. destruct (last_offers n Hj0) as [n' Hj].
    assert (Hlt : @NS E p f - 1 < J (T n')) by (rewrite <- Hj; unfold NS; destruct (ap_exit _); lia).
    destruct (settle _ n' Hlt) as (n1 & HK & Hre). exists n1, (subsystem_marks p (T n1)). split.
    { eapply marks_same; [| |apply (settled_marks _ _ HK Hre)]; [|lia]. unfold NS. destruct (ap_exit _); lia. }
    intros n2 Hn2.
    destruct (settled (@NS E p f - 1) n1 n2 HK Hre Hn2) as [Hst Hm].
    { pose proof (offers_le E w0 s p H0 Hb HL Hsv _ Hfa (hpart n2)). unfold NS in *. destruct (ap_exit _); lia. }
    unfold mstate_at in Hst. injection Hst as H1 H2. rewrite H1, H2, Hm. clear - Hfa. revert Hfa. unfold NS, lst, past, lastk. case f; destruct (ap_exit (apps E p)); auto; congruence.
  Qed.
  Theorem goes_down n t : f <> NoStart -> In (t, ORet (AAppStop p) RvUnit) (T n) -> final.
  Proof. intros Hf Hin. apply (stop_third _ _ Hf) in Hin. apply (gets_down n). rewrite (turn_2 f Hf). exact Hin. Qed.
  Theorem falls_down n t : f = NoStart -> starters_go_on E w0 s p -> In (t, OInv (AAppStart p)) (T n) -> final.
  Proof.
    intros Hf HS Hin. destruct (starts_up E w0 s p H0 Hb HL Hsv HS n t Hin) as [n0 Hu]. apply (gets_down n0).
    replace (turn f) with 0 by (rewrite Hf; reflexivity). destruct (accepted q (T n0)); [congruence|simpl; lia].
  Qed.
  (** ** The end of start() *)
  Lemma released n : turn f < J (T n) -> ap_exit (apps E p) = true -> exists n', app_released p (T n').
  Proof.
    intros Hj Hx. destruct (stays_turn f Hfa) as [S1 S2]. pose proof (turn_last f) as HL4.
    destruct (next (turn f) n Hj) as (n1 & _ & Hj1); [split; [exact S1|]; split; [apply upto_le; intro; lia|intro Hts; apply (tostop_last f _ Hfa) in Hts; lia]|].
    destruct (processed (S (turn f)) n1 Hj1) as (n' & a & pr & b & its & z & d & Hn & Ha & H5 & Ho & Hst & _ & Hs).
    destruct (take_latched E w0 p H0 Hb (W n') (moment_reach E w0 s n') (quiet E w0 s p HL Hsv n') wkr a pr b its z d (S (turn f)) H5 Hs Ho Hst (last_tostop f _ Hfa (eq_sym HL4)) Hx) as (b1 & b2 & Hbb).
    exists n', wkr. destruct Hs as (HT & _). rewrite HT, Hbb. apply in_or_app. right. right. apply in_or_app. left. apply in_or_app. right. left. reflexivity.
  Qed.
  Lemma ends_when n t a r n0 : starters_go_on E w0 s p -> ap_exit (apps E p) = true -> turn f < J (T n0) ->
    T n = a ++ (t, OInv (AAppStart p)) :: r -> exists n' b its v d, span t (T n') a (OInv (AAppStart p)) b its (ORet (AAppStart p) v) d.
  Proof.
    intros HS Hx Hj HT.
    assert (Hin : In (t, OInv (AAppStart p)) (T n)) by (rewrite HT; apply in_or_app; right; left; reflexivity).
    destruct (HS n t Hin) as (Hf & Hd & Ho).
    assert (Hg : goes_on E w0 s t).
    { split; [exact Hf|]. split; [exact Hd|]. intros n1 p1 Hi. destruct (Nat.eq_dec p1 p) as [->|N]; [exact (released n0 Hj Hx)|eauto]. }
    destruct (finished E w0 s H0 t n a _ (FApi (AAppStart p)) r Hg HT eq_refl) as (n' & b & its & z & d & _ & Hs).
    pose proof (span_node E w0 (W n') H0 (moment_reach E w0 s n') _ _ _ _ _ _ _ (FApi (AAppStart p)) Hs eq_refl) as Hn.
    assert (Hz : exists v, z = ORet (AAppStart p) v) by (destruct z; simpl in Hn; try contradiction; destruct Hn as [-> _]; eauto).
    destruct Hz as [v ->]. eauto 10.
  Qed.
  Theorem start_ends n t n0 t0 a r : f <> NoStart -> starters_go_on E w0 s p -> ap_exit (apps E p) = true -> In (t0, ORet (AAppStop p) RvUnit) (T n0) ->
    T n = a ++ (t, OInv (AAppStart p)) :: r -> exists n' b its v d, span t (T n') a (OInv (AAppStart p)) b its (ORet (AAppStart p) v) d.
  Proof.
    intros Hf HS Hx Hstop HT. apply (stop_third _ _ Hf) in Hstop. apply (ends_when n t a r n0 HS Hx); [|exact HT]. rewrite (turn_2 f Hf). exact Hstop.
  Qed.
  Theorem failed_start_ends n t a r : f = NoStart -> starters_go_on E w0 s p -> ap_exit (apps E p) = true ->
    T n = a ++ (t, OInv (AAppStart p)) :: r -> exists n' b its v d, span t (T n') a (OInv (AAppStart p)) b its (ORet (AAppStart p) v) d.
  Proof.
    intros Hf HS Hx HT. assert (Hin : In (t, OInv (AAppStart p)) (T n)) by (rewrite HT; apply in_or_app; right; left; reflexivity).
    destruct (starts_up E w0 s p H0 Hb HL Hsv HS n t Hin) as [n0 Hu]. apply (ends_when n t a r n0 HS Hx); [|exact HT].
    replace (turn f) with 0 by (rewrite Hf; reflexivity). destruct (accepted q (T n0)); [congruence|simpl; lia].
  Qed.
  (** by then everything was done to the subsystems *)
  Lemma marks_late h : part h -> lastk f <= K h -> marks E p f (lastk f) (subsystem_marks p h).
  Proof.
    pose proof (turn_last f) as HL4.
    intros Hp Hk. destruct (phase E w0 s p H0 Hb HL Hsv h Hp) as [Ht|(a & pr & b & n & b' & its & z & d & r & (Hh & Hb0 & H5 & Ho & Hst & Hra & Hs & HT & Hpt) & Hc)].
    - rewrite Ht in Hk. simpl in Hk. lia.
    - assert (HK : K h = S (K a)) by (rewrite Hh, taken_app, app_length, taken_cons, Hb0; simpl; lia).
      destruct Hc as [[b2 Hb2]|(d' & Hd' & Htd & Hre)].
      + pose proof (marks_rest E w0 s p H0 Hb HL Hsv _ a Hfa (le_n _) (part_pre _ _ _ _ _ Hpt) Hra) as Ha.
        pose proof (take_subs E w0 p H0 Hb (W n) (moment_reach E w0 s n) (quiet E w0 s p HL Hsv n) wkr a pr b' its z d (K a) H5 Hs Ho Hst) as Hsub.
        assert (Hz : filter (is_sub p) (map snd b') = []) by (apply (step_late E p f (K a)); [exact Hfa|lia|exact Hsub]).
        rewrite Hb2, map_app, filter_app in Hz. apply app_eq_nil in Hz. destruct Hz as [Hz _].
        unfold subsystem_marks in *. rewrite Hh, map_app, filter_app. cbn [map snd filter is_sub]. rewrite Hz, app_nil_r.
        eapply marks_same; [| |exact Ha]; lia.
      + assert (Hre2 : rests q wkr h).
        { replace h with ((a ++ (wkr, OTake q pr (cont (K a))) :: b' ++ [(wkr, z)]) ++ d') by (rewrite Hh, Hd'; repeat (rewrite <- !app_assoc; simpl); reflexivity).
          apply rests_on; assumption. }
        pose proof (marks_rest E w0 s p H0 Hb HL Hsv _ h Hfa (le_n _) Hp Hre2) as Ha. eapply marks_same; [| |exact Ha]; lia.
  Qed.
  Theorem start_waits n h t r : ap_exit (apps E p) = true -> T n = h ++ (t, ORet (AAppStart p) RvUnit) :: r ->
    marks E p f (lastk f) (subsystem_marks p h).
  Proof.
    intros Hx HT. destruct (ret_inv E w0 (W n) h t (AAppStart p) RvUnit r H0 (moment_reach E w0 s n) HT) as (a & b & its & Hh & Hs). change (tr (wm (W n))) with (T n) in Hs.
    pose proof (span_node E w0 (W n) H0 (moment_reach E w0 s n) _ _ _ _ _ _ _ (FApi (AAppStart p)) Hs eq_refl) as [_ (x & Hv & Hl)].
    destruct x; [discriminate|]. destruct Hl as (c & o & Hi & Hl). rewrite Hx in Hl.
    destruct Hl as [(o' & -> & Hl)|(o' & -> & Hl)]; [|destruct Hl; discriminate].
    destruct Hl as [(y & Hy & _)|(o1 & o2 & -> & _ & [(y & Hy & _)|(o3 & o4 & -> & _ & [(y & Hy & _)|(o5 & o6 & -> & Haw & _)])])]; try discriminate.
    assert (Haw' : exists b0 l, o5 = OWr (WrAwait p b0) :: l) by (destruct Haw as [_ [->| ->]]; eauto). destruct Haw' as (b0 & l & ->).
    assert (Hi2 : its = (R (RdCur m c) :: R (RdStarted m false) :: o1 ++ o3) ++ OWr (WrAwait p b0) :: l ++ o6).
    { rewrite Hi. repeat (rewrite <- ?app_assoc; simpl). reflexivity. }
    destruct (item_moment (W n) _ _ _ _ _ _ _ _ _ _ Hs Hi2 eq_refl) as (b1 & b2 & Hbb & _ & HT2).
    destruct b0.
    { exfalso. apply (lf_await _ _ _ _ _ HL n t). unfold LiveSpec.history. rewrite HT2. apply in_or_app. right. left. reflexivity. }
    destruct (truth E w0 (W n) (im_tr _ _ H0) (moment_reach E w0 s n)) as [_ Ht]. destruct (Ht _ _ _ _ HT2) as [Hw _]. simpl in Hw.
    rewrite (im_latches _ _ H0) in Hw. apply latch_of_in in Hw. destruct Hw as [t' Hw].
    assert (Hp : part h) by (exists n; eexists; exact HT).
    assert (Hw' : In (t', OWr (WrLatch p)) h).
    { rewrite Hh, Hbb. rewrite app_comm_cons, app_assoc. apply in_or_app. left. exact Hw. }
    apply marks_late; [exact Hp|]. exact (proj1 (latch_taken E w0 s p H0 Hb HL Hsv (List.length h) (HG _) h t' Hp (le_n _) Hw')).
  Qed.
End Life.
