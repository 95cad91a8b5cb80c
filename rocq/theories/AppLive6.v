(** * AppLive6.v: start() of an app service leads to its first event (proofs) *)
From Verif Require Import Sched MemInv Logic LiveSpec Own Lang Tree Nodes Marks Place Moments Truth Copies QueueProofs CallProofs FireProofs StartProofs
  TokenProofs ExactProofs FlowProofs2 Depth Live LiveProofs LiveProofs2 AppLive1 AppLive2 AppLive3 AppLive4 AppLive5.
From Verif Require Import AppLiveSpec.
From Verif Require Import ConfigSpec.
Local Arguments wp : simpl never.

(** ** What start() of an app service does *)
Section Words.
  Context (E : env) (p : apid).
  Notation m := (ap_mach (apps E p)).
  Notation q := (queue_of E m).
  Context (Hkeep : s_drop (strat E (strat_of E m)) = false) (Hun : (s_max (strat E (strat_of E m)) <= 0)%Z).
  Definition offers (out : list obs) : Prop := exists pr e1 m1 e2 m2, In (OOffer q pr e1 m1 e2 m2) out.
  Definition not_yet (out : list obs) : Prop := exists j1 j2, out = j1 ++ R (RdStarted m false) :: j2 /\ In (OStarted m) j1.
  Definition spoiled (out : list obs) : Prop :=
    (exists l, In (R (RdListener m (Some l))) out /\ In (R (RdListener m None)) out) \/
    (exists s l l', In (R (RdActs true s l)) out /\ In (R (RdActs true s l')) out /\ List.length l <> List.length l') \/
    (exists fin l f e s y, In (OBack (KListen fin l m f e s) (Some y)) out) \/
    (exists i1 en a s e i2, out = i1 ++ OCall (KAct en a s e m) :: i2).
  Definition misread (out : list obs) : Prop :=
    In (R (RdInit m None)) out \/ In (R (RdMapEmpty m true)) out \/ In (R (RdDangling m true)) out.

  Lemma fire_gives l x out : fireL E m (ELife l) x out -> offers out \/ In (R (RdEnded m true)) out \/ exists j, out = R (RdStarted m false) :: j.
  Proof.
    intros [->|[->|(o1 & H1 & Hp)]].
    - right. right. eexists. reflexivity.
    - right. left. simpl. auto.
    - left. unfold processL in Hp. rewrite Hkeep in Hp. destruct Hp as (c & n & o2 & -> & Hp).
      assert (Hfull : full E (strat_of E m) n = false) by (unfold full; destruct (Z.ltb_spec 0 (s_max (strat E (strat_of E m)))); [lia|reflexivity]).
      rewrite Hfull in Hp. destruct Hp as (pr & o3 & _ & Hp).
      assert (Ho : offers o2).
      { destruct Hp as [->|(y & nm & y' & e' & ->)]; do 5 eexists; apply in_or_app; left; simpl; auto 10. }
      destruct Ho as (pr' & e1 & m1 & e2 & m2 & Ho). exists pr', e1, m1, e2, m2.
      destruct H1 as [->| ->]; apply in_or_app; right; right; right; exact Ho.
  Qed.
  Lemma spoiled_app a b c : spoiled b -> spoiled (a ++ b ++ c).
  Proof.
    assert (Hi : forall o, In o b -> In o (a ++ b ++ c)) by (intros o H; apply in_or_app; right; apply in_or_app; left; exact H).
    intros [(l & H1 & H2)|[(s & l & l' & H1 & H2 & H3)|[(fin & l & f & e & s & y & H1)|(i1 & en & ac & s & e & i2 & ->)]]].
    - left. eauto.
    - right. left. exists s, l, l'. auto.
    - right. right. left. do 6 eexists. eauto.
    - right. right. right. exists (a ++ i1), en, ac, s, e, (i2 ++ c). repeat (rewrite <- ?app_assoc; simpl). reflexivity.
  Qed.
  Lemma notify_none fin f e s x out : notifyL m fin f e s x out -> x = None \/ spoiled out.
  Proof.
    intros [[-> _]|[(l & _ & ->)|(l0 & l & ->)]].
    - auto.
    - right. left. exists l. simpl. auto.
    - destruct x as [y|]; [|auto]. right. right. right. left. exists fin, l, f, e, s, y. simpl. auto.
  Qed.
  Lemma acts_none s e x out : actsL true s e m x out -> x = None \/ spoiled out.
  Proof.
    intros (l & o1 & -> & H). inversion H; subst.
    - right. right. left. exists s, l, l'. simpl. auto.
    - auto.
    - right. right. right. right. exists [R (RdActs true s (a :: r)); R (RdActs true s l')], true, a, s, e, [OBack (KAct true a s e m) (Some y)]. reflexivity.
    - right. right. right. right. exists [R (RdActs true s (a :: r)); R (RdActs true s l')], true, a, s, e, (OBack (KAct true a s e m) None :: out). reflexivity.
  Qed.
  Lemma seq_none (L1 L2 : lang) : (forall x out, L1 x out -> x = None \/ spoiled out) -> (forall x out, L2 x out -> x = None \/ spoiled out) ->
    forall x out, seqx L1 L2 x out -> x = None \/ spoiled out.
  Proof.
    intros H1 H2 x out [(y & -> & H)|(o1 & o2 & -> & H & H')].
    - destruct (H1 _ _ H) as [|Hs]; [discriminate|auto].
    - destruct (H2 _ _ H') as [|Hs]; [auto|]. right. pose proof (spoiled_app o1 o2 [] Hs) as X. rewrite app_nil_r in X. exact X.
  Qed.
  Lemma start_none x out : startL m x out -> x = None \/ misread out \/ spoiled out \/ In (R (RdStarted m true)) out /\ ~ In (OStarted m) out.
  Proof.
    intros (i & o1 & -> & H). destruct i as [init|]; [|right; left; left; left; reflexivity].
    destruct H as (b & o2 & -> & H). destruct b; [right; left; right; left; simpl; auto|].
    destruct H as (d & o3 & -> & H). destruct d; [right; left; right; right; simpl; auto|].
    destruct H as [[-> ->]|(o4 & -> & H)].
    - right. right. right. split; [simpl; auto|]. intros [H|[H|[H|[H|[]]]]]; discriminate.
    - assert (Hn : x = None \/ spoiled o4).
      { revert H. apply seq_none; [apply notify_none|]. apply seq_none; [apply acts_none|]. apply seq_none; [apply notify_none|]. intros x0 out0 [-> _]. auto. }
      destruct Hn as [->|Hs]; [auto|]. right. right. left.
      pose proof (spoiled_app [R (RdInit m (Some init)); R (RdMapEmpty m false); R (RdDangling m false); OStarted m; OState m init] o4 [] Hs) as X. rewrite app_nil_r in X. exact X.
  Qed.
  Lemma fire_no_start l x out : fireL E m (ELife l) x out -> ~ In (OStarted m) out.
  Proof. intros H Hi. apply only_fire in H. rewrite Forall_forall in H. apply H in Hi. dmay; discriminate. Qed.

  Definition went (out : list obs) : Prop := offers out \/ In (R (RdEnded m true)) out \/ not_yet out.
  Lemma start_fire l x1 o1 x2 o2 a c : startL m x1 o1 -> x1 = None -> fireL E m (ELife l) x2 o2 -> went (a ++ (o1 ++ o2) ++ c).
  Proof.
    intros H1 -> H2. destruct (start_offer _ _ _ H1) as [_ Hs]. destruct (Hs eq_refl) as [Hs1 _].
    destruct (fire_gives _ _ _ H2) as [(pr & e1 & m1 & e2 & m2 & H)|[H|[j ->]]].
    - left. exists pr, e1, m1, e2, m2. rewrite !in_app_iff. auto.
    - right. left. rewrite !in_app_iff. auto.
    - right. right. exists (a ++ o1), (j ++ c). split; [repeat (rewrite <- ?app_assoc; simpl); reflexivity|]. apply in_or_app. auto.
  Qed.
  Lemma app_start_go x out : appStartL E p x out -> went out \/ misread out \/ spoiled out \/ (In (R (RdStarted m true)) out /\ ~ In (OStarted m) out).
  Proof.
    intros (c & o1 & -> & [(o2 & -> & H)|(o2 & -> & H)]).
    - assert (Hfail : forall x1 out1 r, startL m x1 out1 -> x1 = None \/ misread (R (RdCur m c) :: R (RdStarted m false) :: out1 ++ r) \/
        spoiled (R (RdCur m c) :: R (RdStarted m false) :: out1 ++ r) \/ (In (R (RdStarted m true)) out1 /\ ~ In (OStarted m) out1)).
      { intros x1 out1 r Hs. destruct (start_none _ _ Hs) as [Hx|[Hx|[Hx|Hx]]]; [auto| | |auto].
        - right. left. destruct Hx as [Hx|[Hx|Hx]]; [left|right; left|right; right]; simpl; rewrite in_app_iff; auto.
        - right. right. left. exact (spoiled_app [R (RdCur m c); R (RdStarted m false)] out1 r Hx). }
      destruct H as [(y & -> & H)|(k1 & k2 & -> & H1 & H)].
      { destruct (Hfail _ _ [] H) as [Hx|[Hx|[Hx|[H2 H3]]]]; [discriminate| | |].
        - rewrite app_nil_r in Hx. auto.
        - rewrite app_nil_r in Hx. auto.
        - right. right. right. split; [simpl; auto|]. intros [H4|[H4|H4]]; [discriminate|discriminate|auto]. }
      left. destruct H as [(y & -> & H)|(k3 & k4 & -> & H2 & H)].
      + pose proof (start_fire LStart None k1 _ k2 [R (RdCur m c); R (RdStarted m false)] [] H1 eq_refl H) as X. rewrite app_nil_r in X. exact X.
      + pose proof (start_fire LStart None k1 _ k3 [R (RdCur m c); R (RdStarted m false)] k4 H1 eq_refl H2) as X. rewrite <- app_assoc in X. exact X.
    - right. right. right. split; [simpl; auto|]. intros [H4|[H4|H4]]; [discriminate|discriminate|].
      destruct (andb _ _); [exact (fire_no_start _ _ _ H H4)|]. destruct H as [_ ->]. destruct H4.
  Qed.
  Lemma await_go x i b j : appStartL E p x (i ++ OWr (WrAwait p b) :: j) -> went i.
  Proof.
    intros (c & o1 & Hj & H). destruct i as [|o0 i]; [discriminate|]. injection Hj as -> Hj.
    assert (Hno : forall l, (exists x0, fireL E m (ELife LStart) x0 l) \/ (exists x0, startL m x0 l) -> ~ In (OWr (WrAwait p b)) l).
    { intros l [[x0 Hl]|[x0 Hl]] Hi; [apply only_fire in Hl|apply only_start in Hl]; rewrite Forall_forall in Hl; apply Hl in Hi; dmay; discriminate. }
    assert (Hin : forall k1 k2 r, k1 ++ OWr (WrAwait p b) :: k2 = r -> In (OWr (WrAwait p b)) r) by (intros k1 k2 r <-; apply in_or_app; right; left; reflexivity).
    destruct H as [(o2 & -> & H)|(o2 & -> & H)].
    - destruct i as [|o0' i]; [discriminate|]. injection Hj as -> Hj.
      destruct H as [(y & -> & H)|(k1 & k2 & -> & H1 & H)]; [exfalso; eapply Hno; [right; eexists; exact H|eapply Hin; exact Hj]|].
      destruct (split_app _ _ _ _ _ (eq_sym Hj)) as [(j1 & Hk & _)|(j1 & Hk & ->)]; [exfalso; eapply Hno; [right; eexists; exact H1|eapply Hin; symmetry; exact Hk]|].
      destruct H as [(y & -> & H)|(k3 & k4 & -> & H2 & H)]; [exfalso; eapply Hno; [left; eexists; exact H|eapply Hin; symmetry; exact Hk]|].
      destruct (split_app _ _ _ _ _ Hk) as [(j2 & Hk2 & _)|(j2 & Hk2 & ->)]; [exfalso; eapply Hno; [left; eexists; exact H2|eapply Hin; symmetry; exact Hk2]|].
      pose proof (start_fire LStart None k1 _ k3 [R (RdCur m c); R (RdStarted m false)] j2 H1 eq_refl H2) as X. rewrite <- app_assoc in X. exact X.
    - exfalso. destruct i as [|o0' i]; [discriminate|]. injection Hj as -> Hj.
      destruct (andb _ _); [eapply Hno; [left; eexists; exact H|eapply Hin; exact Hj]|]. destruct H as [_ ->]. destruct i; discriminate.
  Qed.
End Words.

(** ** A thread that waits for an app service has offered the first event *)
Lemma wait_frame E w t p (A : Set) (k : iret (ILatchAwait p) -> prog A) gs : inv2 E (wm w) gs ->
  wp (pre12 (pre E) (tpre E)) (post12 post tpost) t (Vis (ILatchAwait p) k) (fun _ g => rooted t (snd g)) (gs t) ->
  wp (dpre 0) dpost t (Vis (ILatchAwait p) k) (fun _ => root) (fst (scan t (tr (wm w)))) ->
  exists its v b ext x, fst (scan t (tr (wm w))) = (FApi (AAppStart p), its) :: v /\ appStartL E p x (its ++ OWr (WrAwait p b) :: ext).
Proof.
  intros Hi [Hp Hk] [Hd _]. destruct Hd as (its & v & Hs). exists its, v.
  destruct (post12_total E t (gs t) (ILatchAwait p)) as (b & g' & Hpost & Hl'); [apply Hi|exact Hp|].
  pose proof (complete E t (k b) _ g' Hl' (Hk b g' Hpost) (fun r g H => rooted_ok E t (snd g) H)) as Hf.
  destruct Hi as (_ & Ht & _). pose proof (ti_scan _ _ _ Ht t) as Hsc. rewrite Hs in Hsc. destruct Hpost as [_ Hpost]. simpl in Hpost.
  rewrite Hsc in Hpost. simpl in Hpost. rewrite Hpost in Hf. inversion Hf as [|? ? Hf1 _]. destruct Hf1 as (ext & o & Hn).
  destruct o; simpl in Hn; try contradiction. destruct Hn as [_ (x1 & _ & Hn)]. rewrite <- app_assoc in Hn. exists b, ext, x1. auto.
Qed.
Lemma waits_frame E w0 (s : nat -> tid) t n p : init_mem E w0 -> waits E w0 s t n p ->
  exists its v b ext x, fst (scan t (LiveSpec.history E w0 s n)) = (FApi (AAppStart p), its) :: v /\ appStartL E p x (its ++ OWr (WrAwait p b) :: ext).
Proof.
  intros H0 Hw. pose proof (moment_reach E w0 s n) as Hr.
  destruct (tree_wp E w0 _ H0 Hr) as (gs & Hi & Hc & Hwk). destruct (depth_world E w0 _ H0 Hr) as [Dc Dw].
  unfold LiveSpec.history. destruct t as [c|x i]; simpl in Hw.
  - destruct Hw as [k Hk]. specialize (Hc c). specialize (Dc c). rewrite Hk in Hc, Dc. eapply wait_frame; eauto.
  - destruct Hw as (tk & k & Hk). specialize (Hwk x i). specialize (Dw x i). rewrite Hk in Hwk, Dw. eapply wait_frame; eauto.
Qed.

Section Life.
  Context (E : env) (w0 : mem) (s : nat -> tid) (p : apid).
  Notation T := (LiveSpec.history E w0 s).
  Notation W := (moment E w0 s).
  Notation m := (ap_mach (apps E p)).
  Notation q := (queue_of E m).
  Notation wkr := (worker_of E m).
  Context (H0 : init_mem E w0) (Hb : app_built E w0 p) {f : fate} (HL : left_to_fate E w0 s p f) (Hsv : served E w0 s q).
  Notation part := (part E w0 s).
  Definition Up : Prop := exists n, accepted q (T n) <> [].

  Lemma in_accepted t pr e1 m1 e2 m2 h : In (t, OOffer q pr e1 m1 e2 m2) h -> accepted q h <> [].
  Proof.
    intro Hi. apply in_split in Hi. destruct Hi as (a & b & ->). rewrite accepted_app. unfold accepted at 2. simpl. rewrite Nat.eqb_refl.
    destruct (accepted q a); discriminate.
  Qed.
  (** the items of a bracket that went show that the first event was offered *)
  Lemma went_up n a t op k b u its : part (a ++ (t, op) :: b) -> T n = (a ++ (t, op) :: b) ++ u -> opens op = Some k ->
    fst (scan t b) = [(FRoot, its)] -> went E p its -> Up.
  Proof.
    intros Hp HT Hop Hs Hw.
    assert (Hmom : forall i1 r i2, its = i1 ++ ORd r :: i2 -> exists c d, b = c ++ (t, ORd r) :: d /\ fst (scan t c) = [(FRoot, i1)] /\ read_at E w0 (a ++ (t, op) :: c) r /\ part (a ++ (t, op) :: c)).
    { intros i1 r i2 Hi. destruct (item_inv t b [] i1 (ORd r) i2) as (c & d & Hbc & Hc); [rewrite Hs, Hi; reflexivity|reflexivity|].
      exists c, d. split; [exact Hbc|]. split; [exact Hc|].
      assert (HT2 : T n = (a ++ (t, op) :: c) ++ (t, ORd r) :: d ++ u) by (rewrite HT, Hbc; repeat (rewrite <- !app_assoc; simpl); reflexivity).
      split; [exact (read_true E w0 (W n) H0 (moment_reach E w0 s n) _ _ _ _ HT2)|]. exists n, ((t, ORd r) :: d ++ u). exact HT2. }
    destruct Hw as [(pr & e1 & m1 & e2 & m2 & Hi)|[Hi|(j1 & j2 & Hj & Hi)]].
    - exists n. rewrite HT. apply (in_accepted t pr e1 m1 e2 m2). apply in_or_app. left. apply in_or_app. right. right. eapply (its_in t b []); eauto.
    - apply in_split in Hi. destruct Hi as (j1 & j2 & Hj). destruct (Hmom _ _ _ Hj) as (c & d & _ & _ & Hrd & Hpc). simpl in Hrd.
      destruct (part_reach E w0 s H0 _ Hpc) as (w & Hr & Hw). pose proof (part_quiet E w0 s p HL Hsv _ Hpc) as HQ. rewrite <- Hw in HQ.
      destruct (taken q (a ++ (t, op) :: c)) eqn:Et.
      + exfalso. destruct (early_state E w0 p H0 Hb w Hr HQ _ [] ltac:(rewrite app_nil_r; exact Hw) Et) as (_ & He & _). congruence.
      + destruct Hpc as (n' & r' & HT'). exists n'. rewrite HT'. pose proof (fifo E w0 w q H0 Hr) as Hf. rewrite Hw in Hf. rewrite accepted_app, Hf, Et. discriminate.
    - exfalso. destruct (Hmom _ _ _ Hj) as (c & d & _ & Hc & Hrd & _). simpl in Hrd.
      assert (Hst : started_at m (a ++ (t, op) :: c) = true).
      { apply started_in with t. apply in_or_app. right. right. eapply (its_in t c []); eauto. }
      congruence.
  Qed.
  Lemma not_spoiled n t a b its z d : span t (T n) a (OInv (AAppStart p)) b its z d -> ~ misread E p its /\ ~ spoiled E p its.
  Proof.
    intro Hs. pose proof (moment_reach E w0 s n) as Hr. pose proof (quiet E w0 s p HL Hsv n) as HQ.
    assert (Hin : forall o, In o its -> In (t, o) (T n)) by (intros o Ho; exact (span_in (W n) _ _ _ _ _ _ _ _ Hs Ho)).
    split.
    - intros [H|[H|H]]; apply Hin, in_split in H; destruct H as (h & r & HT);
        pose proof (conf_read E w0 p H0 Hb (W n) Hr HQ _ _ _ _ HT eq_refl) as Hx; discriminate.
    - intros [(l & H1 & H2)|[(st & l & l' & H1 & H2 & H3)|[(fin & l & f0 & e & st & y & H1)|(i1 & en & ac & st & e & i2 & Hi)]]].
      + destruct (read_in E w0 H0 (W n) Hr _ _ (Hin _ H1)) as (h1 & r1 & HT1 & R1). destruct (read_in E w0 H0 (W n) Hr _ _ (Hin _ H2)) as (h2 & r2 & HT2 & R2).
        simpl in R1, R2. rewrite (listener_fixed E w0 p H0 (W n) Hr HQ h1 _ HT1) in R1. rewrite (listener_fixed E w0 p H0 (W n) Hr HQ h2 _ HT2) in R2. congruence.
      + destruct (read_in E w0 H0 (W n) Hr _ _ (Hin _ H1)) as (h1 & r1 & HT1 & R1). destruct (read_in E w0 H0 (W n) Hr _ _ (Hin _ H2)) as (h2 & r2 & HT2 & R2).
        simpl in R1, R2. rewrite (acts_fixed E w0 p H0 (W n) Hr HQ h1 _ _ _ HT1) in R1. rewrite (acts_fixed E w0 p H0 (W n) Hr HQ h2 _ _ _ HT2) in R2. congruence.
      + exact (lf_listen _ _ _ _ _ HL n _ _ _ _ _ _ _ (Hin _ H1)).
      + destruct (item_moment (W n) _ _ _ _ _ _ _ _ _ _ Hs Hi eq_refl) as (b1 & b2 & _ & Hb1 & HT).
        apply (start_no_act E w0 p H0 Hb (W n) Hr HQ t _ _ (AAppStart p) i1 (add_item (OInv (AAppStart p)) (fst (scan t a))) en ac st e HT); [|reflexivity].
        rewrite (stack_at t a (OInv (AAppStart p)) b1 _ [] i1 eq_refl Hb1). reflexivity.
  Qed.
  Context (HS : starters_go_on E w0 s p).
  Lemma bracket_up n t a r : T n = a ++ (t, OInv (AAppStart p)) :: r ->
    Up \/ exists n' b its z d, n <= n' /\ span t (T n') a (OInv (AAppStart p)) b its z d /\ In (R (RdStarted m true)) its /\ ~ In (OStarted m) its.
  Proof.
    intro HT. assert (Hin : In (t, OInv (AAppStart p)) (T n)) by (rewrite HT; apply in_or_app; right; left; reflexivity).
    destruct (HS n t Hin) as (Hf & Hd & Ho).
    destruct (finished_or E w0 s H0 t n a (OInv (AAppStart p)) (FApi (AAppStart p)) r Up Hf Hd) as [HU|(n' & b & its & z & d & Hn & Hs)]; auto.
    - intros n1 p1 Hi Hw. destruct (Nat.eq_dec p1 p) as [->|N]; [|right; eapply Ho; eauto]. left.
      destruct (waits_frame E w0 s t n1 p H0 Hw) as (its & v & b & ext & x & Hs & Hl).
      destruct (top_bracket _ _ _ _ _ Hs ltac:(discriminate)) as (a1 & op & b1 & Hh & Hop & Hb1 & _).
      eapply (went_up n1 a1 t op _ b1 [] its); [exists n1, []|rewrite app_nil_r; exact Hh|exact Hop|exact Hb1|].
      + rewrite app_nil_r. exact Hh.
      + eapply await_go; [apply Hb|apply Hb|exact Hl].
    - destruct (not_spoiled _ _ _ _ _ _ _ Hs) as [N1 N2].
      pose proof (span_node E w0 (W n') H0 (moment_reach E w0 s n') _ _ _ _ _ _ _ _ Hs eq_refl) as Hnode.
      assert (Hl : exists x, appStartL E p x its) by (destruct z; simpl in Hnode; try contradiction; destruct Hnode as [_ (x & _ & Hl)]; eauto). destruct Hl as [x Hl].
      destruct (app_start_go E p (ab_keep _ _ _ Hb) (ab_unbounded _ _ _ Hb) x its Hl) as [Hw|[Hw|[Hw|[Hw1 Hw2]]]]; [left|contradiction|contradiction|right].
      + destruct Hs as (HT' & _ & Hsb).
        assert (HT2 : T n' = (a ++ (t, OInv (AAppStart p)) :: b) ++ (t, z) :: d) by (rewrite HT', <- app_assoc; reflexivity).
        eapply (went_up n' a t (OInv (AAppStart p)) _ b ((t, z) :: d) its); [exists n'; eexists; exact HT2|exact HT2|reflexivity|exact Hsb|exact Hw].
      + exists n', b, its, z, d. auto.
  Qed.
  (** start() leads to the first event *)
  Lemma starts_up n t : In (t, OInv (AAppStart p)) (T n) -> Up.
  Proof.
    intro Hin. apply in_split in Hin. destruct Hin as (a & r & HT).
    destruct (bracket_up _ _ _ _ HT) as [HU|(n' & b & its & z & d & _ & Hs & Hrd & _)]; [exact HU|].
    apply in_split in Hrd. destruct Hrd as (i1 & i2 & Hi).
    destruct (read_moment E w0 (W n') H0 (moment_reach E w0 s n') _ _ _ _ _ _ _ i1 _ i2 Hs Hi) as (b1 & b2 & Hbb & _ & Hst).
    simpl in Hst. symmetry in Hst. destruct (started_witness _ _ Hst) as [t5 Hi5]. apply in_split in Hi5. destruct Hi5 as (h5 & r5 & Hh5).
    assert (X5 : exists r6, T n' = h5 ++ (t5, OStarted m) :: r6).
    { destruct Hs as (HT' & _). rewrite HT', Hbb. eexists. repeat (rewrite <- ?app_assoc; simpl).
      rewrite app_comm_cons, app_assoc, Hh5, <- app_assoc. reflexivity. }
    destruct X5 as [r6 X5].
    destruct (placed_at E w0 (W n') H0 (moment_reach E w0 s n') _ _ _ _ X5 eq_refl) as (k5 & its5 & u5 & Hs5 & Hm5). apply may_started in Hm5. destruct Hm5 as (x5 & -> & Hx5).
    assert (Ho5 : opened t5 h5 (FApi x5) its5) by (unfold opened; rewrite Hs5; left; reflexivity).
    pose proof (aq_none _ _ _ _ (quiet E w0 s p HL Hsv n') _ _ (open_call (W n') _ _ _ _ _ X5 Ho5)) as Hno.
    assert (x5 = AAppStart p) as ->.
    { destruct x5; simpl in Hx5; try contradiction; try (exfalso; apply Hno; exact Hx5). apply (ab_alone _ _ _ Hb) in Hx5. congruence. }
    destruct (top_bracket _ _ _ _ _ Hs5 ltac:(discriminate)) as (a6 & op6 & b6 & Ha6 & Hop6 & Hsb6 & _). destruct op6; try discriminate. injection Hop6 as ->.
    assert (X6 : T n' = a6 ++ (t5, OInv (AAppStart p)) :: b6 ++ (t5, OStarted m) :: r6) by (rewrite X5, Ha6, <- app_assoc; reflexivity).
    destruct (bracket_up _ _ _ _ X6) as [HU|(n2 & b7 & its7 & z7 & d7 & Hn2 & Hs7 & _ & Hno7)]; [exact HU|exfalso].
    destruct (history_le E w0 s n' n2 Hn2) as [x X]. rewrite X6 in X.
    assert (X7 : T n2 = (a6 ++ (t5, OInv (AAppStart p)) :: b6) ++ (t5, OStarted m) :: r6 ++ x) by (rewrite X; repeat (rewrite <- ?app_assoc; simpl); reflexivity).
    destruct (span_cmp E w0 s _ _ _ _ _ _ _ _ _ _ Hs7 X7) as [[b8 Hb8]|[d8 Hd8]].
    - destruct Hs7 as (HT7 & Hz7 & Hsb7). destruct b8 as [|y b8].
      + rewrite app_nil_r in Hb8. subst b7. rewrite HT7 in X7. repeat (rewrite <- app_assoc in X7; simpl in X7). apply app_inv_head in X7. injection X7 as X7. apply app_inv_head in X7. injection X7 as -> _. discriminate.
      + rewrite HT7, Hb8 in X7. repeat (rewrite <- app_assoc in X7; simpl in X7). apply app_inv_head in X7. injection X7 as X7. apply app_inv_head in X7. injection X7 as -> _.
        rewrite Hb8 in Hsb7. destruct (two_items t5 b6 (OStarted m) b8 its5 Hsb6 [] its7 Hsb7 eq_refl) as [j Hj]. apply Hno7. rewrite Hj. apply in_or_app. right. left. reflexivity.
    - destruct Hs7 as (_ & Hz7 & Hsb7). rewrite Hd8 in Hsb6.
      assert (Hbad : fst (scan t5 (b7 ++ [(t5, z7)])) = []) by (rewrite Place.scan_snoc, Hsb7; unfold scan1; rewrite Hz7; reflexivity).
      destruct (root_kept_t t5 (b7 ++ [(t5, z7)]) d8 [] its5) as (u1 & i3 & i4 & Hu & _); [rewrite <- app_assoc; exact Hsb6|]. rewrite Hbad in Hu. destruct u1; discriminate.
  Qed.
End Life.
