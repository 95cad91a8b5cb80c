(** * ReachProofs.v: which states a machine can be in (proofs for C12) *)
From Verif Require Import ConfigProofs.
From Verif Require Import ReachSpec MemInv Lang Tree Nodes Marks Moments QueueProofs Place Truth ConfTruth ConfigProofs2 StartProofs.

Section Word.
  Context (E : env).
  Definition plain_call (o : obs) : Prop := match o with ORd _ | OCall _ | OBack _ _ => True | _ => False end.
  Lemma noop_plain e m t x out : noopL e m t x out -> Forall plain_call out.
  Proof.
    assert (Hn : forall fin f x out, notifyL m fin f e t x out -> Forall plain_call out).
    { intros fin f y o [[_ ->]|[(l & _ & ->)|(l0 & l & ->)]]; repeat constructor. }
    intros [(y & -> & c & o & -> & H)|(o1 & o2 & -> & (c & o & -> & H) & (c2 & o' & -> & H2))].
    - constructor; [exact I|]. eapply Hn; eauto.
    - apply Forall_app. split; (constructor; [exact I|]); eapply Hn; eauto.
  Qed.
  Lemma exec_state k e m x out i1 m' s i2 : executeL E k e m x out -> out = i1 ++ OState m' s :: i2 ->
    m' = m /\ (s = SEnd m \/ sname E s <> nm_noop /\ exists c r, i1 = R (RdCur m c) :: R (RdMap (s_states (strat E k)) c e (Some (Some s))) :: r).
  Proof.
    intros (c & o1 & -> & to & o2 & -> & Hl) He.
    destruct i1 as [|j1 i1]; [discriminate|]. injection He as <- He.
    destruct i1 as [|j2 i1]; [discriminate|]. injection He as <- He.
    assert (Hin : In (OState m' s) o2) by (rewrite He; apply in_or_app; right; left; reflexivity).
    destruct to as [[t|]|].
    - destruct (String.eqb_spec nm_noop (sname E t)) as [Hn|Hn].
      + apply noop_plain in Hl. rewrite Forall_forall in Hl. destruct (Hl _ Hin).
      + apply only_trans in Hl. rewrite Forall_forall in Hl. specialize (Hl _ Hin).
        assert (Hc : m' = m /\ (s = t \/ s = SEnd m)).
        { unfold mtrans, mcur, mnotify, macts, mupdate in Hl.
          destruct Hl as [[? H]|[(fin & f & [[l H]|[l [H|[? H]]]])|[(en & s0 & [[l H]|[a [H|[? H]]]])|[[[? H]|[[H _]|H]]|[[[? H]|[[H _]|H]]|[? H]]]]]];
            try discriminate H; injection H as -> ->; auto. }
        destruct Hc as [-> [->| ->]]; split; auto. right. split; [congruence|]. exists c, i1. reflexivity.
    - rewrite Hl in Hin. simpl in Hin. destruct Hin as [H|[H|[]]]; discriminate.
    - destruct Hl as [_ ->]. destruct Hin.
  Qed.
  Lemma take_state k tm p c x out i1 m s i2 : takeL E k tm p c x out -> out = i1 ++ OState m s :: i2 ->
    exists e, c = Some (e, m) /\ (s = SEnd m \/ sname E s <> nm_noop /\
      exists cc l r, i1 = l ++ R (RdCur m cc) :: R (RdMap (s_states (strat E k)) cc e (Some (Some s))) :: r).
  Proof.
    destruct c as [[e m0]|]; simpl.
    2:{ intros [_ ->] H. destruct i1 as [|? [|]]; discriminate. }
    intros (b & o1 & o2 & -> & Hl) He.
    destruct i1 as [|j1 i1]; [discriminate|]. injection He as <- He.
    destruct i1 as [|j2 i1]; [discriminate|]. injection He as <- He.
    assert (Hno : ~ In (OState m s) (o2 ++ [OWr (WrGive (s_pool (strat E k)) p)])).
    { assert (H2 : ~ In (OState m s) o2).
      { destruct b; [destruct Hl as (_ & -> & _); intros []|]. destruct Hl as ([y|] & _ & Hz); [destruct (is_exception y)|].
        - rewrite Hz. intros [H|[H|[]]]; discriminate.
        - destruct Hz as [-> _]. intros [].
        - destruct Hz as [-> _]. intros []. }
      rewrite in_app_iff. intros [H|[H|[]]]; [auto|discriminate]. }
    assert (Ho1 : exists r, o1 = i1 ++ OState m s :: r).
    { symmetry in He. apply app_eq_app in He. destruct He as (l & [[-> He]|[-> He]]).
      - destruct Hno. rewrite He. apply in_or_app. right. left. reflexivity.
      - destruct l as [|z l]; [simpl in He; destruct Hno; rewrite <- He; left; reflexivity|]. injection He as <- _. exists l. reflexivity. }
    destruct Ho1 as [r Ho1]. destruct b; [destruct Hl as (-> & _); destruct i1; discriminate|].
    destruct Hl as (y & Hl & _). destruct (exec_state _ _ _ _ _ _ _ _ _ Hl Ho1) as (-> & [->|(Hn & c & r' & ->)]); exists e; split; auto.
    right. split; [exact Hn|]. eexists c, [_; _], r'. reflexivity.
  Qed.
  Lemma start_state m0 x out i1 m s i2 : startL m0 x out -> out = i1 ++ OState m s :: i2 -> m = m0 /\ In (R (RdInit m (Some s))) i1.
  Proof.
    intros (i & o1 & -> & Hl) He. destruct i1 as [|j1 i1]; [discriminate|]. injection He as <- He.
    destruct i as [init|]; [|destruct Hl as [_ ->]; destruct i1; discriminate].
    destruct Hl as (b & o2 & -> & Hl). destruct i1 as [|j2 i1]; [discriminate|]. injection He as <- He.
    destruct b; [destruct Hl as [_ ->]; destruct i1; discriminate|].
    destruct Hl as (b & o3 & -> & Hl). destruct i1 as [|j3 i1]; [discriminate|]. injection He as <- He.
    destruct b; [destruct Hl as [_ ->]; destruct i1; discriminate|].
    destruct Hl as [[_ ->]|(o4 & -> & Hl)]; [destruct i1 as [|? [|]]; discriminate|].
    destruct i1 as [|j4 i1]; [discriminate|]. injection He as <- He.
    destruct i1 as [|j5 i1]; [injection He as -> -> _; split; [reflexivity|left; reflexivity]|]. exfalso.
    injection He as _ He.
    assert (Hin : In (OState m s) o4) by (rewrite He; apply in_or_app; right; left; reflexivity).
    assert (Hn : forall fin f e t y o, notifyL m0 fin f e t y o -> ~ In (OState m s) o).
    { intros fin f e t y o [[_ ->]|[(l & _ & ->)|(l0 & l & ->)]] H; repeat (destruct H as [H|H]; [discriminate|]); destruct H. }
    assert (Ha : forall en s0 e y o, actsL en s0 e m0 y o -> ~ In (OState m s) o).
    { intros en s0 e y o (l & o' & -> & H) [Hi|Hi]; [discriminate|]. revert Hi.
      induction H as [l1 l' Hl'|l' Hl'|a r l' y Hl'|a r l' x' out' Hl' Hrun IH]; simpl; intuition discriminate. }
    destruct Hl as [(y & -> & Hl)|(a1 & a2 & -> & Hl1 & Hl)]; [eapply Hn; eauto|].
    apply in_app_or in Hin. destruct Hin as [Hin|Hin]; [eapply Hn; eauto|].
    destruct Hl as [(y & -> & Hl)|(a3 & a4 & -> & Hl3 & Hl)]; [eapply Ha; eauto|].
    apply in_app_or in Hin. destruct Hin as [Hin|Hin]; [eapply Ha; eauto|].
    destruct Hl as [(y & -> & Hl)|(a5 & a6 & -> & Hl5 & Hl)]; [eapply Hn; eauto|].
    apply in_app_or in Hin. destruct Hin as [Hin|Hin]; [eapply Hn; eauto|].
    destruct Hl as [_ ->]. destruct Hin as [Hin|[]]. discriminate.
  Qed.
  Lemma fire_state m0 e0 x out m s : fireL E m0 e0 x out -> ~ In (OState m s) out.
  Proof. intros H Hi. apply only_fire in H. rewrite Forall_forall in H. apply H in Hi. dmay; discriminate. Qed.
  Lemma app_stop_state p x out m s : appStopL E p x out -> ~ In (OState m s) out.
  Proof. intros H Hi. apply only_appstop in H. rewrite Forall_forall in H. apply H in Hi. dmay; discriminate. Qed.
  Lemma app_start_state p x out i1 m s i2 : appStartL E p x out -> out = i1 ++ OState m s :: i2 ->
    m = ap_mach (apps E p) /\ In (R (RdInit m (Some s))) i1.
  Proof.
    intros (c & o1 & -> & Hl) He. destruct i1 as [|j1 i1]; [discriminate|]. injection He as <- He.
    destruct Hl as [(o2 & -> & Hl)|(o2 & -> & Hl)]; (destruct i1 as [|j2 i1]; [discriminate|]); injection He as <- He.
    2:{ exfalso. destruct (andb _ _); [eapply fire_state; [exact Hl|]; rewrite He; apply in_or_app; right; left; reflexivity|].
        destruct Hl as [_ ->]. destruct i1; discriminate. }
    cut (m = ap_mach (apps E p) /\ In (R (RdInit m (Some s))) i1); [intros [? ?]; split; [auto|do 2 right; auto]|].
    destruct Hl as [(y & -> & Hl)|(l1 & l2 & -> & Hl1 & Hl2)]; [eapply start_state; eauto|].
    assert (Hno : ~ In (OState m s) l2).
    { destruct Hl2 as [(y & -> & Hf)|(k1 & k2 & -> & Hf & Hl2)]; [eapply fire_state; eauto|].
      rewrite in_app_iff. intros [Hi|Hi]; [eapply fire_state; eauto|].
      destruct Hl2 as [(y & -> & Hy & _)|(k3 & k4 & -> & Ha & Hl2)]; [discriminate|].
      apply in_app_or in Hi. destruct Hi as [Hi|Hi].
      - destruct Ha as [_ [->| ->]]; simpl in Hi; intuition discriminate.
      - destruct Hl2 as (b & k5 & -> & Hl2). destruct Hi as [Hi|Hi]; [discriminate|].
        destruct b; [destruct Hl2 as [_ ->]; destruct Hi|eapply app_stop_state; eauto]. }
    apply app_eq_app in He. destruct He as (l & [[-> He]|[-> He]]).
    - destruct l as [|z l]; [simpl in He; destruct Hno; rewrite <- He; left; reflexivity|]. injection He as <- _.
      eapply start_state; [exact Hl1|reflexivity].
    - destruct Hno. rewrite He. apply in_or_app. right. left. reflexivity.
  Qed.

  Lemma state_node t k its ext z m s : node_ok E t (k, its ++ OState m s :: ext, z) ->
    (s = SEnd m) \/
    ((k = FApi (AStart m) \/ exists p, m = ap_mach (apps E p) /\ k = FApi (AAppStart p)) /\ In (R (RdInit m (Some s))) its) \/
    (k = FApi (AStartIn m s) /\ In (R (RdHas m s true)) its) \/
    (exists q p e tm i, k = FTake q p (Some (e, m)) /\ t = TWorker (exec_of E tm) i /\ q = queue_of E tm /\ sname E s <> nm_noop /\
      exists c l r, its = l ++ R (RdCur m c) :: R (RdMap (table_of E tm) c e (Some (Some s))) :: r).
  Proof.
    intro Hn. pose proof (node_may E _ _ _ _ Hn) as Hm. rewrite Forall_forall in Hm.
    specialize (Hm (OState m s)). rewrite in_app_iff in Hm. specialize (Hm (or_intror (or_introl eq_refl))).
    destruct k as [|a|c|q p c]; [destruct z; contradiction|..]; simpl in Hm.
    - destruct z; try contradiction. destruct Hn as [-> Hn]. destruct a; simpl in Hm; try contradiction; try (dmay; discriminate).
      + destruct Hn as (x & _ & Hl). destruct (start_state _ _ _ _ _ _ _ Hl eq_refl) as [<- Hi]. right. left. auto.
      + destruct Hn as (x & _ & Hl). right. right. left.
        destruct Hl as [[_ Hl]|[[_ Hl]|[_ Hl]]]; try (destruct its as [|? [|? [|]]]; discriminate).
        destruct its as [|o1 its]; [discriminate|]. injection Hl as -> Hl. destruct its as [|o2 its]; [discriminate|]. injection Hl as -> Hl.
        destruct its as [|o3 its]; [injection Hl as -> -> _; split; [reflexivity|left; reflexivity]|].
        injection Hl as -> Hl. destruct its as [|? [|]]; discriminate.
      + left. dmay; congruence.
      + destruct Hn as (x & _ & Hl). destruct (app_start_state _ _ _ _ _ _ _ Hl eq_refl) as [Hp Hi]. right. left. split; [right; eauto|exact Hi].
    - exfalso. assert (Ha : forall a e0 m0, mact E a e0 m0 (OState m s) -> False).
      { intros a e0 m0 Ha. destruct a; simpl in Ha; dmay; try discriminate; auto. }
      destruct c; simpl in Hm; try (eapply Ha; exact Hm);
        try (destruct h; dmay; discriminate); try (destruct u; dmay; try discriminate; contradiction).
      + destruct l as [[n|n nm]|n]; dmay; discriminate.
      + dmay; discriminate.
    - destruct z; try contradiction. destruct Hn as (-> & -> & tm & i & -> & -> & Hl).
      destruct (take_state _ _ _ _ _ _ _ _ _ _ Hl eq_refl) as (e & -> & [->|(Hne & cc & l & r & ->)]); [left; reflexivity|].
      right. right. right. exists (queue_of E tm), p, e, tm, i. repeat (split; [reflexivity|]). split; [exact Hne|]. exists cc, l, r. reflexivity.
  Qed.
End Word.

Section Reached.
  Context (E : env) (w0 : mem) (w : world) (H0 : init_mem E w0) (Hr : reach E w0 w).
  Notation T := (tr (wm w)).

  Lemma opened_top t h k its u : fst (scan t h) = (k, its) :: u -> opened t h k its.
  Proof. intro H. unfold opened. rewrite H. left. reflexivity. Qed.

  Lemma entered t h m s r : T = h ++ (t, OState m s) :: r -> may_enter E w0 t m s h.
  Proof.
    intro HT. destruct (placed_frame E w0 w H0 Hr _ _ _ _ HT eq_refl) as (k & its & u & Hs & Hf).
    assert (Hk : k <> FRoot).
    { intros ->. apply frame_may in Hf. apply Forall_app in Hf. destruct Hf as [_ Hf]. inversion Hf as [|? ? Hm _]; subst.
      simpl in Hm. destruct t; simpl in Hm; [dmay; discriminate|contradiction]. }
    pose proof (opened_top _ _ _ _ _ Hs) as Hop.
    destruct (top_bracket _ _ _ _ _ Hs Hk) as (a & op & b & -> & Ho & Hb & _).
    assert (Hn : exists ext z, node_ok E t (k, its ++ OState m s :: ext, z)).
    { unfold frame_ok in Hf. destruct k as [|x|c|q p c]; [congruence|..]; destruct Hf as (ext & z & Hn);
        rewrite <- app_assoc in Hn; eauto. }
    destruct Hn as (ext & z & Hn).
    assert (Hat : forall l rr l', its = l ++ R rr :: l' -> exists b1 b2, b = b1 ++ (t, R rr) :: b2 /\ fst (scan t b1) = [(FRoot, l)] /\ read_at E w0 (a ++ (t, op) :: b1) rr).
    { intros l rr l' ->. destruct (item_inv t b [] l (R rr) l' Hb eq_refl) as (b1 & b2 & -> & H1). exists b1, b2. split; [reflexivity|]. split; [exact H1|].
      apply (read_true E w0 w H0 Hr t _ rr (b2 ++ (t, OState m s) :: r)). rewrite HT. rewrite <- !app_assoc. simpl. rewrite <- !app_assoc. reflexivity. }
    assert (Hread : forall rr, In (R rr) its -> exists h', upto h' (a ++ (t, op) :: b) /\ read_at E w0 h' rr).
    { intros rr Hi. apply in_split in Hi. destruct Hi as (l & l' & Hi). destruct (Hat _ _ _ Hi) as (b1 & b2 & -> & _ & Hrd).
      exists (a ++ (t, op) :: b1). split; [|exact Hrd]. exists ((t, R rr) :: b2). rewrite <- app_assoc. reflexivity. }
    destruct (state_node E _ _ _ _ _ _ _ Hn) as [->|[(Hk2 & Hi)|[(-> & Hi)|(q & p & e & tm & i & -> & Ht & Hq & Hne & c & l & r' & Hi)]]].
    - apply enter_end. reflexivity.
    - destruct (Hread _ Hi) as (h' & Hu & c & Hc & Hin). eapply enter_initial; [exact Hop|exact Hk2|exact Hu|]. exists c. auto.
    - destruct (Hread _ Hi) as (h' & Hu & c & Hc & Hin). eapply enter_given; [exact Hop|exact Hu|]. exists c. auto.
    - assert (Hqm : q = queue_of E m).
      { destruct op; try discriminate. injection Ho as -> -> ->.
        destruct (taken_accepted E w0 w t q p (Some (e, m)) H0 Hr) as (t' & e0 & e' & m' & Hc & Hqq & _).
        - rewrite HT. rewrite <- app_assoc. apply in_or_app. right. left. reflexivity.
        - injection Hc as -> ->. exact Hqq. }
      change (R (RdCur m c) :: R (RdMap (table_of E tm) c e (Some (Some s))) :: r') with ([R (RdCur m c)] ++ R (RdMap (table_of E tm) c e (Some (Some s))) :: r') in Hi.
      rewrite app_assoc in Hi.
      destruct (Hat _ _ _ Hi) as (b2 & b3 & -> & Hs2 & Hrd2).
      destruct (item_inv t b2 [] l (R (RdCur m c)) [] Hs2 eq_refl) as (b0 & b1 & Eb2 & _).
      assert (Hrd1 : read_at E w0 (a ++ (t, op) :: b0) (RdCur m c)).
      { apply (read_true E w0 w H0 Hr t _ (RdCur m c) (b1 ++ (t, R (RdMap (table_of E tm) c e (Some (Some s)))) :: b3 ++ (t, OState m s) :: r)).
        rewrite HT, Eb2. repeat (rewrite <- app_assoc; simpl). reflexivity. }
      simpl in Hrd1, Hrd2. rewrite Hrd1 in Hrd2.
      eapply (enter_target E w0 t m s _ (a ++ (t, op) :: b0) (a ++ (t, op) :: b2) p e tm its).
      + rewrite <- Hqm. exact Hop.
      + split; [congruence|]. exists i. exact Ht.
      + exists ((t, R (RdCur m c)) :: b1). rewrite Eb2. rewrite <- app_assoc. reflexivity.
      + exists ((t, R (RdMap (table_of E tm) c e (Some (Some s)))) :: b3). rewrite <- app_assoc. reflexivity.
      + exact Hrd2.
      + exact Hne.
  Qed.

  (** ** Targets come from configuration calls *)
  Definition target_ok (tb : mid) (C : sid -> Prop) (c : sstate) : Prop :=
    forall n e s, table c n e = Some (Some s) -> s = SEnd tb \/ s = SNoop tb \/ C s.
  Lemma effect_target sn en tb (C : sid -> Prop) o c : target_ok tb C c -> (forall s, o = CTo s -> C s) -> target_ok tb C (effect sn en tb o c).
  Proof.
    intros Hc Ho n e s Ht. destruct o; cbn [effect close table] in Ht; try discriminate; try (eapply Hc; exact Ht).
    - destruct (clause c); [|eapply Hc; exact Ht]. unfold set_entry in Ht. destruct (andb _ _); [discriminate|eapply Hc; exact Ht].
    - destruct (clause c); [|eapply Hc; exact Ht]. unfold set_entry in Ht. destruct (andb _ _); [injection Ht as <-; auto|eapply Hc; exact Ht].
    - destruct (clause c); [|eapply Hc; exact Ht]. unfold set_entry in Ht. destruct (andb _ _); [injection Ht as <-; auto|eapply Hc; exact Ht].
    - destruct (clause c); [|eapply Hc; exact Ht]. unfold set_entry in Ht. destruct (andb _ _); [injection Ht as <-; auto|eapply Hc; exact Ht].
  Qed.
  Definition asked_for (tb : mid) (os : list cop) (s : sid) : Prop :=
    exists os1 os2 c, os = os1 ++ CTo s :: os2 /\ history (sname E) (ename0 E) tb os1 c /\ allowed (sname E) (ename0 E) (CTo s) c.
  Lemma asked_snoc tb os o s : asked_for tb os s -> asked_for tb (os ++ [o]) s.
  Proof. intros (os1 & os2 & c & -> & H). exists os1, (os2 ++ [o]), c. rewrite <- app_assoc. auto. Qed.
  Lemma history_target tb os c : history (sname E) (ename0 E) tb os c -> target_ok tb (asked_for tb os) c.
  Proof.
    induction 1 as [|os s o Hh IH Ha|os s o Hh IH Ha].
    - intros n e s Ht. discriminate.
    - apply effect_target.
      + intros n e s0 Ht. destruct (IH n e s0 Ht) as [?|[?|?]]; auto. right. right. apply asked_snoc. assumption.
      + intros s0 ->. exists os, [], s. auto.
    - intros n e s0 Ht. destruct (IH n e s0 Ht) as [?|[?|?]]; auto. right. right. apply asked_snoc. assumption.
  Qed.
  Lemma history_target_all tb os c os' : history (sname E) (ename0 E) tb os c ->
    cfg_run (sname E) (ename0 E) tb os = cfg_run (sname E) (ename0 E) tb os' -> target_ok tb (asked_for tb os') c.
  Proof.
    intros Hh He. destruct (history_total (sname E) (ename0 E) tb os') as [c' Hh'].
    destruct (history_R _ _ _ _ _ Hh) as [HR _]. destruct (history_R _ _ _ _ _ Hh') as [HR' _].
    rewrite <- He in HR'. intros n e s Ht.
    apply (history_target _ _ _ Hh' n e s).
    rewrite <- (R_table _ _ _ HR'), (R_table _ _ _ HR). exact Ht.
  Qed.
  Lemma conf_target_ok tb h c : conf_at E w0 tb h c -> target_ok tb (fun s => offered_target E w0 tb s h) c.
  Proof.
    intros (os & s0 & Hc & Hh & ->).
    assert (Ht : target_ok tb (fun s => offered_target E w0 tb s []) s0).
    { intros n e s Hs. assert (Hd : s = SEnd tb \/ s = SNoop tb \/ (s <> SEnd tb /\ s <> SNoop tb)).
      { destruct s as [k|k|k|k|k ?]; try (right; right; split; discriminate); destruct (Nat.eq_dec k tb) as [->|];
          auto; right; right; split; congruence. }
      destruct Hd as [?|[?|[H1 H2]]]; auto. right. right. left. intros os' Hc'. rewrite Hc in Hc'.
      destruct (history_target_all _ _ _ _ Hh Hc' _ _ _ Hs) as [?|[?|?]]; [contradiction|contradiction|assumption]. }
    unfold conf_of. set (n0 := ename E w0).
    induction h as [|[t o] h IH] using rev_ind.
    - exact Ht.
    - unfold confs_of in *. rewrite replay_snoc. set (v := replay _ (n0, s0) h) in *.
      assert (IH' : target_ok tb (fun s => offered_target E w0 tb s (h ++ [(t, o)])) (snd v)).
      { intros n e s Hs. destruct (IH n e s Hs) as [?|[?|[?|[t' Hin]]]]; auto; right; right; [left; assumption|].
        right. exists t'. apply in_or_app. auto. }
      destruct o; try exact IH'. destruct w1; try exact IH'. destruct x; try exact IH'.
      destruct (Nat.eqb_spec m tb) as [->|]; [|exact IH']. simpl. apply effect_target; [exact IH'|].
      intros s ->. right. exists t. apply in_or_app. right. left. reflexivity.
  Qed.
  Lemma reacts_target tb h c e s : reacts_at E w0 tb h c e (Target s) -> s = SEnd tb \/ s = SNoop tb \/ offered_target E w0 tb s h.
  Proof.
    intros (cf & Hc & Hre). unfold reacts in Hre. destruct c as [st|]; [|discriminate].
    destruct (known _ _); [|discriminate]. destruct (table cf (sname E st) (Some (name_at E w0 e h))) as [[t|]|] eqn:Et; try discriminate.
    injection Hre as <-. eapply conf_target_ok; eauto.
  Qed.

  Lemma upto_offered tb s h h' : upto h h' -> offered_target E w0 tb s h -> offered_target E w0 tb s h'.
  Proof. intros [r ->] [H|[t H]]; [left; exact H|]. right. exists t. apply in_or_app. auto. Qed.
  Lemma noop_name tb : sname E (SNoop tb) = nm_noop. Proof. reflexivity. Qed.

  Lemma entered_configured t m s h : may_enter E w0 t m s h -> configured E w0 m s h.
  Proof.
    intros [->|h' k its Ho Hk Hu Hi|h' its Ho Hu Hi|h1 h2 p e tm its Ho [Ht _] Hu1 Hu2 Hre Hne].
    - apply conf_end. reflexivity.
    - eapply conf_initial; eauto.
    - destruct (opened_inv _ _ _ _ Ho ltac:(discriminate)) as (a & op & b & u & -> & Hop & _).
      destruct op; try discriminate. injection Hop as ->. apply (conf_given _ _ _ _ _ t h'); [|exact Hu|exact Hi]. apply in_or_app. right. left. reflexivity.
    - apply (conf_target _ _ _ _ _ tm); [exact Ht|]. destruct (reacts_target _ _ _ _ _ Hre) as [?|[->|Hof]]; [auto| |right; eapply upto_offered; eauto].
      destruct Hne. reflexivity.
  Qed.
  Lemma configured_later m s h h' : upto h h' -> configured E w0 m s h -> configured E w0 m s h'.
  Proof.
    intros Hu [->|h1 Hu1 Hi|t h1 Ht Hu1 Hi|tm Hq Ht].
    - apply conf_end. reflexivity.
    - eapply conf_initial; [|exact Hi]. destruct Hu as [r ->]. destruct Hu1 as [r1 ->]. exists (r1 ++ r). rewrite app_assoc. reflexivity.
    - destruct Hu as [r ->]. destruct Hu1 as [r1 ->]. apply (conf_given _ _ _ _ _ t h1); [apply in_or_app; auto| |exact Hi]. exists (r1 ++ r). rewrite app_assoc. reflexivity.
    - apply (conf_target _ _ _ _ _ tm); [exact Hq|]. destruct Ht as [?|Ht]; [auto|right; eapply upto_offered; eauto].
  Qed.
  Lemma current_configured m h r s : T = h ++ r -> cur_at m h = Some s -> configured E w0 m s h.
  Proof.
    revert r. induction h as [|[t o] h IH] using rev_ind; intros r HT; [discriminate|].
    rewrite <- app_assoc in HT. simpl in HT. unfold cur_at, cur_of. rewrite replay_snoc.
    intro Hc. assert (Hcase : cur_at m h = Some s \/ o = OState m s).
    { destruct o; auto. destruct (Nat.eqb_spec m0 m) as [->|]; [injection Hc as ->; auto|auto]. }
    eapply configured_later; [exists [(t, o)]; reflexivity|].
    destruct Hcase as [Hc'| ->]; [eapply IH; eauto|]. eapply entered_configured, entered. exact HT.
  Qed.
  Lemma get_state t m a b its d s : span t T a (OInv (AGetCur m)) b its (ORet (AGetCur m) (RvState (Some s))) d ->
    configured E w0 m s (a ++ (t, OInv (AGetCur m)) :: b).
  Proof.
    intro Hs. pose proof (span_node E w0 w H0 Hr _ _ _ _ _ _ _ (FApi (AGetCur m)) Hs eq_refl) as [_ (c & Hv & Hl)].
    injection Hv as <-.
    destruct (read_during E w0 w H0 Hr _ _ _ _ _ _ _ (RdCur m (Some s)) Hs) as (h & (b1 & b2 & -> & ->) & Hrd); [rewrite Hl; left; reflexivity|].
    simpl in Hrd. destruct Hs as (HT & _ & _).
    assert (Hu : upto (a ++ (t, OInv (AGetCur m)) :: b1) (a ++ (t, OInv (AGetCur m)) :: b1 ++ b2)) by (exists b2; rewrite <- app_assoc; reflexivity).
    eapply configured_later; [exact Hu|]. eapply current_configured; [|symmetry; exact Hrd].
    rewrite HT. repeat (rewrite <- app_assoc; simpl). reflexivity.
  Qed.
  Lemma own_states m h r s : private_queue E m -> table_of E m = m -> T = h ++ r -> cur_at m h = Some s ->
    s = SEnd m \/ (exists h', upto h' h /\ initial_at E w0 m h' s) \/
    (exists t, In (t, OInv (AStartIn m s)) h) \/ offered_target E w0 m s h.
  Proof.
    intros Hp Ht HT Hc. destruct (current_configured _ _ _ _ HT Hc) as [->|h' Hu Hi|t h' Hin _ _|tm Hq Hx]; eauto.
    rewrite (Hp _ Hq), Ht in Hx. destruct Hx; auto.
  Qed.
End Reached.
