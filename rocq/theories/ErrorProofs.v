(** * ErrorProofs.v: error() of an app service (proofs for C67) *)
From Verif Require Import Sched MemInv Logic LiveSpec Lang Tree Nodes Marks Place Moments Truth Copies ConfTruth QueueProofs CallProofs FireProofs StartProofs
  TokenProofs ExactProofs FlowProofs2 ReachProofs Live LiveProofs LiveProofs2 AppLive1 AppLive2 AppLive3 AppLive4.
From Verif Require Import ErrorSpec.
From Verif Require Import ConfigSpec.

(** ** Offers in a bracket: the event fired, unless it had a payload *)
Lemma emit_pre l x out o i1 i2 : emit l x out -> no_offer l -> is_offer o = true -> out = i1 ++ o :: i2 -> False.
Proof.
  intros [_ ->] N Ho ->. rewrite Forall_forall in N. rewrite (N o) in Ho; [discriminate|]. apply in_or_app. right. left. reflexivity.
Qed.
Section Word.
  Context (E : env).
  Definition pays_in (e1 e2 : eid) (l : list obs) : Prop := e2 = e1 \/ exists y, In (R (RdPay e1 (Some y))) l.
  Lemma pays_app e1 e2 l l' : pays_in e1 e2 l -> pays_in e1 e2 (l' ++ l).
  Proof. intros [H|[y H]]; [left; exact H|right; exists y; apply in_or_app; auto]. Qed.
  (** languages whose offers are of that kind *)
  Definition good (L : lang) : Prop := forall x out i1 q pr e1 m1 e2 m2 i2, L x out -> out = i1 ++ OOffer q pr e1 m1 e2 m2 :: i2 -> pays_in e1 e2 i1.
  Lemma good_fire m0 e0 : s_drop (strat E (strat_of E m0)) = false -> good (fireL E m0 e0).
  Proof.
    intros Hd x out i1 q pr e1 m1 e2 m2 i2 H ->. destruct (fire_offer _ _ _ _ _ H Hd) as [N|(j1 & pr' & e' & j2 & Hj & N1 & N2 & He)].
    - exfalso. rewrite Forall_forall in N. specialize (N (OOffer q pr e1 m1 e2 m2) ltac:(apply in_or_app; right; left; reflexivity)). discriminate.
    - destruct (only_one _ _ _ _ _ _ (eq_sym Hj) eq_refl eq_refl N1 N2) as (-> & [= -> -> -> -> -> ->] & _). exact He.
  Qed.
  Lemma good_none (L : lang) : (forall x out, L x out -> no_offer out) -> good L.
  Proof.
    intros HN x out i1 q pr e1 m1 e2 m2 i2 H ->. exfalso. apply HN in H. rewrite Forall_forall in H.
    specialize (H (OOffer q pr e1 m1 e2 m2) ltac:(apply in_or_app; right; left; reflexivity)). discriminate.
  Qed.
  Lemma good_seq A B : good A -> good B -> good (seqx A B).
  Proof.
    intros HA HB x out i1 q pr e1 m1 e2 m2 i2 [(y & -> & H)|(o1 & o2 & -> & H1 & H2)] He; [eapply HA; eauto|].
    destruct (split_app _ _ _ _ _ He) as [(j & Hk & _)|(j & Hk & ->)]; [eapply HA; eauto|].
    apply pays_app. eapply HB; eauto.
  Qed.
  Lemma good_emit l : no_offer l -> good (emit l).
  Proof. intro N. apply good_none. intros x out [_ ->]. exact N. Qed.
End Word.

Lemma subs_no_offer up p x out : subsL up p x out -> no_offer out.
Proof.
  intros (l & marks & -> & H). constructor; [reflexivity|]. clear - H. destruct up; simpl in H; revert x marks H.
  all: match goal with |- context [callsL ?cs] => generalize cs end; intro cs; induction cs as [|c cs IH]; simpl; intros x marks H.
  all: try (destruct H as [_ ->]; constructor).
  all: destruct H as [(y & _ & ->)|(o1 & o2 & -> & -> & H)]; [repeat constructor|apply Forall_app; split; [repeat constructor|eapply IH; eauto]].
Qed.
Section Acts.
  Context (E : env).
  Lemma good_act a e m : (forall p, a = AAppStarting p \/ a = AAppStopping p \/ a = AAppStopped p -> s_drop (strat E (strat_of E (ap_mach (apps E p)))) = false) ->
    match a with AUser _ | AHandle _ _ => True | _ => good (actL E a e m) end.
  Proof.
    intro H. destruct a; try exact I; simpl.
    - apply good_seq; [apply good_emit; repeat constructor|]. apply good_seq; [apply good_none; intros ? ? Hs; eapply subs_no_offer; exact Hs|].
      apply good_fire. apply H. auto.
    - apply good_emit. constructor.
    - apply good_seq; [apply good_emit; repeat constructor|]. apply good_seq; [apply good_none; intros ? ? Hs; eapply subs_no_offer; exact Hs|].
      apply good_fire. apply H. auto.
    - apply good_seq; [apply good_emit; repeat constructor|]. destruct (ap_exit (apps E p)); [|apply good_emit; constructor].
      apply good_seq; [apply good_fire; apply H; auto|apply good_emit; repeat constructor].
  Qed.
  Lemma good_cons L o : is_offer o = false -> good L -> good (fun x out => exists out', out = o :: out' /\ L x out').
  Proof.
    intros Ho HL x out i1 q pr e1 m1 e2 m2 i2 (o' & -> & H) He. destruct i1 as [|o1 i1]; [injection He as -> _; discriminate|]. injection He as <- He.
    apply (pays_app _ _ _ [o]). eapply HL; eauto.
  Qed.
  Lemma good_cur m0 f : (forall c, good (f c)) -> good (curL m0 f).
  Proof.
    intros Hf x out i1 q pr e1 m1 e2 m2 i2 (c & o' & Ho & H) He. eapply (good_cons (f c) (R (RdCur m0 c)) eq_refl (Hf c)); eauto.
  Qed.
  Lemma good_fail y : good (failL y).
  Proof. apply good_none. intros x out [_ ->]. constructor. Qed.
  Lemma good_stop p : s_drop (strat E (strat_of E (ap_mach (apps E p)))) = false -> good (appStopL E p).
  Proof.
    intro Hd. apply good_cur. intro c. destruct (orb _ _); [apply good_fire; exact Hd|]. destruct (andb _ _); [apply good_emit; constructor|apply good_fail].
  Qed.
  Lemma good_start p : s_drop (strat E (strat_of E (ap_mach (apps E p)))) = false -> good (appStartL E p).
  Proof.
    intro Hd. apply good_cur. intro c. intros x out i1 q pr e1 m1 e2 m2 i2 [H|H] He; revert H He.
    - apply (good_cons _ (R (RdStarted (ap_mach (apps E p)) false)) eq_refl). apply good_seq; [apply good_none; intros ? ? Hs; exact (proj1 (start_offer _ _ _ Hs))|].
      apply good_seq; [apply good_fire; exact Hd|]. apply good_seq; [apply good_none; intros ? ? [_ [->| ->]]; repeat constructor|].
      intros x' out' i1' q' pr' e1' m1' e2' m2' i2' (b & o' & Ho & H) He.
      eapply (good_cons (if b then emit [] else appStopL E p) (R (RdEnded (ap_mach (apps E p)) b)) eq_refl); eauto.
      + destruct b; [apply good_emit; constructor|apply good_stop; exact Hd].
      + exists o'. split; [exact Ho|]. destruct b; exact H.
    - apply (good_cons _ (R (RdStarted (ap_mach (apps E p)) true)) eq_refl). destruct (andb _ _); [apply good_fire; exact Hd|apply good_fail].
  Qed.
  Lemma good_error p : s_drop (strat E (strat_of E (ap_mach (apps E p)))) = false -> good (appErrorL E p).
  Proof. intro Hd. apply good_seq; [apply good_emit; repeat constructor|apply good_fire; exact Hd]. Qed.
  Lemma good_handler p e m0 y : s_drop (strat E (strat_of E (ap_mach (apps E p)))) = false -> good (callCode E (KHandler (HApp p) e m0 y)).
  Proof. intro Hd. apply good_cur. intro c. apply good_seq; [apply good_emit; repeat constructor|apply good_fire; exact Hd]. Qed.
End Acts.

(** ** Who changes the state of a machine, or ends it *)
Definition sets (m : mid) (o : obs) : Prop := o = OEnded m \/ exists s, o = OState m s.
Section Sets.
  Context (E : env).
  Lemma exec_sets k e m x out i1 m' o i2 : executeL E k e m x out -> out = i1 ++ o :: i2 -> sets m' o ->
    m' = m /\ exists c s r, i1 = R (RdCur m c) :: R (RdMap (s_states (strat E k)) c e (Some (Some s))) :: r /\ forall s', o = OState m s' -> s' = s \/ s' = SEnd m.
  Proof.
    intros (c & o1 & -> & to & o2 & -> & Hl) He Ho.
    destruct i1 as [|j1 i1]; [injection He as <- _; destruct Ho as [Ho|[? Ho]]; discriminate|]. injection He as <- He.
    destruct i1 as [|j2 i1]; [injection He as <- _; destruct Ho as [Ho|[? Ho]]; discriminate|]. injection He as <- He.
    assert (Hin : In o o2) by (rewrite He; apply in_or_app; right; left; reflexivity).
    destruct to as [[t|]|].
    - enough (Hx : m' = m /\ forall s', o = OState m s' -> s' = t \/ s' = SEnd m) by (destruct Hx as [Hx1 Hx2]; split; [exact Hx1|do 3 eexists; split; [reflexivity|exact Hx2]]).
      destruct (String.eqb_spec nm_noop (sname E t)) as [Hn|Hn].
      + apply noop_plain in Hl. rewrite Forall_forall in Hl. apply Hl in Hin. destruct Ho as [->|[? ->]]; destruct Hin.
      + apply only_trans in Hl. rewrite Forall_forall in Hl. specialize (Hl _ Hin).
        unfold mtrans, mcur, mnotify, macts, mupdate in Hl.
        destruct Hl as [[? H]|[(fin & f & [[l H]|[l [H|[? H]]]])|[(en & s0 & [[l H]|[a [H|[? H]]]])|[[[? H]|[[H _]|H]]|[[[? H]|[[H _]|H]]|[? H]]]]]];
          destruct Ho as [->|[? ->]]; try discriminate H; injection H; intros; subst; (split; [reflexivity|intros s' Hs'; try discriminate Hs'; injection Hs' as <-; auto]).
    - exfalso. rewrite Hl in Hin. simpl in Hin. destruct Hin as [H|[H|[]]]; subst o; destruct Ho as [Ho|[? Ho]]; discriminate.
    - exfalso. destruct Hl as [_ ->]. destruct Hin.
  Qed.
  Lemma take_sets k tm p c x out i1 m o i2 : takeL E k tm p c x out -> out = i1 ++ o :: i2 -> sets m o ->
    exists e, c = Some (e, m) /\ exists cc s l r, i1 = l ++ R (RdCur m cc) :: R (RdMap (s_states (strat E k)) cc e (Some (Some s))) :: r /\ forall s', o = OState m s' -> s' = s \/ s' = SEnd m.
  Proof.
    intros H He Hs. assert (Hx : forall o', In o' [o] -> forall m0 l v, o' <> R (RdEnded m0 v) /\ o' <> R (RdPair p l)).
    { intros o' [<-|[]] m0 l v. split; intros ->; destruct Hs as [Hs|[? Hs]]; discriminate. }
    destruct c as [[e m0]|]; simpl in H.
    2:{ destruct H as [_ ->]. destruct i1 as [|? [|]]; try discriminate. injection He as <- _. destruct (Hx _ (or_introl eq_refl) 0 None true) as [_ Hy]. congruence. }
    destruct H as (b & o1 & o2 & -> & Hl).
    destruct i1 as [|j1 i1]; [injection He as <- _; destruct Hs as [Hs|[? Hs]]; discriminate|]. injection He as <- He.
    destruct i1 as [|j2 i1]; [injection He as <- _; destruct Hs as [Hs|[? Hs]]; discriminate|]. injection He as <- He.
    assert (Hno : ~ In o (o2 ++ [OWr (WrGive (s_pool (strat E k)) p)])).
    { assert (H2 : ~ In o o2).
      { destruct b; [destruct Hl as (_ & -> & _); intros []|]. destruct Hl as ([y|] & _ & Hz); [destruct (is_exception y)|].
        - rewrite Hz. intros [H|[H|[]]]; subst o; destruct Hs as [Hs|[? Hs]]; discriminate.
        - destruct Hz as [-> _]. intros [].
        - destruct Hz as [-> _]. intros []. }
      rewrite in_app_iff. intros [H|[H|[]]]; [auto|]. subst o. destruct Hs as [Hs|[? Hs]]; discriminate. }
    assert (Ho1 : exists r, o1 = i1 ++ o :: r).
    { symmetry in He. apply app_eq_app in He. destruct He as (l & [[-> He]|[-> He]]).
      - destruct Hno. rewrite He. apply in_or_app. right. left. reflexivity.
      - destruct l as [|z l]; [simpl in He; destruct Hno; rewrite <- He; left; reflexivity|]. injection He as <- _. exists l. reflexivity. }
    destruct Ho1 as [r Ho1]. destruct b; [destruct Hl as (-> & _); destruct i1; discriminate|].
    destruct Hl as (y & Hl & _). destruct (exec_sets _ _ _ _ _ _ _ _ _ Hl Ho1 Hs) as (-> & c & s & r' & -> & Hst). exists e. split; [reflexivity|].
    eexists c, s, [_; _], r'. split; [reflexivity|exact Hst].
  Qed.
End Sets.

Section Open.
  Context (E : env) (w0 : mem) (p : apid) (H0 : init_mem E w0) (Hb : app_built E w0 p).
  Context (w : world) (Hr : reach E w0 w).
  Notation T := (tr (wm w)).
  Notation m := (ap_mach (apps E p)).
  Notation q := (queue_of E m).
  Notation wkr := (worker_of E m).
  Context (HQ : only_through_app E p T).

  Ltac called_by Hi := destruct (api_only E w0 H0 w Hr _ _ Hi eq_refl) as (x & Hx & Hm); apply (oa_none _ _ _ HQ) in Hx;
    destruct x; simpl in Hm; try contradiction; try (dmay; discriminate).
  Lemma o_no_cfg t o y : ~ In (t, OWr (WrCfg m o y)) T.
  Proof. intro Hi. called_by Hi. apply Hx. simpl. destruct Hm as [y' Hm]. congruence. Qed.
  Lemma o_no_append t en st l : ~ In (t, OWr (WrActs en st l)) T.
  Proof. intro Hi. called_by Hi; apply Hx; exact I. Qed.
  Lemma o_no_pay t l y : ~ In (t, OWr (WrPay (ELife l) y)) T.
  Proof. intro Hi. called_by Hi. apply Hx. injection Hm as <- <-. exact I. Qed.

  (** ** What does not change *)
  Lemma o_conf h r : T = h ++ r -> conf_at E w0 (table_of E m) h (life_conf E p m).
  Proof.
    intro HT. rewrite (ab_table _ _ _ Hb). apply (conf_same E w0 m [] h).
    - intros t o Hi. eapply o_no_cfg. eapply in_pre; eauto.
    - exists (lifecycle_calls p), (life_conf E p m). split; [exact (ab_cfg _ _ _ Hb)|]. split; [apply life_hist|reflexivity].
  Qed.
  Lemma o_acts h r en st : T = h ++ r -> acts_at w0 en st h = acts w0 en st.
  Proof.
    revert r. induction h as [|[t o] h IH] using rev_ind; intros r HT; [reflexivity|].
    rewrite <- app_assoc in HT. specialize (IH _ HT). unfold acts_at, acts_of in *. rewrite replay_snoc, IH.
    destruct o; try reflexivity. destruct w1; try reflexivity. exfalso. eapply o_no_append.
    rewrite HT. apply in_or_app. right. left. reflexivity.
  Qed.
  Lemma o_pay h r l : T = h ++ r -> pay_at w0 (ELife l) h = None.
  Proof.
    revert r. induction h as [|[t o] h IH] using rev_ind; intros r HT; [exact (ab_void _ _ _ Hb l)|].
    rewrite <- app_assoc in HT. specialize (IH _ HT). unfold pay_at, pay_of in *. rewrite replay_snoc, IH.
    destruct o; try reflexivity. destruct w1; try reflexivity.
    - destruct (eid_eqb (ELife l) e) eqn:Ee; [|reflexivity]. exfalso.
      assert (e = ELife l) as -> by (destruct e; try discriminate; simpl in Ee; destruct l, l0; try discriminate; reflexivity).
      eapply o_no_pay. rewrite HT. apply in_or_app. right. left. reflexivity.
    - destruct (eid_eqb (ELife l) e) eqn:Ee; [|reflexivity]. exfalso.
      destruct (copies_bound E w0 H0 w Hr t e nm p0) as (k & -> & _); [rewrite HT; apply in_or_app; right; left; reflexivity|]. discriminate.
  Qed.
  Lemma o_name h r l : T = h ++ r -> name_at E w0 (ELife l) h = lifeev_name l.
  Proof. intro HT. change h with ([] ++ h). rewrite (name_fixed E w0 w H0 Hr (ELife l) [] h r HT I). reflexivity. Qed.
  Lemma o_calm h r r' : T = h ++ r ++ r' -> start_over m h -> calm E m h r.
  Proof.
    intros HT Ho t x Hd. assert (Hn : ~ In (t, OInv x) T).
    { intro Hi. apply (oa_none _ _ _ HQ) in Hi. apply Hi. destruct x; simpl in Hd |- *; try (destruct Hd; tauto); auto.
      rewrite (ab_table _ _ _ Hb) in Hd. exact Hd. }
    split.
    - intro Hi. apply Hn. rewrite HT. apply in_or_app. right. apply in_or_app. left. exact Hi.
    - intros its Hop. apply Hn. eapply open_call; eauto.
  Qed.
  Lemma o_init t s : In (t, R (RdInit m s)) T -> s = Some (SApp p UNINIT).
  Proof.
    intro Hi. apply in_split in Hi. destruct Hi as (h & rest & HT).
    pose proof (o_conf h _ HT) as Hcf. rewrite (ab_table _ _ _ Hb) in Hcf.
    destruct Hcf as (os & s0 & Hos & Hh & Heq).
    assert (Hs0 : conf0 E w0 m s0) by (exists os; auto).
    destruct (conf_truth E w0 H0 m s0 Hs0 w Hr) as (_ & _ & Hk). pose proof (Hk _ _ _ _ HT) as Hk2.
    simpl in Hk2. specialize (Hk2 eq_refl). rewrite <- Heq in Hk2. rewrite Hk2. apply life_initial.
  Qed.

  (** ** What is offered *)
  Lemma o_offer h t pr e1 m1 e2 m2 r : T = h ++ (t, OOffer q pr e1 m1 e2 m2) :: r ->
    exists k its v, fst (scan t h) = (k, its) :: v /\ m1 = m /\ m2 = m /\ e2 = e1 /\
      exists l, e1 = ELife l /\ (k = FApi (AAppStart p) \/ l <> LStart).
  Proof.
    intro HT. assert (Hin : In (t, OOffer q pr e1 m1 e2 m2) T) by (rewrite HT; apply in_or_app; right; left; reflexivity).
    destruct (accepted_fired E w0 w _ _ _ _ _ _ _ H0 Hr Hin) as (-> & Hq & _). symmetry in Hq. apply (ab_queue _ _ _ Hb) in Hq. subst m1.
    destruct (placed_frame E w0 w H0 Hr _ _ _ _ HT eq_refl) as (k & its & v & Hs & Hf).
    pose proof Hf as Hm. apply frame_may in Hm. apply Forall_app in Hm. destruct Hm as [_ Hm]. inversion Hm as [|? ? Hm1 _]; subst. clear Hm.
    apply may_offer in Hm1. exists k, its, v. split; [exact Hs|]. split; [reflexivity|]. split; [reflexivity|].
    assert (Hno : forall x, k = FApi x -> ~ touches E p x).
    { intros x ->. apply (oa_none _ _ _ HQ t). apply (open_call w _ _ _ _ its HT). unfold opened. rewrite Hs. left. reflexivity. }
    assert (Hpay : forall l, ~ (exists y, In (R (RdPay (ELife l) (Some y))) its)).
    { intros l [y Hi]. destruct (read_in E w0 H0 w Hr _ _ (frame_in w _ _ _ _ _ _ _ HT Hs Hi)) as (h2 & rest & HT2 & Hx). simpl in Hx.
      rewrite (o_pay h2 _ l HT2) in Hx. discriminate. }
    assert (Hal : forall p0, m = ap_mach (apps E p0) -> p0 = p).
    { intros p0 Hp. symmetry in Hp. apply (ab_alone _ _ _ Hb) in Hp. exact Hp. }
    pose proof (ab_keep _ _ _ Hb) as Hd.
    assert (Hgood : forall L x ext, good L -> L x ((its ++ [OOffer q pr e1 m e2 m]) ++ ext) -> forall l, e1 = ELife l -> e2 = e1).
    { intros L x ext HL Hl l ->. rewrite <- app_assoc in Hl. destruct (HL _ _ _ _ _ _ _ _ _ _ Hl eq_refl) as [He|He]; [exact He|destruct (Hpay _ He)]. }
    assert (Hact : forall ac e0 m0 x ext, actL E ac e0 m0 x ((its ++ [OOffer q pr e1 m e2 m]) ++ ext) ->
      (exists p0, m = ap_mach (apps E p0) /\ (ac = AAppStarting p0 \/ ac = AAppStopping p0 \/ ac = AAppStopped p0)) -> forall l, e1 = ELife l -> e2 = e1).
    { intros ac e0 m0 x ext Hl (p0 & Hm0 & Hac). apply Hal in Hm0. subst p0.
      assert (Hg : good (actL E ac e0 m0)).
      { pose proof (good_act E ac e0 m0) as Hg. destruct Hac as [->|[->| ->]]; (apply Hg; intros p0 Hp; destruct Hp as [Hp|[Hp|Hp]]; try discriminate Hp; injection Hp as <-; exact Hd). }
      eapply Hgood; eauto. }
    destruct k as [|x|c|q' pr' c']; simpl in Hm1; try contradiction.
    - destruct Hf as (ext & z & Hn). destruct z; simpl in Hn; try contradiction. destruct Hn as [_ Hn].
      destruct x; try contradiction; destruct Hm1 as [Hm1 He1].
      + exfalso. apply (Hno _ eq_refl). simpl. congruence.
      + apply Hal in Hm1. subst p0. destruct Hn as (y & _ & Hn).
        split; [destruct He1 as [He1|He1]; eapply (Hgood _ _ _ (good_start E p Hd) Hn); eauto|destruct He1 as [He1|He1]; eauto].
      + apply Hal in Hm1. subst p0. destruct Hn as (y & _ & Hn). split; [eapply (Hgood _ _ _ (good_stop E p Hd) Hn); eauto|exists LStop; split; [exact He1|right; discriminate]].
      + apply Hal in Hm1. subst p0. destruct Hn as (y & _ & Hn). split; [eapply (Hgood _ _ _ (good_error E p Hd) Hn); eauto|exists LError; split; [exact He1|right; discriminate]].
    - destruct Hf as (ext & z & Hn). destruct z; simpl in Hn; try contradiction. destruct Hn as [_ Hn].
      destruct c as [en ac st e0 m0|ac e0 m0|hh e0 m0 y0|fin ll m0 ff e0 st|uu e0 m0|uu e0 m0 y0|uu e0 m0|uu e0 m0|up0 p0 j0]; try contradiction.
      + assert (Hx : exists l, e1 = ELife l /\ (FApi (AAppError 0) = FApi (AAppStart p) \/ l <> LStart)) by (destruct ac; try contradiction; destruct Hm1 as [_ ->]; eexists; (split; [reflexivity|right; discriminate])).
        split; [|destruct Hx as (l & Hl & [Hx|Hx]); [discriminate|eauto]]. destruct Hx as (l & Hl & _). eapply Hact; [exact Hn| |exact Hl]. destruct ac; try contradiction; destruct Hm1 as [Hm1 _]; eauto.
      + assert (Hx : exists l, e1 = ELife l /\ (FApi (AAppError 0) = FApi (AAppStart p) \/ l <> LStart)) by (destruct ac; try contradiction; destruct Hm1 as [_ ->]; eexists; (split; [reflexivity|right; discriminate])).
        split; [|destruct Hx as (l & Hl & [Hx|Hx]); [discriminate|eauto]]. destruct Hx as (l & Hl & _). eapply Hact; [exact Hn| |exact Hl]. destruct ac; try contradiction; destruct Hm1 as [Hm1 _]; eauto.
      + destruct hh; try contradiction. destruct Hm1 as [Hm1 He1]. apply Hal in Hm1. subst p0.
        split; [eapply (Hgood _ _ _ (good_handler E p e0 m0 y0 Hd) Hn); eauto|exists LError; split; [exact He1|right; discriminate]].
  Qed.
  (** what is not set up by start() is set while an event is processed *)
  Lemma o_sets_all h t o r : T = h ++ (t, o) :: r -> sets m o ->
    (o = OState m (SApp p UNINIT) /\ exists its u, fst (scan t h) = (FApi (AAppStart p), its) :: u) \/
    exists a1 pr e b its cc s0 l r', h = a1 ++ (t, OTake q pr (Some (e, m))) :: b /\ fst (scan t b) = [(FRoot, its)] /\
      its = l ++ R (RdCur m cc) :: R (RdMap m cc e (Some (Some s0))) :: r' /\ forall s', o = OState m s' -> s' = s0 \/ s' = SEnd m.
  Proof.
    intros HT Hs. assert (Hc : closes o = false) by (destruct Hs as [->|[? ->]]; reflexivity).
    destruct (placed_frame E w0 w H0 Hr _ _ _ _ HT Hc) as (k & its & v & Hst & Hf).
    pose proof Hf as Hm. apply frame_may in Hm. apply Forall_app in Hm. destruct Hm as [_ Hm]. inversion Hm as [|? ? Hm1 _]; subst. clear Hm.
    assert (Hop : opened t h k its) by (unfold opened; rewrite Hst; left; reflexivity).
    destruct k as [|x|c|q' pr' c'].
    - exfalso. simpl in Hm1. destruct t; simpl in Hm1; destruct Hs as [->|[? ->]]; [dmay; discriminate..|contradiction|contradiction].
    - left. pose proof (oa_none _ _ _ HQ _ _ (open_call w _ _ _ _ _ HT Hop)) as Hno.
      destruct x; simpl in Hno, Hm1; try contradiction; try (exfalso; destruct Hs as [->|[? ->]]; dmay; discriminate);
        try (exfalso; destruct Hs as [->|[? ->]]; dmay; congruence).
      assert (Hm0 : ap_mach (apps E p0) = m) by (unfold mappstart, mappstop in Hm1; destruct Hs as [->|[? ->]]; dmay; congruence).
      apply (ab_alone _ _ _ Hb) in Hm0. subst p0. destruct Hf as (ext & z & Hn). destruct z; simpl in Hn; try contradiction.
      destruct Hn as [_ (y & _ & Hn)]. rewrite <- app_assoc in Hn. simpl in Hn. destruct Hs as [->|[s ->]].
      + exfalso. unfold mappstart, mappstop in Hm1. dmay; discriminate.
      + pose proof (AppLive4.app_start_state _ _ _ _ _ _ _ Hn eq_refl) as Hi.
        pose proof (o_init t _ (frame_in w _ _ _ _ _ _ _ HT Hst Hi)) as [= ->]. split; [reflexivity|eauto].
    - exfalso. simpl in Hm1. assert (Ha : forall a e0 m0, mact E a e0 m0 o -> False).
      { intros a e0 m0 Ha. destruct Hs as [->|[? ->]]; destruct a; simpl in Ha; dmay; try discriminate; auto. }
      destruct c; simpl in Hm1; try (eapply Ha; exact Hm1); destruct Hs as [->|[? ->]];
        try (destruct h0; dmay; discriminate); try (destruct u; dmay; try discriminate; contradiction);
        try (destruct l as [[n|n nm]|n]; dmay; discriminate); dmay; discriminate.
    - right. destruct (top_bracket _ _ _ _ _ Hst ltac:(discriminate)) as (a1 & op & b & -> & Hop' & Hsb & _).
      destruct op; try discriminate. injection Hop' as -> -> ->.
      destruct Hf as (ext & z & Hn). destruct z; simpl in Hn; try contradiction.
      destruct Hn as (_ & _ & tm & i & Ht & Hq & Hl). rewrite <- app_assoc in Hl.
      destruct (take_sets E _ _ _ _ _ _ _ _ _ _ Hl eq_refl Hs) as (e & -> & cc & s0 & l & r' & Hi & Hst2).
      assert (Hin : In (t, OTake q' pr' (Some (e, m))) T) by (rewrite HT, <- app_assoc; apply in_or_app; right; left; reflexivity).
      destruct (taken_accepted E w0 w _ _ _ _ H0 Hr Hin) as (t' & e0 & e' & m' & [= <- <-] & Hq' & _).
      assert (Hpt : tm = m) by (rewrite Hq' in Hq; symmetry in Hq; apply (ab_queue _ _ _ Hb) in Hq; exact Hq). subst tm.
      exists a1, pr', e, b, its, cc, s0, l, r'. split; [rewrite <- Hq'; reflexivity|]. split; [exact Hsb|]. rewrite Hi. change (s_states (strat E (strat_of E m))) with (table_of E m). rewrite (ab_table _ _ _ Hb). split; [reflexivity|exact Hst2].
  Qed.
  Lemma o_sets h t o r : T = h ++ (t, o) :: r -> sets m o -> o <> OState m (SApp p UNINIT) ->
    exists a1 pr e b its cc s0 l r', h = a1 ++ (t, OTake q pr (Some (e, m))) :: b /\ fst (scan t b) = [(FRoot, its)] /\
      its = l ++ R (RdCur m cc) :: R (RdMap m cc e (Some (Some s0))) :: r'.
  Proof.
    intros HT Hs Hne. destruct (o_sets_all h t o r HT Hs) as [[Hx _]|(a1 & pr & e & b & its & cc & s0 & l & r' & X1 & X2 & X3 & _)]; [contradiction|].
    exists a1, pr, e, b, its, cc, s0, l, r'. auto.
  Qed.
  Lemma o_map h t c l to r : T = h ++ (t, R (RdMap m c (ELife l) to)) :: r -> rea to = reacts (sname E) (life_conf E p m) c (lifeev_name l).
  Proof.
    intro HT. pose proof (o_conf h _ HT) as Hcf. rewrite (ab_table _ _ _ Hb) in Hcf.
    destruct Hcf as (os & s0 & Hos & Hh & Heq).
    assert (Hs0 : conf0 E w0 m s0) by (exists os; auto).
    destruct (conf_truth E w0 H0 m s0 Hs0 w Hr) as (_ & _ & Hk). pose proof (Hk _ _ _ _ HT) as Hk2.
    simpl in Hk2. specialize (Hk2 eq_refl). rewrite <- Heq in Hk2. rewrite Hk2. f_equal. exact (o_name h _ l HT).
  Qed.
  Lemma cur_mark h s : cur_at m h = Some s -> exists h1 t h2, h = h1 ++ (t, OState m s) :: h2.
  Proof.
    induction h as [|[t o] h IH] using rev_ind; [discriminate|]. unfold cur_at, cur_of. rewrite replay_snoc.
    intro Hc. assert (Hcase : cur_at m h = Some s \/ o = OState m s).
    { destruct o; auto. match type of Hc with context [Nat.eqb ?a ?b] => destruct (Nat.eqb_spec a b) as [->|] end; [injection Hc as ->; auto|auto]. }
    destruct Hcase as [Hc'| ->]; [|exists h, t, []; reflexivity].
    destruct (IH Hc') as (h1 & t1 & h2 & ->). exists h1, t1, (h2 ++ [(t, o)]). rewrite <- app_assoc. reflexivity.
  Qed.
  Definition begun (h : trace) : Prop := exists a1 t1 pr c r1, h = a1 ++ (t1, OTake q pr c) :: r1 /\ exists t2, In (t2, OUnended m) a1.
  Lemma begun_app h r : begun h -> begun (h ++ r).
  Proof. intros (a1 & t1 & pr & c & r1 & -> & H). exists a1, t1, pr, c, (r1 ++ r). rewrite <- app_assoc. auto. Qed.
  Lemma begun_over h : begun h -> exists t, In (t, OUnended m) h.
  Proof. intros (a1 & t1 & pr & c & r1 & -> & t & H). exists t. apply in_or_app. left. exact H. Qed.
  (** the machine leaves UNINITIALISED only while an event is processed that was
      taken after start() had made its last write *)
  Lemma o_late n : forall h t o r, List.length h < n -> T = h ++ (t, o) :: r -> sets m o -> o <> OState m (SApp p UNINIT) -> begun h.
  Proof.
    induction n as [|n IH]; [lia|]. intros h t o r Hl HT Hs Hne.
    assert (IHc : forall h' s r', T = h' ++ r' -> List.length h' <= n -> cur_at m h' = Some s -> s <> SApp p UNINIT -> begun h').
    { intros h' s r' HT' Hl' Hc Hns. destruct (cur_mark _ _ Hc) as (h1 & t1 & h2 & ->). apply begun_app.
      rewrite app_length in Hl'. simpl in Hl'. rewrite <- app_assoc in HT'. simpl in HT'.
      apply (IH h1 t1 (OState m s) (h2 ++ r')); [lia|exact HT'|right; eauto|congruence]. }
    destruct (o_sets h t o r HT Hs Hne) as (a1 & pr & e & b & its & cc & s0 & l & r0 & Hh & Hsb & Hi).
    change (R (RdCur m cc) :: R (RdMap m cc e (Some (Some s0))) :: r0) with ([R (RdCur m cc)] ++ R (RdMap m cc e (Some (Some s0))) :: r0) in Hi.
    rewrite app_assoc in Hi. rewrite Hi in Hsb.
    destruct (item_inv t b [] _ (R (RdMap m cc e (Some (Some s0)))) r0 Hsb eq_refl) as (b2 & b3 & -> & Hs2).
    destruct (item_inv t b2 [] l (R (RdCur m cc)) [] Hs2 eq_refl) as (b0 & b1 & -> & _).
    set (op := OTake q pr (Some (e, m))) in *.
    assert (HT1 : T = (a1 ++ (t, op) :: b0) ++ (t, R (RdCur m cc)) :: b1 ++ (t, R (RdMap m cc e (Some (Some s0)))) :: b3 ++ (t, o) :: r).
    { rewrite HT, Hh. repeat (rewrite <- app_assoc; simpl). reflexivity. }
    pose proof (read_true E w0 w H0 Hr _ _ _ _ HT1) as Hrd. simpl in Hrd.
    (* the event *)
    assert (HTa : T = (a1 ++ [(t, op)]) ++ (b0 ++ (t, R (RdCur m cc)) :: b1 ++ (t, R (RdMap m cc e (Some (Some s0)))) :: b3 ++ (t, o) :: r)).
    { rewrite HT1. repeat (rewrite <- app_assoc; simpl). reflexivity. }
    destruct (reach_prefix E w0 w (im_tr _ _ H0) Hr _ _ HTa) as (w1 & Hr1 & Hw1).
    destruct (taken_accepted E w0 w1 t q pr (Some (e, m)) H0 Hr1) as (t' & e0 & e' & m' & [= <- <-] & _ & Hoff).
    { rewrite Hw1. apply in_or_app. right. left. reflexivity. }
    rewrite Hw1 in Hoff. apply in_app_or in Hoff. destruct Hoff as [Hoff|[Hoff|[]]]; [|discriminate].
    apply in_split in Hoff. destruct Hoff as (ha & hb & Ha1).
    assert (HTo : T = ha ++ (t', OOffer q pr e0 m e m) :: hb ++ (t, op) :: (b0 ++ (t, R (RdCur m cc)) :: b1 ++ (t, R (RdMap m cc e (Some (Some s0)))) :: b3 ++ (t, o) :: r)).
    { rewrite HTa, Ha1. repeat (rewrite <- app_assoc; simpl). reflexivity. }
    destruct (o_offer _ _ _ _ _ _ _ _ HTo) as (k & its' & v & Hsc & _ & _ & -> & lv & -> & Hk).
    assert (HT2 : T = (a1 ++ (t, op) :: b0 ++ (t, R (RdCur m cc)) :: b1) ++ (t, R (RdMap m cc (ELife lv) (Some (Some s0)))) :: b3 ++ (t, o) :: r).
    { rewrite HT1. repeat (rewrite <- app_assoc; simpl). reflexivity. }
    pose proof (o_map _ _ _ _ _ _ HT2) as Hmap. simpl in Hmap.
    destruct cc as [s|]; [|discriminate].
    assert (Hlen : List.length h = List.length (a1 ++ (t, op) :: b0) + S (List.length (b1 ++ (t, R (RdMap m (Some s) (ELife lv) (Some (Some s0)))) :: b3))).
    { rewrite Hh. repeat (rewrite <- app_assoc; simpl). rewrite !app_length. simpl. rewrite !app_length. simpl. rewrite !app_length. simpl. lia. }
    assert (Hpre : exists x, h = (a1 ++ (t, op) :: b0) ++ x) by (eexists; rewrite Hh; repeat (rewrite <- app_assoc; simpl); reflexivity).
    destruct Hpre as (x & Hx).
    assert (Hdec : s = SApp p UNINIT \/ s <> SApp p UNINIT) by (destruct (sid_eq_dec s (SApp p UNINIT)); auto).
    destruct Hdec as [->|Hns].
    2:{ rewrite Hx. apply begun_app. eapply (IHc _ s); [exact HT1|lia|auto|exact Hns]. }
    rewrite life_reacts in Hmap. assert (lv = LStart) by (destruct lv; try discriminate; reflexivity). subst lv.
    destruct Hk as [->|Hk]; [|congruence].
    assert (Hend : (exists t2, In (t2, OUnended m) ha) -> begun h).
    { intros (t2 & Hu). rewrite Hx. apply begun_app. exists a1, t, pr, (Some (ELife LStart, m)), b0. split; [reflexivity|]. exists t2. rewrite Ha1. apply in_or_app. left. exact Hu. }
    destruct (app_frame E w0 p H0 w Hr _ _ _ _ _ _ HTo Hsc eq_refl) as (y & ext & Hlang).
    assert (Hread : forall c, In (R (RdCur m c)) its' -> is_name E c "STARTED" = true \/ is_name E c "STOPPED" = true -> exists t2, In (t2, OUnended m) ha).
    { intros c Hic Hnm. assert (Hin : In (t', R (RdCur m c)) ha) by (eapply (its_in t' ha []); [exact Hsc|exact Hic]).
      apply in_split in Hin. destruct Hin as (h5 & h6 & Hha).
      assert (HT5 : T = h5 ++ (t', R (RdCur m c)) :: h6 ++ (t', OOffer q pr (ELife LStart) m (ELife LStart) m) :: hb ++ (t, op) :: (b0 ++ (t, R (RdCur m (Some (SApp p UNINIT)))) :: b1 ++ (t, R (RdMap m (Some (SApp p UNINIT)) (ELife LStart) (Some (Some s0)))) :: b3 ++ (t, o) :: r)).
      { rewrite HTo, Hha. repeat (rewrite <- app_assoc; simpl). reflexivity. }
      pose proof (read_true E w0 w H0 Hr _ _ _ _ HT5) as Hrd5. simpl in Hrd5.
      destruct c as [s|]; [|destruct Hnm; discriminate].
      assert (Hb5 : begun h5).
      { eapply (IHc h5 s); [exact HT5| |auto|intros ->; destruct Hnm; discriminate].
        rewrite Hx, Ha1, Hha in Hl. repeat rewrite app_length in Hl. simpl in Hl. lia. }
      destruct (begun_over _ Hb5) as (t2 & H2). exists t2. rewrite Hha. apply in_or_app. left. exact H2. }
    destruct (app_start_offer E p y _ its' _ ext Hlang eq_refl eq_refl (ab_keep _ _ _ Hb)) as [(_ & _ & _ & Hu & _)|[(_ & c & j & Hj & Hc & _)|(bb & i1 & i2 & c & i3 & Hj & Hc)]].
    - apply Hend. exists t'. eapply (its_in t' ha []); [exact Hsc|exact Hu].
    - apply Hend. apply (Hread c); [rewrite Hj; left; reflexivity|auto].
    - apply Hend. apply (Hread c); [rewrite Hj|destruct Hc as [Hc|[_ Hc]]; auto].
      apply in_or_app. right. right. apply in_or_app. right. left. reflexivity.
  Qed.
End Open.
