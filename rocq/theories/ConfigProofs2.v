(** * ConfigProofs2.v: consequences of the configuration refinement *)
From Verif Require Import Sched Lifecycle Names ConfigProofs ConfigObs ConfigSpec.
Arguments String.eqb : simpl never.

Section P.
  Context (sn : sid -> string) (en : eid -> string) (m : mid).
  Notation run_cfg := (cfg_run sn en m).
  Notation accepts := (accepts sn en m).
  Notation target := (target sn en m).
  Notation ends_clause := (ends_clause m).
  Notation step_cfg := (cfg_step sn en m).

  Lemma run_snoc os o : run_cfg (os ++ [o]) = fst (step_cfg o (run_cfg os)).
  Proof. unfold cfg_run. rewrite fold_left_app. reflexivity. Qed.

  (** extra invariant: a pending event of the open clause has no target *)
  Definition pending_inv (s : sstate) : Prop :=
    forall x e, clause s = Some x -> event s = Some e -> table s (sn x) (Some e) = Some None.
  Definition names_inv (s : sstate) : Prop :=
    forall n e t, table s n e = Some (Some t) ->
      ~ reserved_state n /\
      (t = SEnd m \/ t = SNoop m \/ ~ reserved_state (sn t)) /\
      (e = Some "_immediate_" -> t = SEnd m).
  Definition open_inv (s : sstate) : Prop :=
    forall x, clause s = Some x -> ~ reserved_state (sn x).
  Definition ev_inv (s : sstate) : Prop := event s <> Some "_immediate_".

  Lemma pending_effect o s :
    (clause s = None -> event s = None) ->
    (initial s = None -> clause s = None) ->
    allowed sn en o s -> pending_inv s -> pending_inv (effect sn en m o s).
  Proof.
    intros Hv Hn Ha H x e. destruct o; simpl in *.
    - intros _ He. rewrite Hv in He; [discriminate|]. apply Hn, Ha.
    - intros _ He. rewrite Hv in He; [discriminate|]. apply Ha.
    - intros Hx He. rewrite Hx. unfold set_entry. injection He as <-.
      rewrite String.eqb_refl. simpl. rewrite String.eqb_refl. reflexivity.
    - discriminate.
    - discriminate.
    - discriminate.
  Qed.

  Lemma names_effect o s :
    allowed sn en o s -> names_inv s -> open_inv s -> ev_inv s ->
    (clause s = None -> event s = None) -> (initial s = None -> clause s = None) ->
    names_inv (effect sn en m o s) /\ open_inv (effect sn en m o s) /\ ev_inv (effect sn en m o s).
  Proof.
    intros Ha H Ho He Hv Hn.
    assert (SE : forall n e v, ~ reserved_state n ->
      (forall t, v = Some t -> (t = SEnd m \/ t = SNoop m \/ ~ reserved_state (sn t)) /\ (e = Some "_immediate_" -> t = SEnd m)) ->
      forall n' e' t, set_entry s n e v n' e' = Some (Some t) ->
      ~ reserved_state n' /\ (t = SEnd m \/ t = SNoop m \/ ~ reserved_state (sn t)) /\ (e' = Some "_immediate_" -> t = SEnd m)).
    { intros n e v Hr Ht n' e' t. unfold set_entry. destruct (String.eqb_spec n' n) as [->|]; simpl.
      - rewrite oname_eqb_eq. destruct (ostr_eqb_spec e' e) as [->|].
        + intro Hq. injection Hq as ->. destruct (Ht t eq_refl). auto.
        + apply H.
      - apply H. }
    destruct o; simpl in Ha |- *; (split; [|split]).
    - intros n e t Hq; simpl in Hq; discriminate.
    - intros x Hx. injection Hx as <-. apply Ha.
    - unfold ev_inv; simpl. rewrite Hv; [discriminate|]. apply Hn, Ha.
    - exact H.
    - intros x Hx. injection Hx as <-. apply Ha.
    - exact He.
    - unfold names_inv; simpl. destruct (clause s) as [x|] eqn:Ec; [|exact H].
      apply SE; [apply Ho; exact Ec|]. intros t Ht; discriminate.
    - exact Ho.
    - unfold ev_inv; simpl. destruct Ha as [Ha _]. unfold reserved_event in Ha. congruence.
    - unfold names_inv; simpl. destruct (clause s) as [x|] eqn:Ec; [|exact H].
      apply SE; [apply Ho; exact Ec|]. intros t Ht; injection Ht as <-. auto.
    - intros x Hx; discriminate.
    - unfold ev_inv; discriminate.
    - unfold names_inv; simpl. destruct (clause s) as [x|] eqn:Ec; [|exact H].
      apply SE; [apply Ho; exact Ec|]. intros t Ht; injection Ht as <-.
      split; [right; right; apply Ha|]. intro. contradiction.
    - intros x Hx; discriminate.
    - unfold ev_inv; discriminate.
    - unfold names_inv; simpl. destruct (clause s) as [x|] eqn:Ec; [|exact H].
      apply SE; [apply Ho; exact Ec|]. intros t Ht; injection Ht as <-.
      split; [auto|]. intro. contradiction.
    - intros x Hx; discriminate.
    - unfold ev_inv; discriminate.
  Qed.

  Lemma history_R os s : history sn en m os s ->
    R sn (run_cfg os) s /\ pending_inv s /\ names_inv s /\ open_inv s /\ ev_inv s.
  Proof.
    induction 1 as [|os s o Hh IH Ha|os s o Hh IH Ha].
    - split; [apply R0|]. split; [intros x e H; discriminate|].
      split; [intros n e t H; discriminate|]. split; [intros x H; discriminate|discriminate].
    - destruct IH as (HR & HP & HN & HO & HE). rewrite run_snoc.
      destruct (step_refines sn en m _ _ o HR) as [Hok _]. destruct (Hok Ha) as (c' & Hs & HR').
      rewrite Hs; simpl. split; [exact HR'|].
      pose proof (R_noev _ _ _ HR). pose proof (fun E => proj1 (R_noinit _ _ _ HR E)).
      split; [apply pending_effect; auto|]. apply names_effect; auto.
    - destruct IH as (HR & HI). rewrite run_snoc.
      destruct (step_refines sn en m _ _ o HR) as [_ Hno]. destruct (Hno Ha) as (x & Hs).
      rewrite Hs. auto.
  Qed.

  Lemma allowed_dec c s o : R sn c s -> allowed sn en o s \/ ~ allowed sn en o s.
  Proof.
    intros HR.
    assert (RD : forall n, reserved_state n \/ ~ reserved_state n).
    { intro n. destruct (existsb (fun r => String.eqb r n) reserved_names) eqn:E.
      - left. apply reserved_dec. exact E.
      - right. intro Z. apply reserved_dec in Z. congruence. }
    assert (ID : initial s <> None \/ ~ initial s <> None) by (destruct (initial s); [left; discriminate|right; congruence]).
    assert (ND : forall n e, no_target s n e \/ ~ no_target s n e).
    { intros n e. unfold no_target. destruct (table s n e) as [[t|]|].
      - right. intro Z. apply (Z t). reflexivity.
      - left. intros t; discriminate.
      - left. intros t; discriminate. }
    destruct o; simpl.
    - destruct (RD (sn s0)) as [|]; [right; tauto|]. destruct (initial s); [right; intros []; discriminate|left; auto].
    - destruct (RD (sn s0)) as [|]; [right; tauto|]. destruct ID; [|tauto].
      destruct (clause s); [right; intros (?&?&?); discriminate|left; auto].
    - unfold reserved_event. destruct (String.eqb_spec (en e) "_immediate_"); [right; tauto|].
      destruct ID; [|tauto]. destruct (clause s); [left; repeat split; auto; discriminate|right; intros (?&?&?); congruence].
    - destruct ID; [|tauto]. destruct (clause s) as [x|] eqn:Ec; [|right; intros (_ & x & ? & _); discriminate].
      destruct (event s) as [e|] eqn:Ee.
      + destruct (ND (sn x) (Some e)).
        * left. split; auto. exists x. split; [reflexivity|]. split; [discriminate|auto].
        * right. intros (_ & y & Hy & _ & Hz). injection Hy as <-. apply H0, Hz. discriminate.
      + destruct (aget String.eqb (sn x) (c_map c)) as [r|] eqn:Hr.
        * assert (Hrt : forall e, table s (sn x) e = aget ostr_eqb e r).
          { intro e. rewrite <- (R_table _ _ _ HR). unfold entry_of. rewrite Hr. reflexivity. }
          destruct r as [|p r].
          -- left. split; auto. exists x. split; [reflexivity|]. split; [|congruence]. intros _ e. rewrite Hrt. reflexivity.
          -- right. intros (_ & y & Hy & Hz & _). injection Hy as <-. specialize (Hz eq_refl).
             assert (p :: r = []) by (apply (aget_nil_all ostr_eqb ostr_eqb_spec); intro k; rewrite <- Hrt; apply Hz). discriminate.
        * left. split; auto. exists x. split; [reflexivity|]. split; [|congruence]. intros _ e.
          rewrite <- (R_table _ _ _ HR). unfold entry_of. rewrite Hr. reflexivity.
    - destruct (RD (sn s0)) as [|]; [right; tauto|]. destruct ID; [|tauto].
      destruct (clause s) as [x|]; [|right; intros (_ & _ & x & ? & _); discriminate].
      destruct (ND (sn x) (event s)); [left; eauto 10|right; intros (_ & _ & y & Hy & Hz); injection Hy as <-; auto].
    - destruct ID; [|tauto].
      destruct (clause s) as [x|]; [|right; intros (_ & x & ? & _); discriminate].
      destruct (ND (sn x) (event s)); [left; eauto 10|right; intros (_ & y & Hy & Hz); injection Hy as <-; auto].
  Qed.

  Lemma history_total os : exists s, history sn en m os s.
  Proof.
    induction os as [|o os [s Hs]] using rev_ind; [eexists; constructor|].
    destruct (allowed_dec _ _ o (proj1 (history_R _ _ Hs))) as [Ha|Ha].
    - eexists. eapply h_accept; eauto.
    - eexists. eapply h_reject; eauto.
  Qed.

  Lemma accepts_iff os s o : history sn en m os s -> (accepts os o <-> allowed sn en o s).
  Proof.
    intro Hh. destruct (history_R _ _ Hh) as [HR _].
    destruct (step_refines sn en m _ _ o HR) as [Hok Hno]. unfold accepts.
    destruct (allowed_dec _ _ o HR) as [Ha|Ha].
    - destruct (Hok Ha) as (c' & -> & _). simpl. tauto.
    - destruct (Hno Ha) as (x & ->). simpl. split; [discriminate|tauto].
  Qed.

  Lemma history_accept os s o : history sn en m os s -> accepts os o -> history sn en m (os ++ [o]) (effect sn en m o s).
  Proof. intros Hh Ha. apply h_accept; [exact Hh|]. apply (accepts_iff _ _ _ Hh), Ha. Qed.

  Lemma lookup_table os s st e : history sn en m os s ->
    cfg_lookup sn en (Some st) e (run_cfg os) =
      if known s (sn st)
      then Some (match table s (sn st) (Some (en e)) with Some v => v | None => None end)
      else None.
  Proof.
    intro Hh. destruct (history_R _ _ Hh) as [HR _]. unfold cfg_lookup.
    rewrite <- (R_known _ _ _ HR), <- (R_table _ _ _ HR). unfold entry_of.
    destruct (aget String.eqb (sn st) (c_map (run_cfg os))); [|reflexivity].
    destruct (aget ostr_eqb _ r); reflexivity.
  Qed.

  Lemma target_table os s st e : history sn en m os s ->
    target os st e = match table s (sn st) (Some (en e)) with Some (Some t) => Some t | _ => None end.
  Proof.
    intro Hh. unfold target. rewrite (lookup_table _ _ _ _ Hh).
    destruct (history_R _ _ Hh) as [HR _].
    pose proof (R_known _ _ _ HR (sn st)) as K. pose proof (R_table _ _ _ HR (sn st) (Some (en e))) as T.
    unfold entry_of in T. destruct (aget String.eqb (sn st) (c_map (run_cfg os))).
    - rewrite <- K. destruct (table s (sn st) (Some (en e))) as [[|]|]; reflexivity.
    - rewrite <- K, <- T. reflexivity.
  Qed.

  Lemma rejected_no_change os o x :
    snd (step_cfg o (run_cfg os)) = Err x -> fst (step_cfg o (run_cfg os)) = run_cfg os.
  Proof.
    destruct (history_total os) as [s Hh]. destruct (history_R _ _ Hh) as [HR _].
    destruct (step_refines sn en m _ _ o HR) as [Hok Hno].
    destruct (allowed_dec _ _ o HR) as [Ha|Ha].
    - destruct (Hok Ha) as (c' & -> & _). discriminate.
    - destruct (Hno Ha) as (y & ->). reflexivity.
  Qed.

  Lemma clause_sets_target os x ev o t st e :
    ends_clause o = Some t ->
    accepts os (CWhen x) ->
    accepts (os ++ [CWhen x]) (CReceives ev) ->
    accepts ((os ++ [CWhen x]) ++ [CReceives ev]) o ->
    target (((os ++ [CWhen x]) ++ [CReceives ev]) ++ [o]) st e =
      if andb (String.eqb (sn st) (sn x)) (String.eqb (en e) (en ev)) then Some t else target os st e.
  Proof.
    intros Ho H1 H2 H3. destruct (history_total os) as [s Hh].
    pose proof (history_accept _ _ _ Hh H1) as Hh1.
    pose proof (history_accept _ _ _ Hh1 H2) as Hh2.
    pose proof (history_accept _ _ _ Hh2 H3) as Hh3.
    rewrite (target_table _ _ _ _ Hh3), (target_table _ _ _ _ Hh).
    destruct o; simpl in Ho; try discriminate; injection Ho as <-; simpl;
      unfold set_entry; simpl; unfold set_entry; simpl;
      (destruct (String.eqb_spec (sn st) (sn x)) as [E1|]; simpl; [|reflexivity]);
      (destruct (String.eqb_spec (en e) (en ev)) as [E2|]; simpl; reflexivity).
  Qed.

  Lemma other_pairs_unchanged os o st e :
    (forall s x, history sn en m os s -> clause s = Some x -> sn x = sn st ->
       o <> CReceives e /\ (forall e', o = CReceives e' -> en e' <> en e) /\
       (event s = Some (en e) -> ends_clause o = None)) ->
    en e <> "_immediate_" ->
    target (os ++ [o]) st e = target os st e.
  Proof.
    intros Hne Hni. destruct (history_total os) as [s Hh].
    destruct (allowed_dec _ _ o (proj1 (history_R _ _ Hh))) as [Ha|Ha].
    2:{ rewrite (target_table _ _ _ _ (h_reject _ _ _ _ _ _ Hh Ha)), (target_table _ _ _ _ Hh). reflexivity. }
    rewrite (target_table _ _ _ _ (h_accept _ _ _ _ _ _ Hh Ha)), (target_table _ _ _ _ Hh).
    pose proof (history_R _ _ Hh) as (HR & _).
    assert (SE : forall x k v, clause s = Some x -> (sn x = sn st -> k <> Some (en e)) ->
       set_entry s (sn x) k v (sn st) (Some (en e)) = table s (sn st) (Some (en e))).
    { intros x k v Hx Hk. unfold set_entry. destruct (String.eqb_spec (sn st) (sn x)); [|reflexivity].
      simpl. destruct k as [k|]; [|reflexivity].
      destruct (String.eqb_spec (en e) k) as [Ek|]; [|reflexivity]. exfalso. apply Hk; [congruence|]. rewrite Ek. reflexivity. }
    destruct o; simpl.
    - simpl in Ha. destruct Ha as [_ Hi]. destruct (R_noinit _ _ _ HR Hi) as [_ Hm].
      rewrite <- (R_table _ _ _ HR). unfold entry_of. rewrite Hm. reflexivity.
    - reflexivity.
    - destruct (clause s) as [x|] eqn:Ec; [|reflexivity]. rewrite SE; [reflexivity|reflexivity|].
      intros Hx Hk. injection Hk as Hk. destruct (Hne s x Hh Ec Hx) as (_ & A & _). eapply A; eauto.
    - destruct (clause s) as [x|] eqn:Ec; [|reflexivity]. rewrite SE; [reflexivity|reflexivity|].
      intros Hx Hk. destruct (Hne s x Hh Ec Hx) as (_ & _ & A).
      revert A Hk; destruct (event s) as [z|]; simpl; intros A Hk; [specialize (A Hk); discriminate|]. injection Hk as Hk; apply Hni; symmetry; exact Hk.
    - destruct (clause s) as [x|] eqn:Ec; [|reflexivity]. rewrite SE; [reflexivity|reflexivity|].
      intros Hx Hk. destruct (Hne s x Hh Ec Hx) as (_ & _ & A). specialize (A Hk). discriminate.
    - destruct (clause s) as [x|] eqn:Ec; [|reflexivity]. rewrite SE; [reflexivity|reflexivity|].
      intros Hx Hk. destruct (Hne s x Hh Ec Hx) as (_ & _ & A). specialize (A Hk). discriminate.
  Qed.

  Lemma names_ok os st e t : target os st e = Some t ->
    ~ reserved_state (sn st) /\ (t = SEnd m \/ t = SNoop m \/ ~ reserved_state (sn t)) /\
    (en e = "_immediate_" -> t = SEnd m).
  Proof.
    destruct (history_total os) as [s Hh]. rewrite (target_table _ _ _ _ Hh).
    destruct (history_R _ _ Hh) as (_ & _ & HN & _).
    destruct (table s (sn st) (Some (en e))) as [[t'|]|] eqn:Ht; try discriminate.
    intro E; injection E as ->. destruct (HN _ _ _ Ht) as (A & B & C).
    repeat split; auto. intro Z. apply C. congruence.
  Qed.

  Lemma never_mapped os o : snd (step_cfg o (run_cfg os)) <> Err (XIllegalState RMapped).
  Proof.
    destruct (history_total os) as [s Hh]. destruct (history_R _ _ Hh) as (HR & HP & _).
    destruct (step_refines sn en m _ _ o HR) as [Hok Hno].
    destruct (allowed_dec _ _ o HR) as [Ha|Ha].
    { destruct (Hok Ha) as (c' & -> & _). discriminate. }
    pose proof HR as [Hi Hc He Ht Hk _ Ho _].
    assert (AM : forall c, c = run_cfg os -> snd (assertEventNotMapped sn c) <> Err (XIllegalState RMapped)).
    { intros c ->. unfold assertEventNotMapped, marked_row, cbind, cget, cthrow, cret. rewrite Hc, He.
      destruct (clause s) as [x|] eqn:Ec; [|discriminate].
      destruct (aget String.eqb (sn x) (c_map (run_cfg os))) as [r|] eqn:Hr; [|discriminate].
      destruct (event s) as [ev|] eqn:Ee.
      - specialize (HP _ _ Ec Ee). rewrite <- Ht in HP. unfold entry_of in HP. rewrite Hr in HP. rewrite HP. discriminate.
      - destruct (aget ostr_eqb None r) as [[|]|]; discriminate. }
    specialize (AM _ eq_refl). clear - AM.
    remember (run_cfg os) as c eqn:Ecfg. clear Ecfg.
    assert (B : forall (A B : Set) (p : cm A) (f : A -> cm B) c,
      snd (p c) <> Err (XIllegalState RMapped) ->
      (forall a c', p c = (c', Ok a) -> snd (f a c') <> Err (XIllegalState RMapped)) ->
      snd (cbind p f c) <> Err (XIllegalState RMapped)).
    { clear. intros A B p f c H1 H2. unfold cbind. destruct (p c) as [c' [a|x]]; simpl in *; [auto|congruence]. }
    assert (G : forall (A : Set) (f : cfg -> A) c, snd (cget f c) <> Err (XIllegalState RMapped)) by discriminate.
    assert (M : forall f c, snd (cmod f c) <> Err (XIllegalState RMapped)) by discriminate.
    assert (P : forall k v c, snd (put_marked sn k v c) <> Err (XIllegalState RMapped)).
    { clear - B G M. intros. unfold put_marked. apply B; [apply G|intros]. apply B; [apply G|intros].
      destruct a; [|discriminate]. destruct a0; [apply M|discriminate]. }
    assert (S1 : forall x c a c', assertNotReservedState sn x c = (c', Ok a) -> c' = c).
    { intros x c0 a c'. unfold assertNotReservedState, cthrow, cret. destruct (existsb _ _); congruence. }
    assert (N1 : forall x c, snd (assertNotReservedState sn x c) <> Err (XIllegalState RMapped)).
    { intros x c0. unfold assertNotReservedState, cthrow, cret. destruct (existsb _ _); discriminate. }
    assert (S2 : forall x c a c', assertInitStateDefined x c = (c', Ok a) -> c' = c).
    { intros x c0 a c'. unfold assertInitStateDefined, cbind, cget, cthrow, cret. destruct x, (c_init c0); congruence. }
    assert (N2 : forall x c, snd (assertInitStateDefined x c) <> Err (XIllegalState RMapped)).
    { intros x c0. unfold assertInitStateDefined, cbind, cget, cthrow, cret. destruct x, (c_init c0); discriminate. }
    assert (S3 : forall x c a c', assertMarkedStateDefined x c = (c', Ok a) -> c' = c).
    { intros x c0 a c'. unfold assertMarkedStateDefined, cbind, cget, cthrow, cret. destruct x, (c_mstate c0); congruence. }
    assert (N3 : forall x c, snd (assertMarkedStateDefined x c) <> Err (XIllegalState RMapped)).
    { intros x c0. unfold assertMarkedStateDefined, cbind, cget, cthrow, cret. destruct x, (c_mstate c0); discriminate. }
    assert (W : forall x c, snd (cfg_when sn x c) <> Err (XIllegalState RMapped)).
    { intros x c0. unfold cfg_when. repeat first [solve [auto]|apply B; [auto|intros]]. }
    assert (SG : forall (A : Set) (f : cfg -> A) c a c', cget f c = (c', Ok a) -> c' = c) by (unfold cget; congruence).
    destruct o; unfold cfg_step, cfg_init, cfg_receives, cfg_ends, cfg_to, cfg_notrans.
    - repeat first [solve [auto]|apply B; [auto|intros]].
    - auto.
    - apply B; [unfold assertNotReservedStateEvent, cthrow, cret; destruct (String.eqb _ _); discriminate|intros].
      repeat first [solve [auto]|apply B; [auto|intros]].
    - apply B; [auto|intros a c1 H1]. apply S2 in H1 as ->.
      apply B; [auto|intros a1 c1 H1]. apply S3 in H1 as ->.
      apply B; [auto|intros a2 c1 H1]. apply SG in H1 as ->.
      apply B; [|intros; repeat first [solve [auto]|apply B; [auto|intros]]].
      destruct a2; (apply B; [auto|intros; auto]).
      unfold assertNoMappingsExistAtEnd. apply B; [auto|intros zz ? ?]. destruct zz as [[|]|]; discriminate.
    - apply B; [auto|intros a c1 H1]. apply S1 in H1 as ->.
      apply B; [auto|intros a1 c1 H1]. apply S2 in H1 as ->.
      apply B; [auto|intros a2 c1 H1]. apply S3 in H1 as ->.
      repeat first [solve [auto]|apply B; [auto|intros]].
    - apply B; [auto|intros a1 c1 H1]. apply S2 in H1 as ->.
      apply B; [auto|intros a2 c1 H1]. apply S3 in H1 as ->.
      repeat first [solve [auto]|apply B; [auto|intros]].
  Qed.

  (** re-mapping: whenever a clause may begin, mapping any event of any state is accepted *)
  Lemma remap_accepted os x ev t :
    accepts os (CWhen x) -> ~ reserved_event (en ev) -> ~ reserved_state (sn t) ->
    accepts (os ++ [CWhen x]) (CReceives ev) /\
    accepts ((os ++ [CWhen x]) ++ [CReceives ev]) (CTo t) /\
    target (((os ++ [CWhen x]) ++ [CReceives ev]) ++ [CTo t]) x ev = Some t.
  Proof.
    intros H1 He Ht. destruct (history_total os) as [s Hh].
    pose proof (history_accept _ _ _ Hh H1) as Hh1.
    apply (accepts_iff _ _ _ Hh) in H1 as H1'. simpl in H1'.
    assert (H2 : accepts (os ++ [CWhen x]) (CReceives ev)).
    { apply (accepts_iff _ _ _ Hh1). simpl. repeat split; auto; try tauto. discriminate. }
    pose proof (history_accept _ _ _ Hh1 H2) as Hh2.
    assert (H3 : accepts ((os ++ [CWhen x]) ++ [CReceives ev]) (CTo t)).
    { apply (accepts_iff _ _ _ Hh2). simpl. split; [auto|]. split; [tauto|]. exists x. split; [reflexivity|].
      unfold no_target; simpl. unfold set_entry; simpl. rewrite !String.eqb_refl. simpl. discriminate. }
    split; [exact H2|]. split; [exact H3|].
    rewrite (clause_sets_target os x ev (CTo t) t x ev eq_refl H1 H2 H3), !String.eqb_refl. reflexivity.
  Qed.
End P.

(** computational check of acceptance *)
Fixpoint ok_from (sn : sid -> string) (en : eid -> string) (m : mid) (c : cfg) (os : list cop) : bool :=
  match os with
  | [] => true
  | o :: r => match snd (cfg_step sn en m o c) with
              | Ok _ => ok_from sn en m (fst (cfg_step sn en m o c)) r
              | Err _ => false
              end
  end.
Lemma ok_from_all sn en m os : ok_from sn en m cfg0 os = true -> all_ok sn en m os.
Proof.
  intros H pre o post Hos.
  assert (G : forall pre c os, os = pre ++ o :: post -> ok_from sn en m c os = true ->
    snd (cfg_step sn en m o (fold_left (cfg_exec sn en m) pre c)) = Ok tt).
  { clear. induction pre as [|a pre IH]; intros c os -> H; simpl in *.
    - destruct (snd _) as [[]|]; [reflexivity|discriminate].
    - destruct (snd _); [|discriminate]. eapply IH; eauto. }
  unfold accepts, cfg_run. eapply G; eauto.
Qed.

Section L.
  Context (E : env) (m : mid) (p : apid).
  Lemma life_ok : ok_from (sname E) (ename0 E) m cfg0 (lifecycle_calls p) = true.
  Proof. reflexivity. Qed.
  Lemma life_cfg : cfg_run (sname E) (ename0 E) m (lifecycle_calls p) =
    {| c_init := Some (SApp p UNINIT); c_mstate := None; c_mevent := None;
       c_map := [("UNINITIALISED", [(Some "start", Some (SApp p STARTING))]);
                 ("_END_", []); ("_UNINITIALISED_", []); ("_NOOP_", []);
                 ("STARTING", [(Some "complete", Some (SApp p STARTED)); (Some "error", Some (SApp p STOPPED))]);
                 ("STARTED", [(Some "stop", Some (SApp p STOPPING)); (Some "error", Some (SApp p STOPPED))]);
                 ("STOPPING", [(Some "complete", Some (SApp p STOPPED)); (Some "error", Some (SApp p STOPPED))]);
                 ("STOPPED", [(Some "start", Some (SApp p STARTING)); (Some "stop", Some (SEnd m))])] |}.
  Proof. reflexivity. Qed.
  Lemma life_table s e t :
    target (sname E) (ename0 E) m (lifecycle_calls p) s e = Some t <->
    In (sname E s, ename0 E e, t) (documented m p).
  Proof.
    unfold target, cfg_lookup. rewrite life_cfg. simpl.
    generalize (sname E s) as ns, (ename0 E e) as ne. intros ns ne.
    repeat match goal with |- context [String.eqb ns ?k] => destruct (String.eqb_spec ns k); [subst ns|] end;
    simpl;
    repeat match goal with |- context [String.eqb ne ?k] => destruct (String.eqb_spec ne k); [subst ne|] end;
    split; intro H;
    try discriminate; try (injection H as <-; tauto);
    repeat (destruct H as [H|H]; [try (injection H; intros; subst; try congruence; reflexivity); try (exfalso; congruence)|]);
    try contradiction.
  Qed.
End L.

(** ** names *)
Section N.
  Context {Obj : Type} (eq_obj : Obj -> Obj -> bool) (eq_obj_spec : forall a b, eq_obj a b = true <-> a = b)
          (name : Obj -> string).
  Notation eqv := (named_equals eq_obj name).
  Lemma named_equals_iff a b : eqv a b = true <-> name a = name b.
  Proof.
    unfold named_equals. destruct (eq_obj a b) eqn:Hab.
    - apply eq_obj_spec in Hab. subst. tauto.
    - apply String.eqb_eq.
  Qed.
  Lemma named_hash_eq a b : eqv a b = true -> named_hash name a = named_hash name b.
  Proof. rewrite named_equals_iff. unfold named_hash. congruence. Qed.
End N.

Lemma lookup_by_name sn en s s' e e' c :
  sn s = sn s' -> en e = en e' -> cfg_lookup sn en (Some s) e c = cfg_lookup sn en (Some s') e' c.
Proof. intros Hs He. unfold cfg_lookup. rewrite Hs, He. reflexivity. Qed.

(** ** rejected names *)
Lemma reserved_rejected sn en m c o :
  match o with
  | CInit s | CWhen s | CTo s => reserved_state (sn s)
  | CReceives e => reserved_event (en e)
  | _ => False
  end ->
  cfg_step sn en m o c = (c, Err (XIllegalState RReserved)).
Proof.
  destruct o; simpl; try contradiction; intro H;
    unfold cfg_init, cfg_when, cfg_to, cfg_receives, cbind, assertNotReservedState, assertNotReservedStateEvent, cthrow.
  - apply reserved_dec in H. rewrite H. reflexivity.
  - apply reserved_dec in H. rewrite H. reflexivity.
  - unfold reserved_event in H. rewrite H. reflexivity.
  - apply reserved_dec in H. rewrite H. reflexivity.
Qed.

(** ** the example machine used beside the theorems *)
Definition ex_sn (s : sid) : string :=
  match s with
  | SUser 0 => "A" | SUser 1 => "B" | SUser 2 => "B" | SUser _ => "C"
  | SEnd _ => "_END_" | SNone _ => "_UNINITIALISED_" | SNoop _ => "_NOOP_"
  | SApp _ _ => "app"
  end.
Definition ex_en (e : eid) : string :=
  match e with EUser 0 => "go" | EUser 1 => "back" | EUser 2 => "go" | EUser _ => "x" | _ => "_immediate_" end.
