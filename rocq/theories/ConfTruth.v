(** * ConfTruth.v: the configuration in memory agrees with the trace *)
From Verif Require Import Sched MemInv StateSpec Truth ConfigProofs ConfigProofs2 ConfSpec.

Lemma confs_names sn m n0 s0 tr : fst (confs_of sn m (n0, s0) tr) = names_of n0 tr.
Proof.
  unfold confs_of, names_of, replay. revert n0 s0.
  induction tr as [|[t o] tr IH]; intros n0 s0; simpl; [reflexivity|].
  destruct o; try apply IH. destruct w; try apply IH.
  - destruct x; [apply IH|]. destruct (Nat.eqb _ _); apply IH.
Qed.
Lemma conf_snoc sn m n0 s0 tr t o :
  conf_of sn m n0 s0 (tr ++ [(t, o)]) =
  match o with
  | OWr (WrCfg m' o None) => if Nat.eqb m' m then effect sn (names_of n0 tr) m o (conf_of sn m n0 s0 tr)
                             else conf_of sn m n0 s0 tr
  | _ => conf_of sn m n0 s0 tr
  end.
Proof.
  unfold conf_of, confs_of. rewrite replay_snoc.
  rewrite <- (confs_names sn m n0 s0 tr). unfold confs_of.
  destruct o; try reflexivity. destruct w; try reflexivity. destruct x; try reflexivity.
  destruct (Nat.eqb _ _); reflexivity.
Qed.

(** keys of the maps are unique *)
Section Keys.
  Context {K V : Set} (eqb : K -> K -> bool) (eqb_spec : forall a b, reflect (a = b) (eqb a b)).
  Lemma aput_in (k k' : K) (v v' : V) l : In (k', v') (aput eqb k v l) -> (k' = k /\ v' = v) \/ (In (k', v') l).
  Proof.
    induction l as [|[a b] l IH]; simpl.
    - intros [H|[]]. injection H as <- <-. auto.
    - destruct (eqb_spec k a); simpl.
      + intros [H|H]; [|auto]. injection H as <- <-. subst. auto.
      + intros [H|H]; [auto|]. destruct (IH H); auto.
  Qed.
  Lemma aput_nd (k : K) (v : V) l : NoDup (map fst l) -> NoDup (map fst (aput eqb k v l)).
  Proof.
    induction l as [|[a b] l IH]; simpl; intro H; [repeat constructor; auto|].
    inversion H; subst. destruct (eqb_spec k a); simpl; constructor; auto.
    intro Hi. apply in_map_iff in Hi. destruct Hi as ([a' b'] & <- & Hi).
    apply aput_in in Hi. destruct Hi as [[? ?]|Hi]; simpl in *; subst.
    - congruence.
    - apply H2. apply (in_map fst) in Hi. exact Hi.
  Qed.
  Lemma aget_in (k : K) (v : V) l : aget eqb k l = Some v -> In (k, v) l.
  Proof.
    induction l as [|[a b] l IH]; simpl; [discriminate|].
    destruct (eqb_spec k a); intro H; [injection H as <-; subst; auto|auto].
  Qed.
  Lemma in_aget (k : K) (v : V) l : NoDup (map fst l) -> In (k, v) l -> aget eqb k l = Some v.
  Proof.
    induction l as [|[a b] l IH]; simpl; [tauto|]. intros H [Hi|Hi]; inversion H; subst.
    - injection Hi as <- <-. destruct (eqb_spec a a); congruence.
    - destruct (eqb_spec k a); [|auto]. subst. exfalso. apply H2. apply (in_map fst) in Hi. exact Hi.
  Qed.
End Keys.

Definition wfc (c : cfg) : Prop :=
  NoDup (map fst (c_map c)) /\ forall n r, In (n, r) (c_map c) -> NoDup (map fst r).
Lemma wfc_put c n r : wfc c -> NoDup (map fst r) -> wfc (set_map (aput String.eqb n r (c_map c)) c).
Proof.
  intros [H1 H2] Hr. split; simpl.
  - apply aput_nd; auto using String.eqb_spec.
  - intros n' r' Hi. apply aput_in in Hi; [|apply String.eqb_spec]. destruct Hi as [[-> ->]|Hi]; eauto.
Qed.
Lemma wfc_same c c' : c_map c' = c_map c -> wfc c -> wfc c'.
Proof. unfold wfc. intros ->. auto. Qed.
Lemma wfc_if c n : wfc c -> wfc (set_map (put_if_absent n (c_map c)) c).
Proof.
  intro H. unfold put_if_absent. destruct (aget _ _ _).
  - revert H. apply wfc_same. reflexivity.
  - apply wfc_put; [exact H|constructor].
Qed.

Section Cfg.
  Context (sn : sid -> string) (en : eid -> string) (m : mid).
  Definition keeps {A : Set} (p : cm A) : Prop := forall c, wfc c -> wfc (fst (p c)).
  Lemma k_bind {A B : Set} (p : cm A) (f : A -> cm B) : keeps p -> (forall a, keeps (f a)) -> keeps (cbind p f).
  Proof.
    intros Hp Hf c Hc. unfold cbind. specialize (Hp c Hc). destruct (p c) as [c' [a|x]]; [apply Hf|]; exact Hp.
  Qed.
  Lemma k_get {A : Set} (f : cfg -> A) : keeps (cget f).
  Proof. intros c H. exact H. Qed.
  Lemma k_ret {A : Set} (a : A) : keeps (cret a).
  Proof. intros c H. exact H. Qed.
  Lemma k_throw {A : Set} x : keeps (@cthrow A x).
  Proof. intros c H. exact H. Qed.
  Lemma k_mod f : (forall c, wfc c -> wfc (f c)) -> keeps (cmod f).
  Proof. intros Hf c H. apply Hf. exact H. Qed.
  Lemma k_put k v : keeps (put_marked sn k v).
  Proof.
    intros c Hc. unfold put_marked, cbind, cget, marked_row. destruct (c_mstate c) as [s|]; [|exact Hc].
    destruct (aget _ _ _) as [r|] eqn:Er; [|exact Hc]. simpl. apply wfc_put; [exact Hc|].
    apply aput_nd; [exact ostr_eqb_spec|]. destruct Hc as [_ Hr]. eapply Hr. eapply aget_in; [apply String.eqb_spec|exact Er].
  Qed.
  Ltac kk := repeat first
    [ apply k_put | apply k_bind; [|intro] | apply k_get | apply k_ret | apply k_throw
    | apply k_mod; intros; first [apply wfc_put; [assumption|constructor] | apply wfc_if; assumption
                                 | eapply wfc_same; [|eassumption]; reflexivity]
    | match goal with |- keeps (if ?b then _ else _) => destruct b
                    | |- keeps (match ?b with _ => _ end) => destruct b end ].
  Lemma k_step o : keeps (cfg_step sn en m o).
  Proof.
    destruct o; simpl; unfold cfg_init, cfg_when, cfg_receives, cfg_ends, cfg_to, cfg_notrans,
      assertNotReservedState, assertNotReservedStateEvent, assertInitStateDefined, assertMarkedStateDefined,
      assertEventNotMapped, assertNoMappingsExistAtEnd; kk.
  Qed.
  Lemma wfc_run os : wfc (cfg_run sn en m os).
  Proof.
    unfold cfg_run. assert (H : wfc cfg0) by (split; [constructor|intros ? ? []]).
    revert H. generalize cfg0. induction os as [|o os IH]; simpl; intros c H; [exact H|].
    apply IH. unfold cfg_exec. apply k_step. exact H.
  Qed.
  Lemma dangling_iff c s : wfc c -> R sn c s -> (cfg_dangling c = true <-> dangling s).
  Proof.
    intros [Hn Hr] HR. unfold cfg_dangling, dangling. rewrite existsb_exists. split.
    - intros ([n r] & Hi & Hx). apply existsb_exists in Hx. destruct Hx as ([e v] & Hi' & Hv). simpl in *.
      destruct v; [discriminate|]. exists n, e. rewrite <- (R_table _ _ _ HR). unfold entry_of.
      rewrite (in_aget _ String.eqb_spec _ _ _ Hn Hi). apply in_aget; auto using ostr_eqb_spec. eauto.
    - intros (n & e & Ht). rewrite <- (R_table _ _ _ HR) in Ht. unfold entry_of in Ht.
      destruct (aget String.eqb n (c_map c)) as [r|] eqn:Er; [|discriminate].
      exists (n, r). split; [eapply aget_in; [apply String.eqb_spec|exact Er]|].
      apply existsb_exists. exists (e, None). split; [|reflexivity]. eapply aget_in; [apply ostr_eqb_spec|exact Ht].
  Qed.
End Cfg.

Section Conf.
  Context (E : env) (w0 : mem) (H0 : init_mem E w0).
  Notation sn := (sname E).
  Notation n0 := (ename E w0).
  (** the specification state of machine m at the beginning *)
  Definition conf0 (m : mid) (s : sstate) : Prop :=
    exists os, m_cfg (machs w0 m) = cfg_run sn (ename0 E) m os /\ history sn (ename0 E) m os s.

  Section Start.
  Context (mm : mid) (s0 : sstate) (Hs0 : conf0 mm s0).
  Notation conf tr := (conf_of sn mm n0 s0 tr).

  Record cinv (m : mid) (c : cfg) (s : sstate) : Prop := {
    ci_R : R sn c s; ci_wf : wfc c; ci_names : names_inv sn m s; ci_open : open_inv sn s;
    ci_ev : ev_inv s; ci_pend : pending_inv sn s;
    ci_init : forall i, initial s = Some i -> known s (sn i) = true }.

  Definition cfg_true (tr1 : trace) (o : obs) : Prop :=
    match o with
    | ORd (RdName e nm) => nm = names_of n0 tr1 e
    | ORd (RdMap m c e r) => m = mm -> rea r = reacts sn (conf tr1) c (names_of n0 tr1 e)
    | ORd (RdFinal m t b) => m = mm -> (b = true <-> final_state sn m (conf tr1) t)
    | ORd (RdHas m s b) => m = mm -> b = known (conf tr1) (sn s)
    | ORd (RdInit m s) => m = mm -> s = initial (conf tr1)
    | ORd (RdMapEmpty m b) => m = mm -> (b = true <-> initial (conf tr1) = None)
    | ORd (RdDangling m b) => m = mm -> (b = true <-> dangling (conf tr1))
    | OWr (WrCfg m o x) => m = mm -> (x = None <-> allowed sn (names_of n0 tr1) o (conf tr1))
    | _ => True
    end.
  Definition cfgs_true (tr : trace) : Prop :=
    forall tr1 t o tr2, tr = tr1 ++ (t, o) :: tr2 -> cfg_true tr1 o.
  Lemma cfgs_snoc tr t o : cfgs_true tr -> cfg_true tr o -> cfgs_true (tr ++ [(t, o)]).
  Proof.
    intros H Ho tr1 t' o' tr2 Heq. apply snoc_split in Heq.
    destruct Heq as [(-> & -> & Heq)|(l3 & -> & Heq)]; [injection Heq as <- <-; auto|eapply H; eauto].
  Qed.

  Definition cagree (w : mem) : Prop :=
    (forall e, ename E w e = names_of n0 (tr w) e) /\
    cinv mm (m_cfg (machs w mm)) (conf (tr w)) /\ cfgs_true (tr w).

  (** steps that touch neither names nor configurations *)
  Lemma cagree_log w w' t o :
    cnames w' = cnames w -> (forall m, m_cfg (machs w' m) = m_cfg (machs w m)) ->
    tr w' = tr w ++ [(t, o)] ->
    match o with OWr (WrCopy _ _ _) | OWr (WrCfg _ _ _) => False | _ => True end ->
    cfg_true (tr w) o -> cagree w -> cagree w'.
  Proof.
    intros Hn Hm Ht Ho Hc (H1 & H2 & H3). split; [|split].
    - intro e. rewrite Ht. unfold names_of. rewrite replay_snoc. fold (names_of n0 (tr w)).
      assert (ename E w' e = ename E w e) as -> by (destruct e; simpl; congruence).
      rewrite H1. destruct o as [| | | | | | | | | | | | | | |wr0]; try reflexivity. destruct wr0; try reflexivity. contradiction.
    - rewrite Hm, Ht, conf_snoc.
      destruct o as [| | | | | | | | | | | | | | |wr0]; try apply H2. destruct wr0; try apply H2. contradiction.
    - rewrite Ht. apply cfgs_snoc; assumption.
  Qed.
  Lemma cagree_quiet w w' :
    cnames w' = cnames w -> (forall m, m_cfg (machs w' m) = m_cfg (machs w m)) ->
    tr w' = tr w -> cagree w -> cagree w'.
  Proof.
    intros Hn Hm Ht (H1 & H2 & H3). unfold cagree. rewrite Ht. split; [|split; [|exact H3]].
    - intro e. rewrite <- H1. destruct e; simpl; congruence.
    - rewrite Hm. apply H2.
  Qed.

  Lemma lookup_true m c s st (e : eid) (en : eid -> string) : cinv m c s ->
    rea (cfg_lookup sn en st e c) = reacts sn s st (en e).
  Proof.
    intros [HR]. destruct st as [st|]; [|reflexivity]. simpl.
    rewrite <- (R_known _ _ _ HR), <- (R_table _ _ _ HR). unfold entry_of.
    destruct (aget String.eqb (sn st) (c_map c)) as [r|]; [|reflexivity].
    destruct (aget ostr_eqb (Some (en e)) r) as [[t|]|]; reflexivity.
  Qed.
  Lemma final_true m c s t : cinv m c s -> (cfg_ends_at sn t c = true <-> final_state sn m s t).
  Proof.
    intros [HR _ Hn]. unfold cfg_ends_at, final_state.
    rewrite <- (R_known _ _ _ HR), <- (R_table _ _ _ HR). unfold entry_of.
    destruct (aget String.eqb (sn t) (c_map c)) as [r|] eqn:Er; [|intuition].
    change nm_imm with "_immediate_".
    destruct (aget ostr_eqb (Some "_immediate_") r) as [[x|]|] eqn:Ex.
    - assert (x = SEnd m) as ->.
      { destruct (Hn (sn t) (Some "_immediate_") x) as (_ & _ & Hx); [|auto].
        rewrite <- (R_table _ _ _ HR). unfold entry_of. rewrite Er. exact Ex. }
      simpl. split; [auto|]. intros _. reflexivity.
    - split; [discriminate|]. intros [?|?]; discriminate.
    - split; [discriminate|]. intros [?|?]; discriminate.
  Qed.
  Lemma empty_true m c s : cinv m c s ->
    ((match c_map c with [] => true | _ => false end) = true <-> initial s = None).
  Proof.
    intros [HR _ _ _ _ _ Hi]. split.
    - destruct (c_map c) eqn:Em; [|discriminate]. intros _.
      destruct (initial s) as [i|] eqn:Ei; [|reflexivity]. specialize (Hi i eq_refl).
      rewrite <- (R_known _ _ _ HR), Em in Hi. discriminate.
    - intro Hn. destruct (R_noinit _ _ _ HR Hn) as [_ ->]. reflexivity.
  Qed.

  Lemma cinv_step en m c s o : cinv m c s ->
    (allowed sn en o s -> exists c', cfg_step sn en m o c = (c', Ok tt) /\ cinv m c' (effect sn en m o s)) /\
    (~ allowed sn en o s -> exists x, cfg_step sn en m o c = (c, Err x)).
  Proof.
    intros [HR Hw Hn Ho He Hp Hi]. destruct (step_refines sn en m c s o HR) as [Ha Hno]. split; [|exact Hno].
    intro A. destruct (Ha A) as (c' & Hs & HR'). exists c'. split; [exact Hs|].
    pose proof (R_noev _ _ _ HR) as Hv. pose proof (fun X => proj1 (R_noinit _ _ _ HR X)) as Hc.
    destruct (names_effect sn en m o s A Hn Ho He Hv Hc) as (? & ? & ?).
    split; auto.
    - pose proof (k_step sn en m o c Hw) as Hk. rewrite Hs in Hk. exact Hk.
    - apply pending_effect; auto.
    - destruct o; simpl in A |- *; intros i Hx; auto.
      + injection Hx as <-. rewrite String.eqb_refl. reflexivity.
      + rewrite (Hi _ Hx), orb_true_r. reflexivity.
  Qed.

  Lemma ename_ext en en' o s m c : (forall e, en e = en' e) ->
    cfg_step sn en m o c = cfg_step sn en' m o c /\ effect sn en m o s = effect sn en' m o s /\
    (allowed sn en o s <-> allowed sn en' o s).
  Proof.
    intro H. destruct o; simpl; try (split; [reflexivity|split; [reflexivity|reflexivity]]).
    unfold cfg_receives, assertNotReservedStateEvent. rewrite H. split; [reflexivity|split; reflexivity].
  Qed.

  Lemma conf_exec w t i v w' : plain i -> cagree w -> exec E w t i = Some (v, w') -> cagree w'.
  Proof.
    intros Hp Ha Hx. pose proof Ha as (H1 & H2 & H3).
    destruct i; simpl in Hx;
      lazymatch type of Hp with
          | plain (ICfg _ _) => idtac
          | plain (INewCopy _ _) => idtac
          | _ => repeat match type of Hx with
             | (if ?b then _ else _) = _ => destruct b eqn:?
             | match ?b with _ => _ end = _ => destruct b eqn:?
             end; try discriminate; injection Hx as <- <-;
             try (match goal with |- context [match pairs w ?p with _ => _ end] => destruct (pairs w p) as [[? ?]|] end);
             try (match goal with b : bool |- context [if ?b then OEnded _ else _] => destruct b end);
             try exact Ha;
             try solve [apply (cagree_quiet w); try reflexivity; try exact Ha;
               intro m'; simpl; unfold upd; destruct (Nat.eqb_spec m' m); subst; reflexivity];
             try (eapply (cagree_log w); try reflexivity; try exact Ha; try exact I)
          end;
      try (intro m'; simpl; unfold upd; destruct (Nat.eqb_spec m' m); subst; reflexivity).
    - simpl. intros ->. apply H2.
    - simpl. intros ->. eapply empty_true. apply H2.
    - simpl. intros ->. apply dangling_iff with (sn := sn); apply H2.
    - simpl. intros ->. destruct H2 as [HR]. unfold cfg_has. apply (R_known _ _ _ HR).
    - simpl. intros ->. rewrite <- H1. eapply lookup_true. apply H2.
    - simpl. intros ->. eapply final_true. apply H2.
    - (* ICfg *)
      destruct (Nat.eq_dec m mm) as [->|Nm].
      2: { destruct (cfg_step sn (ename E w) m o (m_cfg (machs w m))) as [c' r]. injection Hx as <- <-. split; [|split].
        - intro e. simpl. unfold names_of. rewrite replay_snoc. fold (names_of n0 (tr w)).
          rewrite <- H1. destruct e; reflexivity.
        - simpl. unfold upd. rewrite conf_snoc. destruct (Nat.eqb_spec mm m); [congruence|].
          destruct (Nat.eqb_spec m mm); [congruence|]. destruct r; exact H2.
        - simpl. apply cfgs_snoc; [exact H3|]. simpl. congruence. }
      destruct (ename_ext (ename E w) (names_of n0 (tr w)) o (conf (tr w)) mm (m_cfg (machs w mm)) H1) as (Hs & He & Hal).
      destruct (cinv_step (ename E w) mm _ _ o H2) as [Hok Hno].
      destruct (cfg_step sn (ename E w) mm o (m_cfg (machs w mm))) as [c' r] eqn:Ec.
      injection Hx as <- <-.
      assert (Hr : (allowed sn (ename E w) o (conf (tr w)) /\ r = Ok tt /\ cinv mm c' (effect sn (ename E w) mm o (conf (tr w)))) \/
                   (~ allowed sn (ename E w) o (conf (tr w)) /\ exists x, r = Err x /\ c' = m_cfg (machs w mm))).
      { destruct (allowed_dec sn (ename E w) (m_cfg (machs w mm)) (conf (tr w)) o (ci_R _ _ _ H2)) as [A|A].
        - left. destruct (Hok A) as (c1 & Heq & Hc). injection Heq as -> ->. auto.
        - right. destruct (Hno A) as (x & Heq). injection Heq as -> ->. eauto. }
      split; [|split].
      + intro e. simpl. unfold names_of. rewrite replay_snoc. fold (names_of n0 (tr w)).
        rewrite <- H1. destruct e; reflexivity.
      + simpl. unfold upd. rewrite conf_snoc, !Nat.eqb_refl. simpl.
        destruct Hr as [(_ & -> & Hc)|(_ & x & -> & ->)]; [rewrite <- He; exact Hc|exact H2].
      + simpl. apply cfgs_snoc; [exact H3|]. simpl. intros _. rewrite <- Hal.
        destruct Hr as [(A & -> & _)|(A & x & -> & _)]; split; auto; try discriminate. contradiction.
    - simpl. apply H1.
    - (* INewCopy *)
      injection Hx as <- <-.
      split; [|split].
      + intro e. simpl. unfold names_of. rewrite replay_snoc. fold (names_of n0 (tr w)).
        unfold eid_eqb. destruct (eid_eq_dec e (ECopy (ncopy w))) as [->|N]; simpl.
        * unfold upd. rewrite Nat.eqb_refl. reflexivity.
        * rewrite <- H1. destruct e; simpl; try reflexivity. unfold upd.
          destruct (Nat.eqb_spec n (ncopy w)); congruence.
      + simpl. rewrite conf_snoc. apply H2.
      + simpl. apply cfgs_snoc; [exact H3|exact I].
    - destruct o; try contradiction; exact I.
    - destruct o; try contradiction; exact I.
  Qed.

  Theorem conf_truth w : reach E w0 w -> cagree (wm w).
  Proof.
    apply (mem_inv E cagree).
    - intros. eapply conf_exec; eauto.
    - intros w1 x tk r _ H. apply (cagree_quiet w1); auto.
    - intros w1 t tk e H. apply (cagree_log w1 _ t (OUncaught tk e)); auto; exact I.
    - split; [|split].
      + intro e. rewrite (im_tr _ _ H0). reflexivity.
      + rewrite (im_tr _ _ H0). change (conf []) with s0.
        destruct Hs0 as (os & -> & Hh).
        destruct (history_R _ _ _ _ _ Hh) as (HR & Hp & Hn & Ho & He).
        split; auto; [apply wfc_run|]. clear - Hh. induction Hh; auto.
        * discriminate.
        * destruct o; simpl; intros i Hx; auto.
          -- injection Hx as <-. rewrite String.eqb_refl. reflexivity.
          -- rewrite (IHHh _ Hx), orb_true_r. reflexivity.
      + rewrite (im_tr _ _ H0). intros tr1 t o tr2 H. destruct tr1; discriminate.
  Qed.
End Start.
End Conf.
