(** * ExactProofs.v: processing without interference (proofs for C11, C13) *)
From Verif Require Import ExactSpec MemInv Lang Tree Nodes Marks QueueProofs Place Moments Truth FlowProofs ConfTruth StartProofs.

Section Exact.
  Context (E : env) (w0 : mem) (w : world) (H0 : init_mem E w0) (Hr : reach E w0 w).
  Notation T := (tr (wm w)).
  Context (m : mid) (Hpriv : private_queue E m) (Hone : one_thread E m).

  (** marks that change what the processing of m's events depends on *)
  Definition relevant (o : obs) : bool :=
    match o with
    | OState m' _ | OEnded m' | OUnended m' | OWr (WrListener m' _) => Nat.eqb m' m
    | OWr (WrCfg m' _ _) => Nat.eqb m' (table_of E m)
    | OWr (WrActs _ _ _) => true
    | _ => false
    end.
  Notation wkr := (worker_of E m).

  Lemma relevant_plain o : relevant o = true -> closes o = false /\ opens o = None.
  Proof. destruct o; try discriminate; auto. Qed.

  Lemma fire_irrelevant m1 e1 o : mfire E m1 e1 o -> relevant o = false.
  Proof. intro H. dmay; subst; reflexivity. Qed.
  Lemma code_irrelevant c o : mcode E c o -> relevant o = false.
  Proof.
    assert (Ha : forall a e0 m0, mact E a e0 m0 o -> relevant o = false).
    { intros a e0 m0 Ha. destruct a; simpl in Ha;
        repeat match goal with
        | H : mfire _ _ _ _ |- _ => apply fire_irrelevant in H; exact H
        | H : _ \/ _ |- _ => destruct H
        | H : exists _, _ |- _ => destruct H
        | H : _ /\ _ |- _ => destruct H
        | H : mcall _ _ |- _ => unfold mcall in H
        | H : muser _ |- _ => unfold muser in H
        end; subst; try reflexivity; contradiction. }
    intro H. destruct c; simpl in H; try (eapply Ha; exact H);
      try (destruct h); try (destruct u); try (destruct l as [[n|n nm]|n]); simpl in H;
        repeat match goal with
        | H : mfire _ _ _ _ |- _ => apply fire_irrelevant in H; exact H
        | H : _ \/ _ |- _ => destruct H
        | H : exists _, _ |- _ => destruct H
        | H : _ /\ _ |- _ => destruct H
        | H : mcall _ _ |- _ => unfold mcall in H
        | H : muser _ |- _ => unfold muser in H
        | H : mcur _ _ |- _ => unfold mcur in H
        end; subst; try reflexivity; contradiction.
  Qed.
  Lemma api_disturbs h a o : mapi E a o -> relevant o = true ->
    (starts E m a /\ setw m o = true) \/ disturbs E m h a.
  Proof.
    intros H Hrel.
    assert (Hs : forall m', mstart m' o -> m' = m /\ setw m o = true).
    { intros m' Hs. dmay; subst; simpl in Hrel; try discriminate; simpl; rewrite Hrel; apply Nat.eqb_eq in Hrel; auto. }
    assert (Hf : forall m' e', mfire E m' e' o -> False).
    { intros m' e' Hf. apply fire_irrelevant in Hf. congruence. }
    destruct a; simpl in H |- *; auto;
      try (apply Hf in H; contradiction);
      try (apply Hs in H; left; exact H);
      try (right; dmay; subst; simpl in Hrel; try discriminate; apply Nat.eqb_eq in Hrel; auto; fail);
      try (left; dmay; subst; simpl in Hrel; try discriminate; simpl; rewrite Hrel; apply Nat.eqb_eq in Hrel; auto; fail).
  Qed.

  (** a thread processing an event of m is m's only worker *)
  Lemma take_worker h r t p c its : T = h ++ r -> opened t h (FTake (queue_of E m) p c) its ->
    t = wkr /\ exists e, c = Some (e, m).
  Proof.
    intros HT Ho. destruct (reach_prefix E w0 w (im_tr _ _ H0) Hr _ _ HT) as (w1 & Hr1 & <-).
    destruct (isolated E w0 w1 t m p c its H0 Hr1 Hpriv (or_introl Ho)) as (e & -> & (i & ->) & _).
    split; [|eauto]. apply (opened_live E w0 w1 H0 Hr1) in Ho; [|discriminate]. simpl in Ho.
    unfold one_thread in Hone. assert (i = 0) as -> by lia. reflexivity.
  Qed.

  (** where a relevant mark comes from in a calm period *)
  Lemma calm_mark h1 h2 r t o : T = (h1 ++ h2) ++ (t, o) :: r -> calm E m h1 h2 -> relevant o = true ->
    t = wkr /\ exists p e its i, fst (scan t (h1 ++ h2)) = [(FTake (queue_of E m) p (Some (e, m)), its); (FRoot, i)].
  Proof.
    intros HT Hc Hrel. destruct (relevant_plain o Hrel) as [Hcl Hop].
    destruct (placed_at E w0 w H0 Hr _ _ _ _ HT Hcl) as (k & its & u & Hs & Hm).
    destruct k as [|a|c|q p c].
    - exfalso. simpl in Hm. destruct t; simpl in Hm.
      + unfold muser in Hm. dmay; subst; discriminate.
      + destruct o; try contradiction; try discriminate.
    - exfalso. simpl in Hm. destruct (api_disturbs h1 _ _ Hm Hrel) as [[Hst Hw]|Hd].
      { assert (Hno : ~ start_over m h1) by (intro Hov; exact (start_quiet E w0 w H0 Hr m _ _ _ _ _ _ _ _ HT Hov Hs Hst Hw)).
        assert (Hd : disturbs E m h1 a) by (destruct a; simpl in Hst |- *; try contradiction; split; assumption).
        destruct (Hc t _ Hd) as [C1 C2].
        assert (Ho : opened t (h1 ++ h2) (FApi a) its) by (unfold opened; rewrite Hs; left; reflexivity).
        destruct (opened_earlier _ _ _ _ _ Ho ltac:(discriminate)) as [[i Hi]|(op & Hop' & Hin)]; [exact (C2 _ Hi)|].
        destruct op; try discriminate. injection Hop' as ->. exact (C1 Hin). }
      destruct (Hc t _ Hd) as [C1 C2].
      assert (Ho : opened t (h1 ++ h2) (FApi a) its) by (unfold opened; rewrite Hs; left; reflexivity).
      destruct (opened_earlier _ _ _ _ _ Ho ltac:(discriminate)) as [[i Hi]|(op & Hop' & Hin)]; [exact (C2 _ Hi)|].
      destruct op; try discriminate. injection Hop' as ->. exact (C1 Hin).
    - exfalso. simpl in Hm. apply code_irrelevant in Hm. congruence.
    - assert (Ho : opened t (h1 ++ h2) (FTake q p c) its) by (unfold opened; rewrite Hs; left; reflexivity).
      assert (Hq : q = queue_of E m).
      { destruct (reach_prefix E w0 w (im_tr _ _ H0) Hr _ _ HT) as (w1 & Hr1 & Hw1).
        assert (Htk : In (t, OTake q p c) (tr (wm w1))).
        { rewrite Hw1. destruct (opened_inv _ _ _ _ Ho ltac:(discriminate)) as (a & op & b & v & Htr & Hop' & _).
          destruct op; try discriminate. injection Hop' as -> -> ->. rewrite Htr. apply in_or_app. right. left. reflexivity. }
        destruct (taken_accepted E w0 w1 _ _ _ _ H0 Hr1 Htk) as (t' & e0 & e & m' & -> & Hq & _).
        simpl in Hm. destruct Hm as (tm & i & _ & _ & Hm).
        assert (m' = m) as ->.
        { dmay; subst; simpl in Hrel; try discriminate;
            repeat match goal with H : Some _ = Some _ |- _ => injection H as <- <- end;
            apply Nat.eqb_eq in Hrel; auto. }
        exact Hq. }
      subst q. destruct (take_worker _ _ _ _ _ _ HT Ho) as [-> (e & ->)]. split; [reflexivity|].
      destruct (take_on_root E w0 w H0 Hr _ _ _ [] _ _ _ _ _ HT Hs) as (i & ->).
      exists p, e, its, i. exact Hs.
  Qed.

  (** ** Inside one bracket *)
  Section Bracket.
  Context (t : tid) (a : trace) (p : pid) (e : eid) (b : trace) (its : list obs) (z : obs) (d : trace).
  Notation op := (OTake (queue_of E m) p (Some (e, m))).
  Context (Hs : span t T a op b its z d) (Hcalm : calm E m a ((t, op) :: b)).

  Lemma T_pre b1 b2 : b = b1 ++ b2 -> T = (a ++ (t, op) :: b1) ++ b2 ++ (t, z) :: d.
  Proof. intros ->. destruct Hs as [HT _]. rewrite HT. repeat (rewrite <- !app_assoc; simpl). reflexivity. Qed.
  Lemma stack_in b1 b2 : b = b1 ++ b2 -> exists u i1 i2, fst (scan t b1) = u ++ [(FRoot, i1)] /\ its = i1 ++ i2.
  Proof.
    intros ->. destruct Hs as (_ & _ & Hb). apply (root_kept_t t b1 b2 [] its). exact Hb.
  Qed.

  (** relevant marks in the period are those directly inside the bracket *)
  Lemma own_marks b1 : forall b2, b = b1 ++ b2 -> exists u i1, fst (scan t b1) = u ++ [(FRoot, i1)] /\
    filter relevant (map snd b1) = filter relevant i1.
  Proof.
    induction b1 as [|b1 [t' o] IH] using snoc_ind; intros b2 Hb.
    - exists [], []. auto.
    - rewrite <- app_assoc in Hb. simpl in Hb. destruct (IH _ Hb) as (u & i1 & Hst & Hf). clear IH.
      rewrite map_app, filter_app, Hf. simpl.
      destruct (relevant o) eqn:Hrel.
      + pose proof (T_pre _ _ Hb) as HT. rewrite <- app_comm_cons in HT.
        assert (HT' : T = (a ++ (t, op) :: b1) ++ (t', o) :: b2 ++ (t, z) :: d) by exact HT.
        destruct (calm_mark a ((t, op) :: b1) _ t' o HT') as (Ht' & p' & e' & its' & i & Hst'); [|exact Hrel|].
        { intros t1 x Hx. destruct (Hcalm t1 x Hx) as [C1 C2]. split; [|exact C2]. intro Hin. apply C1.
          rewrite Hb. destruct Hin as [Hin|Hin]; [left; exact Hin|right; apply in_or_app; left; exact Hin]. }
        assert (Ht : t = wkr).
        { assert (Ho : opened t (a ++ (t, op) :: b1) (FTake (queue_of E m) p (Some (e, m))) i1).
          { unfold opened. rewrite (stack_at t a op b1 _ u i1 eq_refl Hst). apply in_or_app. right. left. reflexivity. }
          apply (take_worker _ _ _ _ _ _ HT Ho). }
        assert (t' = t) as -> by congruence.
        rewrite (stack_at t a op b1 _ u i1 eq_refl Hst) in Hst'.
        assert (u = []) as ->.
        { destruct u as [|f u]; [reflexivity|]. exfalso. destruct u as [|g u]; [|destruct u; discriminate].
          injection Hst' as _ Hx. discriminate. }
        exists [], (i1 ++ [o]). rewrite scan_snoc, Hst, filter_app. destruct (relevant_plain o Hrel) as [Hcl Hop].
        unfold scan1. rewrite Hcl, Hop. simpl. rewrite Hrel. auto.
      + rewrite app_nil_r. destruct (tid_eq_dec t' t) as [->|N].
        2: { rewrite scan_other by exact N. exists u, i1. auto. }
        destruct (stack_in (b1 ++ [(t, o)]) b2) as (u2 & i2 & i3 & Hst2 & _).
        { rewrite <- app_assoc. exact Hb. }
        exists u2, i2. split; [exact Hst2|].
        rewrite scan_snoc, Hst in Hst2. unfold scan1 in Hst2. destruct (closes o) eqn:Hcl.
        * destruct u as [|[k1 j1] u]; simpl in Hst2; [destruct u2; discriminate|].
          destruct u as [|[k2 j2] u]; simpl in Hst2.
          -- destruct u2 as [|f u2]; [|destruct u2; discriminate]. injection Hst2 as <-.
             rewrite filter_app. simpl. rewrite Hrel, app_nil_r. reflexivity.
          -- rewrite app_comm_cons in Hst2. apply app_inj_tail in Hst2. destruct Hst2 as [_ [= ->]]. reflexivity.
        * destruct (opens o) eqn:Ho.
          -- simpl in Hst2. destruct u as [|[k1 j1] u]; simpl in Hst2.
             ++ change [(f, []); (FRoot, i1 ++ [o])] with ([(f, [] : list obs)] ++ [(FRoot, i1 ++ [o])]) in Hst2.
                apply app_inj_tail in Hst2. destruct Hst2 as [_ [= <-]]. rewrite filter_app. simpl. rewrite Hrel, app_nil_r. reflexivity.
             ++ rewrite !app_comm_cons in Hst2. apply app_inj_tail in Hst2. destruct Hst2 as [_ [= ->]]. reflexivity.
          -- simpl in Hst2. destruct u as [|[k1 j1] u]; simpl in Hst2.
             ++ destruct u2 as [|f u2]; [|destruct u2; discriminate]. injection Hst2 as <-.
                rewrite filter_app. simpl. rewrite Hrel, app_nil_r. reflexivity.
             ++ rewrite app_comm_cons in Hst2. apply app_inj_tail in Hst2. destruct Hst2 as [_ [= ->]]. reflexivity.
  Qed.

  Lemma own_item i1 x i2 : its = i1 ++ x :: i2 -> closes x = false ->
    exists b1 b2, b = b1 ++ (t, x) :: b2 /\ filter relevant (map snd b1) = filter relevant i1 /\
      T = (a ++ (t, op) :: b1) ++ (t, x) :: b2 ++ (t, z) :: d.
  Proof.
    intros Hi Hx. destruct (item_moment w _ _ _ _ _ _ _ _ _ _ Hs Hi Hx) as (b1 & b2 & Hb & Hsc & HT).
    exists b1, b2. split; [exact Hb|]. split; [|exact HT].
    destruct (own_marks b1 _ Hb) as (u & i & Hst & Hf). rewrite Hsc in Hst.
    destruct u as [|f u]; [|destruct u; discriminate]. injection Hst as ->. exact Hf.
  Qed.

  (** replaying a field that only relevant marks change *)
  Definition play {A : Type} (f : A -> obs -> A) (v : A) (l : list obs) : A := fold_left f l v.
  Lemma play_filter {A : Type} (f : A -> obs -> A) l : (forall v o, relevant o = false -> f v o = v) ->
    forall v, play f v l = play f v (filter relevant l).
  Proof.
    intro Hf. induction l as [|o l IH]; intro v; [reflexivity|]. simpl. destruct (relevant o) eqn:Hrel; simpl.
    - apply IH.
    - rewrite Hf by exact Hrel. apply IH.
  Qed.
  Lemma replay_play {A : Type} (f : A -> obs -> A) v h : replay f v h = play f v (map snd h).
  Proof. unfold replay, play. revert v. induction h as [|[t' o] h IH]; intro v; [reflexivity|]. simpl. apply IH. Qed.
  Lemma value_at {A : Type} (f : A -> obs -> A) v b1 i1 : (forall v o, relevant o = false -> f v o = v) ->
    filter relevant (map snd b1) = filter relevant i1 ->
    replay f v (a ++ (t, op) :: b1) = play f (replay f v a) i1.
  Proof.
    intros Hf He. rewrite replay_app. change ((t, op) :: b1) with ([(t, op)] ++ b1). rewrite replay_app.
    rewrite !replay_play. simpl. rewrite Hf by reflexivity.
    rewrite (play_filter f (map snd b1) Hf), He, <- play_filter by exact Hf. reflexivity.
  Qed.

  Definition curf (c : option sid) (o : obs) : option sid :=
    match o with OState m' s => if Nat.eqb m' m then Some s else c | _ => c end.
  Definition endf (v : bool) (o : obs) : bool :=
    match o with OEnded m' => if Nat.eqb m' m then true else v | OUnended m' => if Nat.eqb m' m then false else v | _ => v end.
  Lemma curf_irr v o : relevant o = false -> curf v o = v.
  Proof. destruct o; try reflexivity. simpl. intros ->. reflexivity. Qed.
  Lemma endf_irr v o : relevant o = false -> endf v o = v.
  Proof. destruct o; try reflexivity; simpl; intros ->; reflexivity. Qed.

  (** state of the machine after items i1 *)
  Definition st_after (i1 : list obs) : mstate := (play curf (cur_at m a) i1, play endf (ended_at m a) i1).
  Lemma st_snoc i1 i2 : st_after (i1 ++ i2) = (play curf (fst (st_after i1)) i2, play endf (snd (st_after i1)) i2).
  Proof. unfold st_after, play. rewrite !fold_left_app. reflexivity. Qed.

  Lemma cur_read i1 c i2 : its = i1 ++ R (RdCur m c) :: i2 -> c = fst (st_after i1).
  Proof.
    intro Hi. destruct (own_item _ _ _ Hi eq_refl) as (b1 & b2 & Hb & Hf & HT).
    apply (read_true E w0 w H0 Hr) in HT. simpl in HT. rewrite HT. unfold cur_at, cur_of.
    apply (value_at curf); [exact curf_irr|exact Hf].
  Qed.
  Lemma ended_read i1 c i2 : its = i1 ++ R (RdEnded m c) :: i2 -> c = snd (st_after i1).
  Proof.
    intro Hi. destruct (own_item _ _ _ Hi eq_refl) as (b1 & b2 & Hb & Hf & HT).
    apply (read_true E w0 w H0 Hr) in HT. simpl in HT. rewrite HT. unfold ended_at, ended_of.
    apply (value_at endf); [exact endf_irr|exact Hf].
  Qed.
  Lemma ended_write i1 i2 : its = i1 ++ OEnded m :: i2 -> snd (st_after i1) = false.
  Proof.
    intro Hi. destruct (own_item _ _ _ Hi eq_refl) as (b1 & b2 & Hb & Hf & HT).
    destruct (truth E w0 w (im_tr _ _ H0) Hr) as [_ Ht]. destruct (Ht _ _ _ _ HT) as [Hw _]. simpl in Hw.
    rewrite (im_ended _ _ H0) in Hw. rewrite <- Hw. symmetry. unfold ended_of.
    apply (value_at endf); [exact endf_irr|exact Hf].
  Qed.

  (** fields nobody changes *)
  Lemma its_may : Forall (may E t (FTake (queue_of E m) p (Some (e, m)))) its.
  Proof. eapply node_may. exact (span_node E w0 w H0 Hr _ _ _ _ _ _ _ _ Hs eq_refl). Qed.
  Lemma constant {A : Type} (f : A -> obs -> A) v i1 x i2 b1 :
    its = i1 ++ x :: i2 -> (forall v o, relevant o = false -> f v o = v) ->
    (forall v o, may E t (FTake (queue_of E m) p (Some (e, m))) o -> f v o = v) ->
    filter relevant (map snd b1) = filter relevant i1 ->
    replay f v (a ++ (t, op) :: b1) = replay f v a.
  Proof.
    intros Hi Hf Hm He. rewrite (value_at f v b1 i1 Hf He).
    assert (Hmi : Forall (may E t (FTake (queue_of E m) p (Some (e, m)))) i1).
    { pose proof its_may as H. rewrite Hi in H. apply Forall_app in H. apply H. }
    generalize (replay f v a). clear - Hm Hmi. induction i1 as [|o i1 IH]; intro v; [reflexivity|].
    inversion Hmi; subst. simpl. rewrite Hm by assumption. apply IH. assumption.
  Qed.
  Lemma listener_read i1 c i2 : its = i1 ++ R (RdListener m c) :: i2 -> c = listener_at w0 m a.
  Proof.
    intro Hi. destruct (own_item _ _ _ Hi eq_refl) as (b1 & b2 & Hb & Hf & HT).
    apply (read_true E w0 w H0 Hr) in HT. simpl in HT. rewrite HT. unfold listener_at, listener_of.
    eapply constant; [exact Hi| | |exact Hf].
    - intros v o Ho. destruct o; try reflexivity. destruct w1; try reflexivity. simpl in *. rewrite Ho. reflexivity.
    - intros v o (tm & i & _ & _ & Ho). dmay; subst; reflexivity.
  Qed.
  Lemma acts_read i1 en s c i2 : its = i1 ++ R (RdActs en s c) :: i2 -> c = acts_at w0 en s a.
  Proof.
    intro Hi. destruct (own_item _ _ _ Hi eq_refl) as (b1 & b2 & Hb & Hf & HT).
    apply (read_true E w0 w H0 Hr) in HT. simpl in HT. rewrite HT. unfold acts_at, acts_of.
    eapply constant; [exact Hi| | |exact Hf].
    - intros v o Ho. destruct o; try reflexivity. destruct w1; try reflexivity. discriminate.
    - intros v o (tm & i & _ & _ & Ho). dmay; subst; reflexivity.
  Qed.

  (** the configuration *)
  Lemma conf_const i1 x i2 b1 s : its = i1 ++ x :: i2 -> filter relevant (map snd b1) = filter relevant i1 ->
    conf_at E w0 (table_of E m) a s -> conf_at E w0 (table_of E m) (a ++ (t, op) :: b1) s.
  Proof.
    intros Hi Hf (os & s0 & H1 & H2 & ->). exists os, s0. split; [exact H1|]. split; [exact H2|].
    unfold conf_of, confs_of. rewrite replay_app. generalize (replay (fun (ns : (eid -> string) * sstate) (o : obs) =>
      match o with
      | OWr (WrCopy e nm _) => ((fun e' => if eid_eqb e' e then nm else fst ns e'), snd ns)
      | OWr (WrCfg m' o None) => if Nat.eqb m' (table_of E m) then (fst ns, effect (sname E) (fst ns) (table_of E m) o (snd ns)) else ns
      | _ => ns
      end) (ename E w0, s0) a). intro ns.
    assert (Hn : forall t' m' o', In (t', OWr (WrCfg m' o' None)) ((t, op) :: b1) -> m' <> table_of E m).
    { intros t' m' o' Hin ->. destruct Hin as [Hin|Hin]; [discriminate|].
      assert (Hx : In (OWr (WrCfg (table_of E m) o' None)) (filter relevant i1)).
      { rewrite <- Hf. apply filter_In. split; [|simpl; apply Nat.eqb_refl].
        apply in_map_iff. exists (t', OWr (WrCfg (table_of E m) o' None)). auto. }
      apply filter_In in Hx. destruct Hx as [Hx _]. pose proof its_may as Hm. rewrite Forall_forall in Hm.
      destruct (Hm (OWr (WrCfg (table_of E m) o' None))) as (tm & i & _ & _ & Ho).
      { rewrite Hi. apply in_or_app. auto. }
      dmay; discriminate. }
    revert ns Hn. generalize ((t, op) :: b1). clear. intro l. induction l as [|[t' o] l IH]; intros ns Hn; [reflexivity|].
    unfold replay in *. simpl. rewrite <- IH by (intros; eapply Hn; right; eassumption).
    destruct o; try reflexivity. destruct w; try reflexivity. destruct x; try reflexivity.
    destruct (Nat.eqb_spec m0 (table_of E m)); [|reflexivity].
    exfalso. eapply Hn; [left; reflexivity|assumption].
  Qed.
  Context (conf : sstate) (Hconf : conf_at E w0 (table_of E m) a conf).
  Lemma map_read i1 c to i2 : its = i1 ++ R (RdMap (table_of E m) c e to) :: i2 ->
    exists h, during t a op b h /\ rea to = reacts (sname E) conf c (name_at E w0 e h).
  Proof.
    intro Hi. destruct (own_item _ _ _ Hi eq_refl) as (b1 & b2 & Hb & Hf & HT).
    exists (a ++ (t, op) :: b1). split; [exists b1, ((t, R (RdMap (table_of E m) c e to)) :: b2); auto|].
    destruct (conf_const _ _ _ _ _ Hi Hf Hconf) as (os & s0 & H1 & H2 & ->).
    assert (Hs0 : conf0 E w0 (table_of E m) s0) by (exists os; auto).
    destruct (conf_truth E w0 H0 _ s0 Hs0 w Hr) as (_ & _ & Hk). exact (Hk _ _ _ _ HT eq_refl).
  Qed.
  Lemma final_read i1 s v i2 : its = i1 ++ R (RdFinal (table_of E m) s v) :: i2 ->
    v = true <-> final_state (sname E) (table_of E m) conf s.
  Proof.
    intro Hi. destruct (own_item _ _ _ Hi eq_refl) as (b1 & b2 & Hb & Hf & HT).
    destruct (conf_const _ _ _ _ _ Hi Hf Hconf) as (os & s0 & H1 & H2 & ->).
    assert (Hs0 : conf0 E w0 (table_of E m) s0) by (exists os; auto).
    destruct (conf_truth E w0 H0 _ s0 Hs0 w Hr) as (_ & _ & Hk). exact (Hk _ _ _ _ HT eq_refl).
  Qed.

  (** ** Every part of the processing follows its script *)
  Definition piece (L : lang) (A : tscript) : Prop := forall i1 o i2 x,
    its = i1 ++ o ++ i2 -> L x o -> A (st_after i1) x (shown o) (st_after (i1 ++ o)).
  Lemma piece_ext L (A A' : tscript) : (forall s x out s', A s x out s' -> A' s x out s') -> piece L A -> piece L A'.
  Proof. intros H HL i1 o i2 x Hi Hx. apply H. eapply HL; eauto. Qed.
  Lemma piece_seq L1 L2 (A1 A2 : tscript) : piece L1 A1 -> piece L2 A2 -> piece (seqx L1 L2) (seq A1 A2).
  Proof.
    intros P1 P2 i1 o i2 x Hi [(y & -> & H)|(o1 & o2 & -> & Ha & Hb)].
    - left. exists y. split; [reflexivity|]. eapply P1; eauto.
    - right. exists (st_after (i1 ++ o1)), (shown o1), (shown o2). split; [apply shown_app|]. split.
      + eapply P1; [|exact Ha]. rewrite Hi, <- app_assoc. reflexivity.
      + rewrite app_assoc. eapply P2; [|exact Hb]. rewrite Hi, <- !app_assoc. reflexivity.
  Qed.
  Lemma st_same i1 o : Forall (fun x => relevant x = false) o -> st_after (i1 ++ o) = st_after i1.
  Proof.
    intro H. rewrite st_snoc. destruct (st_after i1) as [c v]. simpl. f_equal.
    - clear v. revert c. induction H as [|x o Hx _ IH]; intro c; [reflexivity|]. simpl. rewrite curf_irr by exact Hx. apply IH.
    - clear c. revert v. induction H as [|x o Hx _ IH]; intro c; [reflexivity|]. simpl. rewrite endf_irr by exact Hx. apply IH.
  Qed.
  Lemma piece_cur (F : option sid -> lang) (A : option sid -> tscript) : (forall c, piece (F c) (A c)) -> piece (curL m F) (fun s => A (fst s) s).
  Proof.
    intros H i1 o i2 x Hi (c & o' & -> & Hx). pose proof (cur_read _ _ _ Hi) as Hc.
    assert (Hi' : its = (i1 ++ [R (RdCur m c)]) ++ o' ++ i2) by (rewrite Hi, <- app_assoc; reflexivity).
    pose proof (H c _ _ _ _ Hi' Hx) as Hp. rewrite st_same in Hp by (fall; reflexivity).
    rewrite <- app_assoc in Hp. simpl in Hp. rewrite <- Hc. exact Hp.
  Qed.
  Lemma piece_some (f : sid -> lang) (g : sid -> tscript) : (forall s, piece (f s) (g s)) ->
    forall c, piece (someL f c) (match c with Some s => g s | None => fun s x out s' => s' = s /\ x = Some XNullPointer /\ out = [] end).
  Proof.
    intros H [s|]; [apply H|]. intros i1 o i2 x Hi [-> ->]. rewrite app_nil_r. auto.
  Qed.
  Lemma piece_notify fin f s : piece (notifyL m fin f e s) (notice m (listener_at w0 m a) e fin f s).
  Proof.
    intros i1 o i2 x Hi H. split.
    { apply st_same. eapply Forall_impl; [|eapply only_notify; exact H]. intros q Hq. dmay; subst; reflexivity. }
    destruct H as [[-> ->]|[(l & -> & ->)|(l0 & l & ->)]].
    - rewrite <- (listener_read _ _ _ Hi). auto.
    - exfalso. pose proof (listener_read i1 (Some l) _ Hi) as L1.
      pose proof (listener_read (i1 ++ [R (RdListener m (Some l))]) None i2) as L2.
      rewrite <- app_assoc in L2. specialize (L2 Hi). congruence.
    - pose proof (listener_read (i1 ++ [R (RdListener m (Some l0))]) (Some l)) as L2.
      rewrite <- (L2 (called (KListen fin l m f e s) x ++ i2)).
      + reflexivity.
      + rewrite <- app_assoc. exact Hi.
  Qed.
  Lemma acted_ok en s n l x o : runL en s e m n l x o -> n = List.length (acts_at w0 en s a) ->
    (forall j1 c j2, o = j1 ++ R (RdActs en s c) :: j2 -> c = acts_at w0 en s a) ->
    acted m e en s l x (shown o).
  Proof.
    intros H Hn Hread. induction H; simpl.
    - exfalso. specialize (Hread [] l' [] eq_refl). congruence.
    - auto.
    - left. eauto.
    - right. exists (shown out). split; [reflexivity|]. apply IHrunL.
      intros j1 c j2 ->. apply (Hread (R (RdActs en s l') :: called (KAct en a0 s e m) None ++ j1) c j2).
      simpl. reflexivity.
  Qed.
  Lemma piece_acts en s : piece (actsL en s e m) (fun s0 x out s1 => s1 = s0 /\ acted m e en s (acts_at w0 en s a) x out).
  Proof.
    intros i1 o i2 x Hi H. split.
    { apply st_same. eapply Forall_impl; [|eapply only_acts; exact H]. intros q Hq. dmay; subst; reflexivity. }
    destruct H as (l & o' & -> & H). rewrite (acts_read _ _ _ _ _ Hi) in H. simpl.
    eapply acted_ok; [exact H|reflexivity|]. intros j1 c j2 ->.
    apply (acts_read (i1 ++ R (RdActs en s l) :: j1) en s c (j2 ++ i2)).
    rewrite Hi. repeat (rewrite <- !app_assoc; simpl). reflexivity.
  Qed.
  Lemma piece_update s : piece (updateL E m s) (move E m s).
  Proof.
    intros i1 o i2 x Hi (-> & H). split; [reflexivity|]. destruct H as [->| ->].
    - rewrite <- (ended_read _ _ _ Hi). rewrite st_same by (fall; reflexivity). auto.
    - change nm_end with "_END_" in *. rewrite st_snoc. destruct (String.eqb (sname E s) "_END_").
      + rewrite (ended_write _ _ Hi). simpl. rewrite Nat.eqb_refl. auto.
      + rewrite <- (ended_read _ _ _ Hi). simpl. rewrite Nat.eqb_refl. rewrite (ended_read _ _ _ Hi). auto.
  Qed.
  Notation ac := (fun en s => acts_at w0 en s a).
  Notation li := (listener_at w0 m a).
  Lemma piece_all en : piece (curL m (someL (fun s => actsL en s e m))) (actions m ac e en).
  Proof.
    eapply piece_ext; [|apply piece_cur; intro c; apply piece_some; intro s; apply piece_acts].
    intros s x out s' H. unfold actions. cbv beta in H. destruct (fst s) as [st|]; exact H.
  Qed.
  Lemma piece_trans s : piece (transL E (table_of E m) e m s)
    (fun s0 => let f := from_state m (fst s0) in
       seq (notice m li e false f s) (seq (actions m ac e false) (seq (move E m s)
      (seq (actions m ac e true) (seq (notice m li e true f s) (closing E m conf s))))) s0).
  Proof.
    unfold transL. apply (piece_cur _ (fun c => let f := from_state m c in
       seq (notice m li e false f s) (seq (actions m ac e false) (seq (move E m s)
      (seq (actions m ac e true) (seq (notice m li e true f s) (closing E m conf s))))))).
    intro c. cbv zeta. change (from_state m c) with (st_or m c).
    apply piece_seq; [apply piece_notify|]. apply piece_seq; [apply piece_all|].
    apply piece_seq; [apply piece_update|]. apply piece_seq; [apply piece_all|].
    apply piece_seq; [apply piece_notify|].
    intros i1 o i2 x Hi (v & o' & -> & H). pose proof (final_read _ _ _ _ Hi) as Hf.
    assert (Hi' : its = (i1 ++ [R (RdFinal (table_of E m) s v)]) ++ o' ++ i2) by (rewrite Hi, <- app_assoc; reflexivity).
    destruct v.
    - left. split; [apply Hf; reflexivity|]. pose proof (piece_update _ _ _ _ _ Hi' H) as Hp.
      rewrite st_same in Hp by (fall; reflexivity). rewrite <- app_assoc in Hp. exact Hp.
    - right. split; [intro Hx; apply Hf in Hx; discriminate|]. destruct H as [-> ->].
      split; [apply st_same; fall; reflexivity|auto].
  Qed.
  Lemma piece_noop s : piece (noopL e m s)
    (fun s0 => let f := from_state m (fst s0) in seq (notice m li e false f s) (notice m li e true f s) s0).
  Proof.
    unfold noopL. intros i1 o i2 x Hi H.
    assert (P : piece (seqx (curL m (fun f => notifyL m false (st_or m f) e s)) (curL m (fun f => notifyL m true (st_or m f) e s)))
       (seq (fun s0 => notice m li e false (from_state m (fst s0)) s s0) (fun s0 => notice m li e true (from_state m (fst s0)) s s0))).
    { apply piece_seq; (apply (piece_cur _ (fun c => notice m li e _ (from_state m c) s)); intro c;
        change (from_state m c) with (st_or m c); apply piece_notify). }
    specialize (P _ _ _ _ Hi H). cbv zeta. destruct P as [(y & -> & P)|(s1 & o1 & o2 & -> & P1 & P2)].
    - left. exists y. auto.
    - right. exists s1, o1, o2. split; [reflexivity|]. split; [exact P1|].
      assert (Heq : s1 = st_after i1) by apply P1. rewrite <- Heq at 1. exact P2.
  Qed.

  Lemma exact_event : exists x h, z = ODone (queue_of E m) p x /\ during t a op b h /\
    event E m li ac conf (handler_of E m) e (name_at E w0 e h) (flow_of E m) (mstate_at m a) x (shown its)
      (mstate_at m (a ++ (t, op) :: b)).
  Proof.
    destruct (take_inv E w0 w H0 Hr _ _ _ _ _ _ _ _ _ _ Hs) as (tm & x & bb & out1 & out2 & y & [Htm _] & Hz & Hi & Hb).
    apply Hpriv in Htm. subst tm.
    assert (Hst : mstate_at m (a ++ (t, op) :: b) = st_after its).
    { destruct (own_marks b [] (eq_sym (app_nil_r b))) as (u & i & Hsb & Hf).
      destruct Hs as (_ & _ & Hsb'). rewrite Hsb' in Hsb. destruct u as [|f u]; [|destruct u; discriminate].
      injection Hsb as <-. unfold mstate_at, st_after. f_equal.
      - unfold cur_at, cur_of. apply (value_at curf); [exact curf_irr|exact Hf].
      - unfold ended_at, ended_of. apply (value_at endf); [exact endf_irr|exact Hf]. }
    assert (Hst0 : mstate_at m a = st_after []) by reflexivity.
    assert (Hsh : shown its = shown out1 ++ shown out2).
    { rewrite Hi. simpl. rewrite !shown_app. simpl. rewrite app_nil_r. reflexivity. }
    assert (He : bb = snd (st_after [])).
    { rewrite (ended_read [R (RdPair p (Some (e, m)))] bb _ Hi). unfold st_after. simpl. reflexivity. }
    assert (Hst1 : forall o, Forall (fun x => relevant x = false) out2 -> out1 = o -> st_after its =
       st_after ([R (RdPair p (Some (e, m))); R (RdEnded m bb)] ++ o)).
    { intros o Ho ->. rewrite Hi. 
      change (R (RdPair p (Some (e, m))) :: R (RdEnded m bb) :: o ++ out2 ++ [OWr (WrGive (s_pool (strat E (strat_of E m))) p)])
        with (([R (RdPair p (Some (e, m))); R (RdEnded m bb)] ++ o) ++ out2 ++ [OWr (WrGive (s_pool (strat E (strat_of E m))) p)]).
      apply st_same. apply Forall_app. split; [exact Ho|fall; reflexivity]. }
    destruct bb.
    - destruct Hb as (-> & -> & -> & ->). exists None, (a ++ [(t, op)]).
      split; [exact Hz|]. split; [exists [], b; auto|].
      exists None, [], []. split; [exact Hsh|]. split; [simpl; auto|].
      rewrite Hst0, Hst. rewrite <- He. split; [reflexivity|]. split; [reflexivity|].
      rewrite (Hst1 []) by (auto; fall). apply (st_same []). fall; reflexivity.
    - destruct Hb as [Hx Hrep].
      assert (Hrep' : reported (flow_of E m) e m y x (shown out2) /\ Forall (fun x => relevant x = false) out2).
      { unfold reported. destruct y as [v|]; [|destruct Hrep as [-> ->]; auto].
        destruct (is_exception v); [rewrite Hrep; split; [reflexivity|fall; reflexivity]|destruct Hrep as [-> ->]; auto]. }
      destruct Hrep' as [Hrep' Hirr]. rewrite (Hst1 out1 Hirr eq_refl) in Hst. clear Hst1.
      destruct Hx as (c & o1 & -> & to & o2 & -> & Hx).
      pose proof (cur_read [R (RdPair p (Some (e, m))); R (RdEnded m false)] c _ Hi) as Hc.
      destruct (map_read [R (RdPair p (Some (e, m))); R (RdEnded m false); R (RdCur m c)] c to
        (o2 ++ out2 ++ [OWr (WrGive (s_pool (strat E (strat_of E m))) p)]) Hi) as (h & Hd & Hre).
      exists x, h. split; [exact Hz|]. split; [exact Hd|].
      exists y, (shown o2), (shown out2). split; [exact Hsh|]. split; [exact Hrep'|].
      rewrite Hst0, <- He.
      change (st_after [R (RdPair p (Some (e, m))); R (RdEnded m false)]) with (st_after []) in Hc.
      rewrite <- Hc, <- Hre.
      assert (Hi' : its = [R (RdPair p (Some (e, m))); R (RdEnded m false); R (RdCur m c); R (RdMap (table_of E m) c e to)] ++ o2 ++
        (out2 ++ [OWr (WrGive (s_pool (strat E (strat_of E m))) p)])).
      { rewrite Hi. reflexivity. }
      assert (Hst2 : forall A : tscript, A (st_after [R (RdPair p (Some (e, m))); R (RdEnded m false); R (RdCur m c); R (RdMap (table_of E m) c e to)])
         y (shown o2) (st_after ([R (RdPair p (Some (e, m))); R (RdEnded m false); R (RdCur m c); R (RdMap (table_of E m) c e to)] ++ o2)) ->
         A (st_after []) y (shown o2) (mstate_at m (a ++ (t, op) :: b))).
      { intros A HA. rewrite Hst. exact HA. }
      unfold react. destruct to as [[s|]|]; simpl rea; cbv iota.
      + change nm_noop with "_NOOP_" in Hx. rewrite (String.eqb_sym (sname E s)). destruct (String.eqb "_NOOP_" (sname E s)).
        * apply Hst2. exact (piece_noop s _ _ _ _ Hi' Hx).
        * apply Hst2. exact (piece_trans s _ _ _ _ Hi' Hx).
      + rewrite Hst. split; [|rewrite Hx; reflexivity].
        rewrite Hx. apply (st_same []). simpl. fall; reflexivity.
      + destruct Hx as [-> ->]. rewrite Hst. split; [apply (st_same []); fall; reflexivity|]. auto.
  Qed.
End Bracket.

  (** ** Several events *)
  Lemma mstate_irr h t o : relevant o = false -> mstate_at m (h ++ [(t, o)]) = mstate_at m h.
  Proof.
    intro H. unfold mstate_at, cur_at, ended_at, cur_of, ended_of. rewrite !replay_app.
    unfold replay. simpl. f_equal; [exact (curf_irr _ _ H)|exact (endf_irr _ _ H)].
  Qed.
  Lemma calm_prefix h r1 r2 : calm E m h (r1 ++ r2) -> calm E m h r1.
  Proof. intros H t x Hx. destruct (H t x Hx) as [C1 C2]. split; [|exact C2]. intro Hi. apply C1. apply in_or_app. auto. Qed.
  Lemma calm_suffix h r1 r2 : calm E m h (r1 ++ r2) -> calm E m (h ++ r1) r2.
  Proof.
    intros H t x Hx.
    assert (Hx' : disturbs E m h x).
    { destruct x; simpl in Hx |- *; try exact Hx; destruct Hx as [Hx Hn]; (split; [exact Hx|]); intro Ho; apply Hn; apply over_later; exact Ho. }
    destruct (H t x Hx') as [C1 C2]. split; [intro Hi; apply C1; apply in_or_app; auto|].
    intros its Ho. destruct (opened_earlier _ _ _ _ _ Ho ltac:(discriminate)) as [[i Hi]|(op & Hop & Hin)]; [exact (C2 _ Hi)|].
    destruct op; try discriminate. injection Hop as ->. apply C1. apply in_or_app. auto.
  Qed.
  Lemma completed_other t h o : t <> wkr -> completed (queue_of E m) wkr (h ++ [(t, o)]) = completed (queue_of E m) wkr h.
  Proof. intro N. unfold completed. rewrite scan_other by exact N. reflexivity. Qed.
  Lemma scan_snoc2 t h o : scan t (h ++ [(t, o)]) = scan1 (scan t h) o.
  Proof. rewrite !scan_eq. unfold scanl. rewrite thread_obs_app, thread_obs_one, tid_eqb_refl, fold_left_app. reflexivity. Qed.
  Lemma taken_snoc q h t o : taken q (h ++ [(t, o)]) = taken q h ++
    match o with OTake q' p c => if Nat.eqb q' q then [(p, c)] else [] | _ => [] end.
  Proof. unfold taken. rewrite flat_map_app. simpl. rewrite app_nil_r. reflexivity. Qed.
  (** a mark other than the end of a processing completes none *)
  Lemma completed_same t h o : (forall q p c its u, fst (scan t h) = (FTake q p c, its) :: u -> closes o = true -> q <> queue_of E m) ->
    completed (queue_of E m) wkr (h ++ [(t, o)]) = completed (queue_of E m) wkr h.
  Proof.
    intro H. destruct (tid_eq_dec t wkr) as [->|N]; [|apply completed_other; exact N].
    unfold completed. rewrite scan_snoc2. destruct (scan wkr h) as [st ns]. unfold scan1. simpl in *.
    destruct (closes o) eqn:Ec; [|destruct (opens o); reflexivity].
    destruct st as [|[k its] u]; [reflexivity|]. simpl. rewrite filter_app. simpl.
    destruct k; try (rewrite app_nil_r; reflexivity). destruct (Nat.eqb_spec q (queue_of E m)) as [->|]; [|rewrite app_nil_r; reflexivity].
    exfalso. eapply H; reflexivity.
  Qed.

  Section Many.
  Context (h : trace) (conf : sstate) (Hconf : conf_at E w0 (table_of E m) h conf).
  Notation q := (queue_of E m).
  Definition names (r : trace) (e : eid) (n : string) : Prop := exists h', upto h' (h ++ r) /\
    (exists t p, In (t, OTake q p (Some (e, m))) h') /\ n = name_at E w0 e h'.
  Notation AR r := (arun E m (listener_at w0 m h) (fun en s => acts_at w0 en s h) conf (names r)).
  (** constant while calm *)
  Lemma relevant_const r d : T = (h ++ r) ++ d -> calm E m h r ->
    forall t o, In (t, o) r -> relevant o = true -> exists s, o = OState m s \/ o = OEnded m.
  Proof.
    intros HT Hc t o Hi Hrel. apply in_split in Hi. destruct Hi as (r1 & r2 & ->).
    assert (HT' : T = (h ++ r1) ++ (t, o) :: r2 ++ d) by (rewrite HT; repeat (rewrite <- !app_assoc; simpl); reflexivity).
    destruct (calm_mark h r1 _ t o HT' (calm_prefix _ _ _ Hc) Hrel) as (-> & p & e & its & i & Hst).
    destruct (relevant_plain o Hrel) as [Hcl _].
    destruct (placed_at E w0 w H0 Hr _ _ _ _ HT' Hcl) as (k & its' & u & Hs' & Hm).
    rewrite Hst in Hs'. injection Hs' as <- <- <-. destruct Hm as (tm & i' & _ & _ & Ho). exists (match o with OState _ s => s | _ => SNone m end).
    dmay; subst; simpl in Hrel; try discriminate;
      repeat match goal with H : Some _ = Some _ |- _ => injection H as <- <- end; auto.
  Qed.
  Lemma value_const {A : Type} (f : A -> obs -> A) v r d : T = (h ++ r) ++ d -> calm E m h r ->
    (forall v o, relevant o = false -> f v o = v) -> (forall v s, f v (OState m s) = v) -> (forall v, f v (OEnded m) = v) ->
    replay f v (h ++ r) = replay f v h.
  Proof.
    intros HT Hc Hf H1 H2. rewrite replay_app. pose proof (relevant_const r d HT Hc) as Hrc.
    generalize (replay f v h). clear - Hf H1 H2 Hrc. unfold replay.
    induction r as [|[t o] r IH]; intro v; [reflexivity|]. simpl.
    assert (f v o = v) as ->.
    { destruct (relevant o) eqn:Hrel; [|auto]. destruct (Hrc t o (or_introl eq_refl) Hrel) as [s [->| ->]]; auto. }
    apply IH. intros t' o' Hi. apply (Hrc t'). right. exact Hi.
  Qed.
  Lemma listener_const r d : T = (h ++ r) ++ d -> calm E m h r -> listener_at w0 m (h ++ r) = listener_at w0 m h.
  Proof.
    intros HT Hc. unfold listener_at, listener_of. eapply value_const; eauto.
    intros v o Ho. destruct o; try reflexivity. destruct w1; try reflexivity. simpl in *. rewrite Ho. reflexivity.
  Qed.
  Lemma acts_const r d en s : T = (h ++ r) ++ d -> calm E m h r -> acts_at w0 en s (h ++ r) = acts_at w0 en s h.
  Proof.
    intros HT Hc. unfold acts_at, acts_of. eapply value_const; eauto.
    intros v o Ho. destruct o; try reflexivity. destruct w1; try reflexivity. discriminate.
  Qed.
  Lemma conf_const_many r d : T = (h ++ r) ++ d -> calm E m h r -> conf_at E w0 (table_of E m) (h ++ r) conf.
  Proof.
    intros HT Hc. destruct Hconf as (os & s0 & H1 & H2 & ->). exists os, s0. split; [exact H1|]. split; [exact H2|].
    unfold conf_of, confs_of. rewrite replay_app. generalize (replay (fun (ns : (eid -> string) * sstate) (o : obs) =>
      match o with
      | OWr (WrCopy e nm _) => ((fun e' => if eid_eqb e' e then nm else fst ns e'), snd ns)
      | OWr (WrCfg m' o None) => if Nat.eqb m' (table_of E m) then (fst ns, effect (sname E) (fst ns) (table_of E m) o (snd ns)) else ns
      | _ => ns
      end) (ename E w0, s0) h). intro ns.
    assert (Hn : forall t' m' o', In (t', OWr (WrCfg m' o' None)) r -> m' <> table_of E m).
    { intros t' m' o' Hin ->. destruct (relevant_const r d HT Hc _ _ Hin) as [s [Hx|Hx]]; try discriminate.
      simpl. apply Nat.eqb_refl. }
    clear - Hn. revert ns Hn. induction r as [|[t' o] l IH]; intros ns Hn; [reflexivity|].
    unfold replay in *. simpl. rewrite <- IH by (intros; eapply Hn; right; eassumption).
    destruct o; try reflexivity. destruct w; try reflexivity. destruct x; try reflexivity.
    destruct (Nat.eqb_spec m0 (table_of E m)); [|reflexivity].
    exfalso. eapply Hn; [left; reflexivity|assumption].
  Qed.

  Lemma arun_names r r' s ns s' : (forall e n, names r e n -> names r' e n) -> AR r s ns s' -> AR r' s ns s'.
  Proof. intros H Ha. induction Ha; econstructor; eauto. Qed.

  Lemma seq_impl (A B A' B' : tscript) s x out s' : (forall s x out s', A s x out s' -> A' s x out s') ->
    (forall s x out s', B s x out s' -> B' s x out s') -> seq A B s x out s' -> seq A' B' s x out s'.
  Proof. intros H1 H2 [(y & Hy & H)|(s1 & o1 & o2 & Ho & Ha & Hb)]; [left; eauto|right; exists s1, o1, o2; auto]. Qed.
  Lemma event_acts ac ac' l cf hd e n u s x out s' : (forall en s, ac en s = ac' en s) ->
    event E m l ac cf hd e n u s x out s' -> event E m l ac' cf hd e n u s x out s'.
  Proof.
    intros Hac (y & P & Rep & Ho & Hrp & H). exists y, P, Rep. split; [exact Ho|]. split; [exact Hrp|].
    destruct (snd s); [exact H|]. unfold react in *. destruct (reacts _ _ _ _); auto.
    destruct (String.eqb _ _); [exact H|].
    assert (Ha : forall en s x out s', actions m ac e en s x out s' -> actions m ac' e en s x out s').
    { intros en s1 x1 o1 s2 [Hx Hy]. split; [exact Hx|]. destruct (fst s1); [|exact Hy]. rewrite <- Hac. exact Hy. }
    revert H. repeat (apply seq_impl; [solve [auto]|intros ????]). auto.
  Qed.
  Lemma root_kept_snoc t b o u k j its : closes o = true -> fst (scan t b) = ((k, j) :: u) ++ [(FRoot, its)] ->
    exists u' its', fst (scan t (b ++ [(t, o)])) = u' ++ [(FRoot, its')].
  Proof.
    intros Hc Hs. rewrite scan_snoc, Hs. unfold scan1. rewrite Hc. simpl. destruct u as [|[k1 j1] u]; simpl.
    - exists [], (its ++ [o]). reflexivity.
    - exists ((k1, j1 ++ [o]) :: u), its. reflexivity.
  Qed.
  Lemma root_kept_open t b o u its : closes o = false -> fst (scan t b) = u ++ [(FRoot, its)] ->
    exists u' its', fst (scan t (b ++ [(t, o)])) = u' ++ [(FRoot, its')].
  Proof.
    intros Hc Hs. rewrite scan_snoc, Hs. unfold scan1. rewrite Hc.
    assert (H : exists u' its', add_item o (u ++ [(FRoot, its)]) = u' ++ [(FRoot, its')]).
    { destruct u as [|[k1 j1] u]; simpl; [exists [], (its ++ [o])|exists ((k1, j1 ++ [o]) :: u), its]; reflexivity. }
    destruct H as (u' & its' & H). destruct (opens o); simpl; rewrite H; [|eauto].
    exists ((f, []) :: u'), its'. reflexivity.
  Qed.

  Definition between (r : trace) : Prop :=
    exists new s, completed q wkr (h ++ r) = completed q wkr h ++ new /\ AR r (mstate_at m h) new s /\
     ((rests q wkr (h ++ r) /\ mstate_at m (h ++ r) = s /\ taken q (h ++ r) = taken q h ++ map event_of new) \/
      (exists a p e b u its, r = a ++ (wkr, OTake q p (Some (e, m))) :: b /\
          fst (scan wkr b) = u ++ [(FRoot, its)] /\ mstate_at m (h ++ a) = s /\
          taken q (h ++ r) = taken q h ++ map event_of new ++ [(p, Some (e, m))])).

  Lemma many r : forall d, T = (h ++ r) ++ d -> calm E m h r -> rests q wkr h -> between r.
  Proof.
    induction r as [|r [t o] IH] using snoc_ind; intros d HT Hc Hrest.
    - exists [], (mstate_at m h). rewrite !app_nil_r. split; [reflexivity|]. split; [constructor|].
      left. split; [exact Hrest|]. auto using app_nil_r.
    - assert (HT1 : T = (h ++ r) ++ (t, o) :: d) by (rewrite HT; repeat (rewrite <- !app_assoc; simpl); reflexivity).
      pose proof (calm_prefix _ _ _ Hc) as Hc1.
      destruct (IH _ HT1 Hc1 Hrest) as (new & s & Hcomp & Har & Hcase). clear IH.
      assert (Har' : AR (r ++ [(t, o)]) (mstate_at m h) new s).
      { eapply arun_names; [|exact Har]. intros e n (h' & [x Hx] & Ht & ->). exists h'. split; [|split; [exact Ht|reflexivity]].
        exists (x ++ [(t, o)]). rewrite app_assoc, Hx, <- app_assoc. reflexivity. }
      assert (HTs : T = (h ++ r ++ [(t, o)]) ++ d) by exact HT.
      destruct Hcase as [(Hi & Hst & Htk)|(a & p & e & b & u & its & -> & Hsb & Hst & Htk)].
      + assert (Hrel : relevant o = false).
        { destruct (relevant o) eqn:Hrel; [|reflexivity]. exfalso.
          destruct (calm_mark _ _ _ _ _ HT1 Hc1 Hrel) as (-> & p & e & its & i & Hs).
          eapply (Hi p (Some (e, m)) its). unfold opened. rewrite Hs. left. reflexivity. }
        assert (Hcs : completed q wkr (h ++ r ++ [(t, o)]) = completed q wkr h ++ new).
        { rewrite app_assoc. destruct (tid_eq_dec t wkr) as [->|N]; [|rewrite completed_other by exact N; exact Hcomp].
          rewrite completed_same; [exact Hcomp|]. intros q' p c its u Hs _ ->.
          eapply (Hi p c its). unfold opened. rewrite Hs. left. reflexivity. }
        exists new, s. split; [exact Hcs|]. split; [exact Har'|].
        destruct (match o with OTake q' _ _ => Nat.eqb q' q | _ => false end) eqn:Eq.
        * right. destruct o; try discriminate. apply Nat.eqb_eq in Eq; subst.
          assert (Ho : opened t (h ++ r ++ [(t, OTake q p c)]) (FTake q p c) []).
          { unfold opened. rewrite app_assoc, scan_snoc. left. reflexivity. }
          destruct (take_worker _ _ _ _ _ _ HTs Ho) as [-> (e & ->)].
          exists r, p, e, [], [], []. split; [reflexivity|]. split; [reflexivity|]. split; [reflexivity|].
          rewrite app_assoc, taken_snoc, Htk, Nat.eqb_refl, <- app_assoc. reflexivity.
        * left. split; [|split].
          -- intros p c its Ho. destruct (tid_eq_dec t wkr) as [->|N].
             2: { unfold opened in Ho. rewrite app_assoc, scan_other in Ho by exact N. exact (Hi _ _ _ Ho). }
             assert (Ho2 : opened wkr ((h ++ r) ++ [(wkr, o)]) (FTake q p c) its) by (rewrite <- app_assoc; exact Ho).
             destruct (opened_earlier _ _ _ _ _ Ho2 ltac:(discriminate)) as [[i Hi']|(op & Hop & Hin)]; [exact (Hi _ _ _ Hi')|].
             destruct Hin as [Hin|[]]. injection Hin as ->. destruct op; try discriminate. injection Hop as -> -> ->.
             rewrite Nat.eqb_refl in Eq. discriminate.
          -- rewrite app_assoc, mstate_irr by exact Hrel. exact Hst.
          -- rewrite app_assoc, taken_snoc, Htk. destruct o; try apply app_nil_r. rewrite Eq. apply app_nil_r.
      + (* an event is being processed *)
        set (op := OTake q p (Some (e, m))) in *.
        assert (Hsk : fst (scan wkr (h ++ a ++ (wkr, op) :: b)) = u ++ (FTake q p (Some (e, m)), its) :: add_item op (fst (scan wkr (h ++ a)))).
        { rewrite app_assoc. apply (stack_at wkr (h ++ a) op b _ u its eq_refl Hsb). }
        assert (Hop : opened wkr (h ++ a ++ (wkr, op) :: b) (FTake q p (Some (e, m))) its).
        { unfold opened. rewrite Hsk. apply in_or_app. right. left. reflexivity. }
        assert (Hnt : match o with OTake q' _ _ => Nat.eqb q' q | _ => false end = false).
        { destruct o; try reflexivity. match goal with |- Nat.eqb ?x _ = _ => destruct (Nat.eqb_spec x (queue_of E m)) as [->|] end; [exfalso|reflexivity].
          assert (Ho : opened t (h ++ (a ++ (wkr, op) :: b) ++ [(t, OTake q p0 c)]) (FTake q p0 c) []).
          { unfold opened. rewrite app_assoc, scan_snoc. left. reflexivity. }
          destruct (take_worker _ _ _ _ _ _ HTs Ho) as [-> (e0 & ->)].
          destruct (placed_at E w0 w H0 Hr _ _ _ _ HT1 eq_refl) as (k & i & u1 & Hs1 & Hm).
          apply may_take in Hm. subst k. rewrite Hsk in Hs1.
          destruct u as [|f u]; [discriminate|]. simpl in Hs1. injection Hs1 as -> <-.
          rewrite scan_eq in Hsk. change ((FRoot, i) :: u) with ([] ++ (FRoot, i) :: u) in Hsk. rewrite <- app_assoc in Hsk.
          apply root_bottom in Hsk. destruct Hsk as [Hx _]. destruct u; discriminate. }
        assert (Htk' : taken q (h ++ (a ++ (wkr, op) :: b) ++ [(t, o)]) = taken q h ++ map event_of new ++ [(p, Some (e, m))]).
        { rewrite app_assoc, taken_snoc, Htk. destruct o; try apply app_nil_r. rewrite Hnt. apply app_nil_r. }
        destruct (tid_eq_dec t wkr) as [->|N].
        2: { exists new, s. split; [rewrite app_assoc, completed_other by exact N; exact Hcomp|]. split; [exact Har'|].
             right. exists a, p, e, (b ++ [(t, o)]), u, its. split; [rewrite <- app_assoc; reflexivity|].
             split; [rewrite scan_other by exact N; exact Hsb|]. split; [exact Hst|exact Htk']. }
        destruct (closes o) eqn:Ecl; [destruct u as [|[k1 j1] u]|].
        * (* the processing ends *)
          assert (Hsp : span wkr T (h ++ a) op b its o d).
          { split; [|split; [exact Ecl|exact Hsb]]. rewrite HT1. repeat (rewrite <- !app_assoc; simpl). reflexivity. }
          assert (HTa : T = (h ++ a) ++ (wkr, op) :: b ++ (wkr, o) :: d) by apply Hsp.
          assert (Hca : calm E m h a) by (eapply calm_prefix; exact Hc1).
          destruct (exact_event wkr (h ++ a) p e b its o d Hsp) with (conf := conf) as (x & h' & -> & Hd & Hev).
          { eapply calm_suffix. exact Hc1. }
          { eapply conf_const_many; eassumption. }
          exists (new ++ [(FTake q p (Some (e, m)), its, ODone q p x)]), (mstate_at m ((h ++ a) ++ (wkr, op) :: b)).
          split; [|split].
          -- rewrite app_assoc. unfold completed. rewrite scan_snoc2.
             unfold completed in Hcomp. destruct (scan wkr (h ++ a ++ (wkr, op) :: b)) as [st ns]. simpl in Hsk. subst st.
             simpl in Hcomp |- *. rewrite filter_app. simpl. rewrite Nat.eqb_refl, Hcomp, app_assoc. reflexivity.
          -- econstructor; [rewrite <- Hst in Har'; exact Har'| |].
             ++ exists h'. split; [|split; [|reflexivity]]; destruct Hd as (b1 & b2 & -> & ->).
                2: { exists wkr, p. apply in_or_app. right. left. reflexivity. }
                exists (b2 ++ [(wkr, ODone q p x)]). repeat (rewrite <- !app_assoc; simpl). reflexivity.
             ++ rewrite (listener_const a _ HTa Hca) in Hev.
                assert (Hac : forall en s, acts_at w0 en s (h ++ a) = acts_at w0 en s h) by (intros; eapply acts_const; eassumption).
                eapply event_acts; [|exact Hev]. exact Hac.
          -- left. split; [|split].
             ++ intros p' c' its' Ho. unfold opened in Ho. rewrite app_assoc, scan_snoc, Hsk in Ho. simpl in Ho.
                destruct (take_on_root E w0 w H0 Hr _ _ _ [] _ _ _ _ _ HT1 Hsk) as (i & Hi). rewrite Hi in Ho.
                destruct Ho as [Ho|[]]. discriminate.
             ++ rewrite !app_assoc. apply mstate_irr. reflexivity.
             ++ rewrite Htk', map_app. reflexivity.
        * exists new, s. split; [|split; [exact Har'|]].
          -- rewrite app_assoc, completed_same; [exact Hcomp|]. intros q' p' c' its' u' Hs _ ->.
             rewrite Hsk in Hs. injection Hs as -> -> Hu.
             destruct (take_on_root E w0 w H0 Hr _ _ _ [] _ _ _ _ _ HT1 Hsk) as (i & Hi).
             destruct u as [|? u]; [discriminate|]; destruct u; discriminate.
          -- right. exists a, p, e, (b ++ [(wkr, o)]).
             destruct (root_kept_snoc wkr b o u k1 j1 its Ecl Hsb) as (u' & its' & Hsb').
             exists u', its'. split; [rewrite <- app_assoc; reflexivity|]. split; [exact Hsb'|]. auto.
        * exists new, s. split; [|split; [exact Har'|]].
          -- rewrite app_assoc, completed_same; [exact Hcomp|]. intros; congruence.
          -- right. exists a, p, e, (b ++ [(wkr, o)]).
             destruct (root_kept_open wkr b o u its Ecl Hsb) as (u' & its' & Hsb').
             exists u', its'. split; [rewrite <- app_assoc; reflexivity|]. split; [exact Hsb'|]. auto.
  Qed.
  End Many.
End Exact.
