(** * Moments.v: values read during a bracket *)
From Verif Require Import Spec Lang Tree Truth ConfTruth Nodes MemInv ConfigProofs2.

Lemma span_closed t tr a op b its z d k : span t tr a op b its z d -> opens op = Some k -> closed t tr k its z.
Proof.
  intros (-> & Hz & Hs) Ho. change ((t, op) :: b ++ (t, z) :: d) with ([(t, op)] ++ b ++ [(t, z)] ++ d).
  rewrite !app_assoc. rewrite <- (app_assoc a).
  assert (H : closed t ([(t, op)] ++ b ++ [(t, z)]) k its z).
  { unfold closed. rewrite scan_eq. rewrite !thread_obs_app.
    assert (Ht : forall o, thread_obs t [(t, o)] = [o]).
    { intro o. unfold thread_obs. simpl. unfold tid_eqb. destruct (tid_eq_dec t t); [reflexivity|congruence]. }
    rewrite !Ht. rewrite scan_eq in Hs. rewrite app_assoc, scanl_snoc, scanl_app.
    assert (H1 : scanl fresh [op] = ([(k, []); (FRoot, [op])], [])).
    { unfold scanl, fresh. simpl. rewrite (opens_not_closes _ _ Ho), Ho. reflexivity. }
    rewrite H1.
    assert (G : forall l u its, fst (scan0 l) = u ++ [(FRoot, its)] ->
      forall k st, fst (scanl ((k, []) :: st, []) l) = u ++ [(k, its)] ++ st).
    { clear. induction l as [|l x IH] using snoc_ind; intros u its H k st.
      - simpl in H. destruct u as [|f u]; [injection H as <-; reflexivity|]. destruct u; discriminate.
      - rewrite scan_fst_snoc in H. rewrite scanl_snoc.
        destruct (scanl ((k, []) :: st, []) l) as [st' ns'] eqn:Es.
        rewrite scan1_nodes. simpl.
        unfold scan1 in *.
        assert (Hst : forall u its, fst (scan0 l) = u ++ [(FRoot, its)] -> st' = u ++ [(k, its)] ++ st).
        { intros u1 i1 H1. specialize (IH _ _ H1 k st). rewrite Es in IH. exact IH. }
        destruct (closes x) eqn:Ec.
        + destruct (fst (scan0 l)) as [|[k1 i1] r] eqn:El; [simpl in H; destruct u; discriminate|].
          simpl in H. destruct (add_item_split _ _ _ _ _ H) as [(-> & k2 & i2 & Hf & ->)|(u0 & -> & Hu & ->)].
          * injection Hf as <- ->. rewrite (Hst [(k1, i1)] i2 eq_refl). reflexivity.
          * rewrite (Hst ((k1, i1) :: u0) its eq_refl). simpl. rewrite add_item_app by exact Hu. reflexivity.
        + destruct (opens x) as [k1|] eqn:Eo; simpl in H.
          * destruct u as [|f u]; [simpl in H; injection H as -> Hx _; exfalso; apply (opens_not_root _ _ Eo eq_refl)|].
            injection H as <- H. simpl.
            destruct (add_item_split _ _ _ _ _ H) as [(-> & k2 & i2 & Hf & Hr)|(u0 & -> & Hu & Hr)].
            -- injection Hf as <- ->. rewrite (Hst [] i2 Hr). reflexivity.
            -- rewrite (Hst u0 its Hr). rewrite add_item_app by exact Hu. reflexivity.
          * destruct (add_item_split _ _ _ _ _ H) as [(-> & k2 & i2 & Hf & Hr)|(u0 & -> & Hu & Hr)].
            -- injection Hf as <- ->. rewrite (Hst [] i2 Hr). reflexivity.
            -- rewrite (Hst u0 its Hr). rewrite add_item_app by exact Hu. reflexivity. }
    specialize (G (thread_obs t b) [] its Hs k [(FRoot, [op])]). simpl in G.
    destruct (scanl ([(k, []); (FRoot, [op])], []) (thread_obs t b)) as [st' ns']. simpl in G. subst st'.
    unfold scan1. rewrite Hz. simpl. apply in_or_app. right. left. reflexivity. }
  assert (H2 : forall x, closed t x k its z -> closed t (x ++ d) k its z).
  { intros x Hx. unfold closed in *. rewrite scan_eq in *. rewrite thread_obs_app, scanl_app.
    destruct (scan0 (thread_obs t x)) as [st ns]. rewrite scanl_nodes. simpl in *. apply in_or_app. auto. }
  rewrite <- !app_assoc. rewrite (app_assoc a). rewrite (app_assoc (a ++ _)). rewrite (app_assoc ((a ++ _) ++ _)).
  apply H2. rewrite <- !app_assoc. apply closed_suffix; [exact H|]. eapply opens_not_root; exact Ho.
Qed.
Lemma closed_span t tr k its z : closed t tr k its z -> k <> FRoot ->
  exists a op b d, opens op = Some k /\ span t tr a op b its z d.
Proof.
  intros H Hk. destruct (closed_inv _ _ _ _ _ H Hk) as (a & op & b & d & H1 & H2 & H3 & H4).
  exists a, op, b, d. split; [exact H2|]. split; auto.
Qed.

Section Moments.
  Context (E : env) (w0 : mem) (w : world) (H0 : init_mem E w0) (Hr : reach E w0 w).
  Notation T := (tr (wm w)).

  (** the value of a read at a moment *)
  Definition read_at (h : trace) (r : rd) : Prop :=
    match r with
    | RdStarted m b => b = started_at m h
    | RdEnded m b => b = ended_at m h
    | RdCur m s => s = cur_at m h
    | RdListener m l => l = listener_at w0 m h
    | RdActs en s l => l = acts_at w0 en s h
    | RdPay e p => p = pay_at w0 e h
    | RdSubs p l => l = subsystems_at w0 p h
    | RdMulti k v => fst v = multi_of k (multis w0 k) h
    | RdMNext k c vs v =>
        match v with
        | None => owed c vs (multi_of k (multis w0 k) h) = []
        | Some il => exists y, In y (unvisited c vs (multi_of k (multis w0 k) h)) /\ il = entry_of y
        end
    | RdMRest k c vs ls => ls = map entry_of (filter (fun y => snd (snd y)) (unvisited c vs (multi_of k (multis w0 k) h)))
    | RdName e nm => nm = name_at E w0 e h
    | RdMap m c e r => reacts_at E w0 m h c e (rea r)
    | RdFinal m t b => b = true <-> final_at E w0 m h t
    | RdHas m s b => exists c, conf_at E w0 m h c /\ b = known c (sname E s)
    | RdInit m s => exists c, conf_at E w0 m h c /\ s = initial c
    | RdMapEmpty m b => exists c, conf_at E w0 m h c /\ (b = true <-> initial c = None)
    | RdDangling m b => exists c, conf_at E w0 m h c /\ (b = true <-> dangling c)
    | _ => True
    end.

  (** an item of the bracket is a mark of the trace at some moment *)
  Lemma item_moment t a op b its z d i1 x i2 : span t T a op b its z d -> its = i1 ++ x :: i2 -> closes x = false ->
    exists b1 b2, b = b1 ++ (t, x) :: b2 /\ fst (scan t b1) = [(FRoot, i1)] /\
      T = (a ++ (t, op) :: b1) ++ (t, x) :: b2 ++ (t, z) :: d.
  Proof.
    intros (Ht & Hz & Hs) -> Hx. destruct (item_inv t b [] i1 x i2 Hs Hx) as (b1 & b2 & -> & H1).
    exists b1, b2. split; [reflexivity|]. split; [exact H1|].
    rewrite Ht. rewrite <- app_assoc. simpl. rewrite <- app_assoc. reflexivity.
  Qed.

  Lemma read_true t h r rest : T = h ++ (t, ORd r) :: rest -> read_at h r.
  Proof.
    intro HT. destruct (truth E w0 w (im_tr _ _ H0) Hr) as [_ Ht].
    destruct (Ht _ _ _ _ HT) as [_ Hrd].
    pose proof (im_started _ _ H0) as I1. pose proof (im_ended _ _ H0) as I2. pose proof (im_cur _ _ H0) as I3.
    assert (Hc : forall m, exists s0, conf0 E w0 m s0).
    { intro m. destruct (im_cfg _ _ H0 m) as [os Hos]. destruct (history_total (sname E) (ename0 E) m os) as [s Hs].
      exists s, os. auto. }
    assert (HC : forall m s0, conf0 E w0 m s0 -> conf_at E w0 m h (conf_of (sname E) m (ename E w0) s0 h)).
    { intros m s0 (os & H1 & H2). exists os, s0. auto. }
    assert (HK : forall m s0, conf0 E w0 m s0 -> cfg_true E w0 m s0 h (ORd r)).
    { intros m s0 Hs. destruct (conf_truth E w0 H0 m s0 Hs w Hr) as (_ & _ & Hk). exact (Hk _ _ _ _ HT). }
    destruct r; simpl in *; auto;
      unfold started_at, ended_at, cur_at, listener_at, acts_at, pay_at, subsystems_at;
      rewrite ?I1, ?I2, ?I3 in Hrd; auto;
      try (destruct (Hc m) as [s0 Hs0]; pose proof (HK m s0 Hs0) as Hm);
      try (eexists; split; [exact (HC m s0 Hs0)|]; exact (Hm eq_refl)).
    - split.
      + intro Hb. eexists. split; [exact (HC m s0 Hs0)|]. apply Hm; auto.
      + intros (s1 & (os & s2 & H1 & H2 & ->) & Hf). assert (Hs2 : conf0 E w0 m s2) by (exists os; auto).
        apply (HK m s2 Hs2 eq_refl). exact Hf.
    - destruct (Hc 0) as [s0 Hs0]. exact (HK 0 s0 Hs0).
  Qed.

  (** a read inside a bracket happens at a moment during the bracket *)
  Lemma read_moment t a op b its z d i1 r i2 : span t T a op b its z d -> its = i1 ++ ORd r :: i2 ->
    exists b1 b2, b = b1 ++ (t, ORd r) :: b2 /\ fst (scan t b1) = [(FRoot, i1)] /\
      read_at (a ++ (t, op) :: b1) r.
  Proof.
    intros Hs Hi. destruct (item_moment _ _ _ _ _ _ _ _ _ _ Hs Hi eq_refl) as (b1 & b2 & H1 & H2 & H3).
    exists b1, b2. split; [exact H1|]. split; [exact H2|]. eapply read_true. exact H3.
  Qed.
  Lemma read_during t a op b its z d r : span t T a op b its z d -> In (ORd r) its ->
    exists h, during t a op b h /\ read_at h r.
  Proof.
    intros Hs Hi. apply in_split in Hi. destruct Hi as (i1 & i2 & Hi).
    destruct (read_moment _ _ _ _ _ _ _ _ _ _ Hs Hi) as (b1 & b2 & H1 & H2 & H3).
    exists (a ++ (t, op) :: b1). split; [exists b1, ((t, ORd r) :: b2); auto|exact H3].
  Qed.
  (** two reads, in order *)
  Lemma reads_during t a op b its z d i1 r1 i2 r2 i3 : span t T a op b its z d ->
    its = i1 ++ ORd r1 :: i2 ++ ORd r2 :: i3 ->
    exists h1 h2, during t a op b h1 /\ during t a op b h2 /\ upto h1 h2 /\ read_at h1 r1 /\ read_at h2 r2.
  Proof.
    intros Hs Hi. rewrite app_comm_cons, app_assoc in Hi.
    destruct (read_moment _ _ _ _ _ _ _ _ _ _ Hs Hi) as (b2 & b3 & H1 & H2 & H3).
    destruct (item_inv t b2 [] i1 (ORd r1) i2 H2 eq_refl) as (b0 & b1 & H4 & H5).
    exists (a ++ (t, op) :: b0), (a ++ (t, op) :: b2). subst b b2. repeat split.
    - exists b0, ((t, ORd r1) :: b1 ++ (t, ORd r2) :: b3). split; [rewrite <- app_assoc; reflexivity|reflexivity].
    - exists (b0 ++ (t, ORd r1) :: b1), ((t, ORd r2) :: b3). auto.
    - exists ((t, ORd r1) :: b1). rewrite <- app_assoc. reflexivity.
    - destruct Hs as (HT & _).
      apply (read_true t (a ++ (t, op) :: b0) r1 (b1 ++ (t, ORd r2) :: b3 ++ (t, z) :: d)).
      rewrite HT. repeat (rewrite <- !app_assoc; simpl). reflexivity.
    - exact H3.
  Qed.

  (** the language of a completed bracket *)
  Lemma span_node t a op b its z d k : span t T a op b its z d -> opens op = Some k -> node_ok E t (k, its, z).
  Proof. intros Hs Ho. apply (proj1 (tree_ok E w0 w H0 Hr)). eapply span_closed; eauto. Qed.
End Moments.
