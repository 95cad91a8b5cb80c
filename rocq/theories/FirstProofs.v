(** * FirstProofs.v: proofs about the first start(), interruption and the default
    flow listener *)
From Verif Require Import MemInv Lang Tree Nodes Marks QueueProofs Place Moments Truth FlowProofs QTruth StartProofs FireProofs CallProofs FirstSpec.

(** ** The interrupt flag *)
Section Intr.
  Context (E : env) (w0 : mem).
  Definition wait_true (t : tid) (h : trace) (o : obs) : Prop :=
    match t, o with
    | TClient n, OWr (WrAwait _ i) => interrupted_at w0 n h = i
    | TWorker _ _, OWr (WrAwait _ i) => i = false
    | _, _ => True
    end.
  Definition waits_true (T : trace) : Prop := forall h t o r, T = h ++ (t, o) :: r -> wait_true t h o.
  Lemma intr_snoc n h t o : interrupted_at w0 n (h ++ [(t, o)]) = intr_step n (interrupted_at w0 n h) (t, o).
  Proof. unfold interrupted_at. rewrite fold_left_app. reflexivity. Qed.
  Lemma waits_snoc T t o : waits_true T -> wait_true t T o -> waits_true (T ++ [(t, o)]).
  Proof.
    intros H Ho h t' o' r Hh. apply snoc_split in Hh. destruct Hh as [(-> & -> & Heq)|(l3 & -> & Heq)].
    - injection Heq as <- <-. exact Ho.
    - eapply H. exact Heq.
  Qed.
  Definition flags_ok (w : mem) : Prop := (forall n, intrs w n = interrupted_at w0 n (tr w)) /\ waits_true (tr w).
  Lemma flags_log w t o : flags_ok w -> (match o with OWr (WrIntr _) | OWr (WrAwait _ _) => False | _ => True end) -> flags_ok (log t o w).
  Proof.
    intros [H1 H2] Ho. split; [intro n|]; simpl.
    - rewrite intr_snoc, <- H1. destruct t, o; try reflexivity; destruct w1; try reflexivity; contradiction.
    - apply waits_snoc; [exact H2|]. destruct t, o; try exact I; destruct w1; try exact I; contradiction.
  Qed.
  Lemma flags_same w w' : flags_ok w -> intrs w' = intrs w -> tr w' = tr w -> flags_ok w'.
  Proof. intros [H1 H2] Hi Ht. split; [intro n; rewrite Hi, Ht; apply H1|rewrite Ht; exact H2]. Qed.
  Lemma flags_exec w t i v w' : plain i -> flags_ok w -> exec E w t i = Some (v, w') -> flags_ok w'.
  Proof.
    intros Hp Hf Hx. destruct i; simpl in Hx;
      repeat match type of Hx with
             | (if ?b then _ else _) = _ => destruct b eqn:?
             | match ?b with _ => _ end = _ => destruct b eqn:?
             end; try discriminate; injection Hx as <- <-;
      try (match goal with |- context [match pairs w ?p with _ => _ end] => destruct (pairs w p) as [[? ?]|] end);
      try (match goal with b : bool |- context [if ?b then OEnded _ else _] => destruct b end);
      try exact Hf;
      try match goal with o : obs |- _ => destruct o; try contradiction end;
      try (apply flags_log; [|exact I]; eapply flags_same; [exact Hf|reflexivity|reflexivity]);
      try (eapply flags_same; [exact Hf|reflexivity|reflexivity]).
    all: try (destruct Hf as [H1 H2]; split; [intro k; simpl; rewrite intr_snoc, <- H1; simpl; unfold upd|apply waits_snoc; [exact H2|]; simpl]).
    all: try (rewrite (Nat.eqb_sym k); destruct (Nat.eqb _ _); reflexivity).
    all: try (rewrite <- H1; assumption).
    all: try (rewrite Nat.eqb_sym; reflexivity).
    all: try reflexivity; try exact I.
    - rewrite (Nat.eqb_sym k); destruct t; reflexivity.
    - destruct t; exact I.
  Qed.
  Theorem flags w : tr w0 = [] -> reach E w0 w -> flags_ok (wm w).
  Proof.
    intro H0. apply (mem_inv E flags_ok).
    - intros. eapply flags_exec; eauto.
    - intros w1 x tk r _ Hf. eapply flags_same; [exact Hf|reflexivity|reflexivity].
    - intros w1 t tk e Hf. apply flags_log; [exact Hf|exact I].
    - split; [intro n|]; rewrite H0; [reflexivity|]. intros h t o r Hh. destruct h; discriminate.
  Qed.
  (** a thread stays interrupted until it waits *)
  Lemma stays n l h : (forall p, ~ In (TClient n, OWr (WrAwait p true)) l) -> interrupted_at w0 n h = true ->
    interrupted_at w0 n (h ++ l) = true.
  Proof.
    intros Hl Hh. induction l as [|[t o] l IH] using rev_ind; [rewrite app_nil_r; exact Hh|].
    rewrite app_assoc, intr_snoc, IH by (intros p Hi; apply (Hl p); apply in_or_app; auto).
    destruct t as [k|x i], o as [| | | | | | | | | | | | | | |u]; try reflexivity; destruct u as [| | | | | | | | | |p i0| | |who|]; try reflexivity.
    - destruct i0; [|reflexivity]. simpl. destruct (Nat.eqb_spec k n) as [->|]; [|reflexivity].
      exfalso. apply (Hl p). apply in_or_app. right. left. reflexivity.
    - simpl. destruct who; destruct (Nat.eqb _ _); reflexivity.
    - simpl. destruct who; [destruct (Nat.eqb _ _)|]; reflexivity.
  Qed.
End Intr.

(** ** Marks of interruption in the languages *)
Definition is_intr (o : obs) : bool := match o with OWr (WrIntr _) => true | _ => false end.
Definition no_intr (l : list obs) : Prop := Forall (fun o => is_intr o = false) l.
Lemma no_intr_of (L : lang) P : L <<= P -> (forall o, P o -> is_intr o = false) -> forall x out, L x out -> no_intr out.
Proof. intros H1 H2 x out Hl. eapply Forall_impl; [|exact (H1 _ _ Hl)]. exact H2. Qed.
Section IntrMarks.
  Context (E : env).
  Lemma ni_fire m e x out : fireL E m e x out -> no_intr out.
  Proof. apply (no_intr_of _ _ (only_fire E m e)). intros o Ho. dmay; subst; reflexivity. Qed.
  Lemma ni_start m x out : startL m x out -> no_intr out.
  Proof. apply (no_intr_of _ _ (only_start m)). intros o Ho. dmay; subst; reflexivity. Qed.
  Lemma ni_stop p x out : appStopL E p x out -> no_intr out.
  Proof. apply (no_intr_of _ _ (only_appstop E p)). intros o Ho. dmay; subst; reflexivity. Qed.
  (** the thread interrupts itself only after it was interrupted while waiting *)
  Lemma intr_after p x out its ext : appStartL E p x out -> out = its ++ OWr (WrIntr None) :: ext -> In (OWr (WrAwait p true)) its.
  Proof.
    intros (c & o & -> & Hl) Hi.
    assert (Hq : forall l, no_intr l -> forall a b, l = a ++ OWr (WrIntr None) :: b -> False).
    { intros l Hl' a b ->. apply Forall_app in Hl'. destruct Hl' as [_ Hl']. inversion Hl'. discriminate. }
    destruct its as [|o0 its]; [discriminate|]. injection Hi as _ Hi.
    destruct Hl as [(o' & -> & Hl)|(o' & -> & Hl)].
    - destruct its as [|o1 its]; [discriminate|]. injection Hi as _ Hi. right. right.
      destruct Hl as [(y & -> & Hl)|(k1 & k2 & -> & Hl1 & Hl)]; [destruct (Hq _ (ni_start _ _ _ Hl) _ _ Hi)|].
      destruct (split_app _ _ _ _ _ Hi) as [(j & Hj & _)|(j & -> & ->)]; [destruct (Hq _ (ni_start _ _ _ Hl1) _ _ Hj)|].
      apply in_or_app. right. clear Hi.
      destruct Hl as [(y & -> & Hl)|(k3 & k4 & Hi & Hl2 & Hl)]; [destruct (Hq _ (ni_fire _ _ _ _ Hl) _ _ eq_refl)|].
      symmetry in Hi. destruct (split_app _ _ _ _ _ Hi) as [(l & Hj & _)|(l & -> & ->)]; [destruct (Hq _ (ni_fire _ _ _ _ Hl2) _ _ Hj)|].
      apply in_or_app. right. clear Hi.
      destruct Hl as [(y & -> & Hl)|(k5 & k6 & Hi & Haw & Hl)]; [destruct Hl; discriminate|].
      destruct Haw as [_ [->| ->]].
      + exfalso. destruct l as [|z l]; [discriminate|]. injection Hi as _ Hi.
        destruct Hl as (b & k7 & -> & Hl). destruct l as [|z' l]; [discriminate|]. injection Hi as _ Hi.
        destruct b; [destruct Hl as [_ ->]; destruct l; discriminate|]. symmetry in Hi. exact (Hq _ (ni_stop _ _ _ Hl) _ _ Hi).
      + destruct l as [|z l]; [discriminate|]. injection Hi as -> Hi. left. reflexivity.
    - exfalso. destruct its as [|o1 its]; [discriminate|]. injection Hi as _ Hi.
      destruct (andb _ _); [exact (Hq _ (ni_fire _ _ _ _ Hl) _ _ Hi)|]. destruct Hl as [_ ->]. destruct its; discriminate.
  Qed.
End IntrMarks.

(** the last mark of a thread *)
Lemma last_item t b i x : fst (scan t b) = [(FRoot, i ++ [x])] -> closes x = false -> opens x = None ->
  exists c d, b = c ++ (t, x) :: d /\ forall o, ~ In (t, o) d.
Proof.
  rewrite scan_eq. intros H Hc Ho.
  assert (Hl : exists l, thread_obs t b = l ++ [x]).
  { destruct (thread_obs t b) as [|l y _] using snoc_ind; [injection H as H; destruct i; discriminate|].
    exists l. f_equal. f_equal. rewrite scan_fst_snoc in H. unfold scan1 in H. destruct (closes y) eqn:Ec.
    - destruct (fst (scan0 l)) as [|[k j] r]; [discriminate|]. simpl in H. destruct r as [|[k2 j2] r]; [discriminate|].
      simpl in H. injection H as _ H _. apply app_inj_tail in H. destruct H as [_ ->]. congruence.
    - destruct (opens y) eqn:Eo; [simpl in H; injection H as -> _ _; exfalso; exact (opens_not_root _ _ Eo eq_refl)|].
      simpl in H. destruct (fst (scan0 l)) as [|[k j] r]; [discriminate|]. simpl in H. injection H as _ H _.
      apply app_inj_tail in H. apply H. }
  destruct Hl as [l Hl]. destruct (thread_obs_split _ _ _ _ _ Hl) as (c & d & -> & _ & Hd).
  exists c, d. split; [reflexivity|]. intros o Hi. apply thread_obs_in in Hi. rewrite Hd in Hi. exact Hi.
Qed.

Section First.
  Context (E : env) (w0 : mem) (w : world) (H0 : init_mem E w0) (Hr : reach E w0 w).
  Notation T := (tr (wm w)).

  (** ** The default flow listener *)
  Lemma default_ok c e m t a b its d x : default_flow c e m -> span t T a (OCall c) b its (OBack c x) d ->
    x = None /\ exists h1 h2, during t a (OCall c) b h1 /\ during t a (OCall c) b h2 /\ upto h1 h2 /\
      shown its = [OLog (flow_line E (name_at E w0 e h1) c (cur_at m h2))].
  Proof.
    intros Hc Hs.
    pose proof (span_node E w0 w H0 Hr _ _ _ _ _ _ _ (FCall c) Hs eq_refl) as [_ Hl].
    destruct Hc as [(y & ->)|[->| ->]]; simpl in Hl.
    - destruct Hl as (nm & st & -> & Hi).
      destruct (reads_during E w0 w H0 Hr _ _ _ _ _ _ _ [] _ [] _ _ Hs Hi) as (h1 & h2 & D1 & D2 & U & R1 & R2).
      simpl in R1, R2. split; [reflexivity|]. exists h1, h2. repeat (split; [assumption|]).
      rewrite Hi, R1, R2. reflexivity.
    - destruct Hl as (nm & -> & Hi).
      assert (Hrd : In (R (RdName e nm)) its) by (rewrite Hi; left; reflexivity).
      destruct (read_during E w0 w H0 Hr _ _ _ _ _ _ _ _ Hs Hrd) as (h & Hd & Hv). simpl in Hv.
      split; [reflexivity|]. exists h, h. split; [exact Hd|]. split; [exact Hd|]. split; [exists []; rewrite app_nil_r; reflexivity|].
      rewrite Hi, Hv. reflexivity.
    - destruct Hl as (nm & -> & Hi).
      assert (Hrd : In (R (RdName e nm)) its) by (rewrite Hi; left; reflexivity).
      destruct (read_during E w0 w H0 Hr _ _ _ _ _ _ _ _ Hs Hrd) as (h & Hd & Hv). simpl in Hv.
      split; [reflexivity|]. exists h, h. split; [exact Hd|]. split; [exact Hd|]. split; [exists []; rewrite app_nil_r; reflexivity|].
      rewrite Hi, Hv. reflexivity.
  Qed.

  (** ** The first start() of an app service *)
  Lemma comes_up_ok p t a op b its z d i1 out i2 x : span t T a op b its z d -> its = i1 ++ out ++ i2 ->
    let m := ap_mach (apps E p) in
    startL m x out -> In (OStarted m) out -> comes_up E w0 p t a op b x (shown out).
  Proof.
    intros Hs Hi m Hl Hin. destruct Hl as (i & o1 & H1 & Hl).
    assert (Hl2 : exists init o4, i = Some init /\ out = [R (RdInit m (Some init)); R (RdMapEmpty m false); R (RdDangling m false); OStarted m; OState m init] ++ o4 /\
         seqx (notifyL m false (SNone m) (EImm m) init)
        (seqx (actsL true init (EImm m) m)
        (seqx (notifyL m true (SNone m) (EImm m) init) (emit [OUnended m]))) x o4).
    { destruct i as [init|]; [|destruct Hl as [-> ->]; rewrite H1 in Hin; destruct Hin as [Hin|[]]; discriminate].
      destruct Hl as (e & o2 & -> & Hl). destruct e; [destruct Hl as [_ ->]; rewrite H1 in Hin; simpl in Hin; intuition discriminate|].
      destruct Hl as (e & o3 & -> & Hl). destruct e; [destruct Hl as [_ ->]; rewrite H1 in Hin; simpl in Hin; intuition discriminate|].
      destruct Hl as [[_ ->]|(o4 & -> & Hl)]; [rewrite H1 in Hin; simpl in Hin; intuition discriminate|].
      exists init, o4. auto. }
    clear Hl. destruct Hl2 as (init & o4 & -> & Ho & Hl).
    assert (Hi2 : its = i1 ++ R (RdInit m (Some init)) :: o1 ++ i2) by (rewrite Hi, H1; reflexivity).
    destruct (read_moment E w0 w H0 Hr _ _ _ _ _ _ _ _ _ _ Hs Hi2) as (b1 & b2 & -> & _ & conf & Hc & Hin2).
    exists init, (a ++ (t, op) :: b1), conf, (shown o4).
    split; [eexists _, _; split; reflexivity|]. split; [exact Hc|]. split; [auto|].
    split; [rewrite Ho; reflexivity|].
    assert (Har : all_read its o4) by (intros o Hx; rewrite Hi, Ho; apply in_or_app; right; apply in_or_app; left; apply in_or_app; auto).
    revert Hl. revert Har. generalize x, o4.
    apply seqx_script; [intros; eapply told_ok; eassumption|].
    apply seqx_script.
    { intros x1 out1 Ha (l & o2 & -> & Hrun). apply ar_cons in Ha. destruct Ha as [Ha1 Ha2].
      apply (ac_rd _ _ _ H0 Hr _ _ _ _ _ _ _ Hs) in Ha1. exists l. split; [exact Ha1|].
      exact (ran_ok _ _ _ H0 Hr _ _ _ _ _ _ _ Hs _ _ _ _ _ _ _ _ eq_refl Ha2 [] l eq_refl Hrun). }
    apply seqx_script; [intros; eapply told_ok; eassumption|].
    intros x1 out1 _ [-> ->]. split; reflexivity.
  Qed.
  Lemma stop_at p t a op b its z d i1 c o i2 x h : span t T a op b its z d -> its = i1 ++ R (RdCur (ap_mach (apps E p)) c) :: o ++ i2 ->
    appStopL E p x (R (RdCur (ap_mach (apps E p)) c) :: o) -> c = cur_at (ap_mach (apps E p)) h -> stopping E w0 p t a op b h x (shown o).
  Proof.
    intros Hs Hi (c' & o' & Ho & Hl) Hrd. injection Ho as <- <-. unfold stopping, app_state, restartable. rewrite <- Hrd. cbv zeta.
    destruct (is_name E c "STARTED") eqn:N1; simpl in Hl.
    - left. apply is_name_iff in N1. split; [left; exact N1|].
      eapply (fire_ok E w0 w H0 Hr _ _ _ _ _ _ _ Hs _ _ x (i1 ++ [R (RdCur (ap_mach (apps E p)) c)]) o i2); [|exact Hl]. rewrite Hi. lst.
    - assert (N1' : option_map (sname E) c <> Some "STARTED"%string) by (rewrite <- is_name_iff; congruence).
      destruct (is_name E c "STOPPED") eqn:N2; destruct (ap_exit (apps E p)) eqn:Hx; simpl in Hl.
      + right. left. destruct Hl as [-> ->]. apply is_name_iff in N2. repeat split; auto. congruence.
      + left. apply is_name_iff in N2. split; [right; auto|].
        eapply (fire_ok E w0 w H0 Hr _ _ _ _ _ _ _ Hs _ _ x (i1 ++ [R (RdCur (ap_mach (apps E p)) c)]) o i2); [|exact Hl]. rewrite Hi. lst.
      + right. right. destruct Hl as [-> ->]. rewrite app_name_map. repeat split; auto. rewrite <- is_name_iff. congruence.
      + right. right. destruct Hl as [-> ->]. rewrite app_name_map. repeat split; auto. rewrite <- is_name_iff. congruence.
  Qed.
  Lemma waits_ok p t a op b its z d i1 out i2 x : span t T a op b its z d -> its = i1 ++ out ++ i2 ->
    seqx (awaitL p) (finStopL E p) x out -> waits E w0 p t a op b x (shown out).
  Proof.
    intros Hs Hi Hl. destruct (flags E w0 w (im_tr _ _ H0) Hr) as [_ Hfl].
    destruct Hl as [(y & -> & [? _])|(o1 & o2 & -> & [_ Haw] & Hl)]; [discriminate|].
    destruct Hl as (eb & o3 & -> & Hl).
    assert (Hm : exists k l, o1 = OWr (WrAwait p k) :: l /\ l = if k : bool then [OLog "Main latch was interrupted"; OWr (WrIntr None)] else []).
    { destruct Haw as [->| ->]; [exists false|exists true]; eexists; split; reflexivity. }
    clear Haw. destruct Hm as (k & l & -> & Hk).
    set (rE := R (RdEnded (ap_mach (apps E p)) eb)) in *.
    assert (Hi2 : its = (i1 ++ OWr (WrAwait p k) :: l) ++ rE :: (o3 ++ i2)) by (rewrite Hi; lst).
    assert (Hc : forall b2 b3, b = b2 ++ (t, rE) :: b3 -> fst (scan t b2) = [(FRoot, i1 ++ OWr (WrAwait p k) :: l)] ->
      T = (a ++ (t, op) :: b2) ++ (t, rE) :: b3 ++ (t, z) :: d -> forall h3, during t a op b h3 -> upto (a ++ (t, op) :: b2) h3 ->
      (if eb then x = None /\ shown o3 = [] else stopping E w0 p t a op b h3 x (shown o3)) ->
      waits E w0 p t a op b x (shown ((OWr (WrAwait p k) :: l) ++ rE :: o3))).
    { intros b2 b3 Hb Hsc HT2 h3 D3 U23 Hst.
      destruct (item_inv t b2 [] i1 (OWr (WrAwait p k)) l Hsc eq_refl) as (b0 & b1 & Hb2 & Hsc1).
      assert (HT1 : T = (a ++ (t, op) :: b0) ++ (t, OWr (WrAwait p k)) :: b1 ++ (t, rE) :: b3 ++ (t, z) :: d).
      { rewrite HT2, Hb2. lst. }
      assert (He : eb = ended_at (ap_mach (apps E p)) (a ++ (t, op) :: b2)) by exact (read_true E w0 w H0 Hr _ _ _ _ HT2).
      exists (a ++ (t, op) :: b0), (a ++ (t, op) :: b2), h3, (shown l), (shown o3).
      split; [exists b0, ((t, OWr (WrAwait p k)) :: b1 ++ (t, rE) :: b3); split; [rewrite Hb, Hb2; lst|reflexivity]|].
      split; [eexists _, _; split; [exact Hb|reflexivity]|]. split; [exact D3|].
      split; [eexists; rewrite Hb2; rewrite <- app_assoc; reflexivity|]. split; [exact U23|].
      split; [rewrite shown_app; reflexivity|]. split; [|rewrite <- He; exact Hst].
      pose proof (Hfl _ _ _ _ HT1) as Hw. destruct k.
      - left. destruct t as [n|xx ii]; [|discriminate Hw]. exists n. split; [reflexivity|]. split; [exact Hw|].
        split; [|subst l; reflexivity].
        assert (Hl2 : i1 ++ OWr (WrAwait p true) :: l = (i1 ++ [OWr (WrAwait p true); OLog "Main latch was interrupted"]) ++ [OWr (WrIntr None)])
          by (subst l; lst).
        rewrite Hl2 in Hsc. destruct (last_item _ _ _ _ Hsc eq_refl eq_refl) as (c1 & c2 & -> & Hno).
        rewrite app_comm_cons, app_assoc.
        change ((TClient n, OWr (WrIntr None)) :: c2) with ([(TClient n, OWr (WrIntr None))] ++ c2). rewrite app_assoc.
        apply stays; [intros q Hq; exact (Hno _ Hq)|]. rewrite intr_snoc. simpl. rewrite Nat.eqb_refl. reflexivity.
      - right. split.
        + destruct (truth E w0 w (im_tr _ _ H0) Hr) as [_ Ht]. destruct (Ht _ _ _ _ HT1) as [Hl1 _]. simpl in Hl1.
          rewrite (im_latches _ _ H0) in Hl1. exact (latch_of_in _ _ Hl1).
        + split; [intros n ->; exact Hw|subst l; reflexivity]. }
    destruct eb.
    - destruct (item_moment w _ _ _ _ _ _ _ _ _ _ Hs Hi2 eq_refl) as (b2 & b3 & Hb & Hsc & HT2).
      eapply Hc; [exact Hb|exact Hsc|exact HT2|eexists _, _; split; [exact Hb|reflexivity]|exists []; rewrite app_nil_r; reflexivity|].
      destruct Hl as [-> ->]. auto.
    - pose proof Hl as (c & o4 & Ho & _). subst o3.
      assert (Hi3 : its = ((i1 ++ OWr (WrAwait p k) :: l) ++ [rE]) ++ R (RdCur (ap_mach (apps E p)) c) :: (o4 ++ i2)) by (rewrite Hi2; lst).
      destruct (item_moment w _ _ _ _ _ _ _ _ _ _ Hs Hi3 eq_refl) as (c2 & c3 & Hb & Hsc3 & HT3).
      destruct (item_inv t c2 [] _ rE [] Hsc3 eq_refl) as (b2 & b3 & Hb2 & Hsc).
      eapply (Hc b2 (b3 ++ (t, R (RdCur (ap_mach (apps E p)) c)) :: c3)); [rewrite Hb, Hb2; lst|exact Hsc|rewrite HT3, Hb2; lst| | |].
      + eexists _, _. split; [exact Hb|reflexivity].
      + eexists. rewrite Hb2. rewrite <- app_assoc. reflexivity.
      + change (shown (R (RdCur (ap_mach (apps E p)) c) :: o4)) with (shown o4).
        eapply stop_at; [exact Hs|exact Hi3|exact Hl|]. exact (read_true E w0 w H0 Hr _ _ _ _ HT3).
  Qed.

  Lemma first_ok p t a b its v d : span t T a (OInv (AAppStart p)) b its (ORet (AAppStart p) v) d ->
    In (OStarted (ap_mach (apps E p))) its ->
    exists x, v = outcome x /\ first_start E w0 p t a (OInv (AAppStart p)) b x (shown its).
  Proof.
    intros Hs Hin. pose proof (span_node E w0 w H0 Hr _ _ _ _ _ _ _ (FApi (AAppStart p)) Hs eq_refl) as [_ (x & Hv & Hl)].
    exists x. split; [exact Hv|]. destruct Hl as (c & o & Hi & Hl).
    assert (Hnf : forall e x out, fireL E (ap_mach (apps E p)) e x out -> ~ In (OStarted (ap_mach (apps E p))) out).
    { intros e x1 out Hf Hi1. apply only_fire in Hf. rewrite Forall_forall in Hf. apply Hf in Hi1. dmay; discriminate. }
    destruct Hl as [(o' & -> & Hl)|(o' & -> & Hl)].
    2:{ exfalso. rewrite Hi in Hin. destruct Hin as [Hin|[Hin|Hin]]; try discriminate.
        destruct (andb _ _); [exact (Hnf _ _ _ Hl Hin)|]. destruct Hl as [_ ->]. destruct Hin. }
    set (i0 := [R (RdCur (ap_mach (apps E p)) c); R (RdStarted (ap_mach (apps E p)) false)]).
    assert (Hi0 : its = i0 ++ o') by exact Hi. clear Hi.
    assert (Hin' : In (OStarted (ap_mach (apps E p))) o').
    { rewrite Hi0 in Hin. destruct Hin as [Hin|[Hin|Hin]]; try discriminate. exact Hin. }
    replace (shown its) with (shown o') by (rewrite Hi0; reflexivity).
    unfold first_start.
    destruct Hl as [(y & -> & Hl)|(o1 & o2 & -> & Hl1 & Hl)].
    { left. exists y. split; [reflexivity|]. eapply (comes_up_ok p _ _ _ _ _ _ _ i0 _ []); [exact Hs|rewrite Hi0, app_nil_r; reflexivity|exact Hl|exact Hin']. }
    assert (Hin1 : In (OStarted (ap_mach (apps E p))) o1) by exact (start_marks E _ _ _ Hl1 eq_refl).
    right. exists (shown o1), (shown o2). split; [apply shown_app|]. split; [eapply (comes_up_ok p _ _ _ _ _ _ _ i0 _ o2); [exact Hs|rewrite Hi0; reflexivity|exact Hl1|exact Hin1]|].
    destruct Hl as [(y & -> & Hl)|(o3 & o4 & -> & Hl2 & Hl)].
    { left. exists y. split; [reflexivity|].
      eapply (fire_ok E w0 w H0 Hr _ _ _ _ _ _ _ Hs _ _ _ (i0 ++ o1) o2 []); [|exact Hl]. rewrite Hi0, app_nil_r. lst. }
    right. exists (shown o3), (shown o4). split; [apply shown_app|].
    split; [eapply (fire_ok E w0 w H0 Hr _ _ _ _ _ _ _ Hs _ _ _ (i0 ++ o1) o3 o4); [|exact Hl2]; rewrite Hi0; lst|].
    eapply (waits_ok p _ _ _ _ _ _ _ (i0 ++ o1 ++ o3) o4 []); [exact Hs| |exact Hl]. rewrite Hi0, app_nil_r. lst.
  Qed.

  (** ** A thread is interrupted only by interrupt() *)
  Lemma intr_step_in n h : interrupted_at w0 n h = true -> intrs w0 n = false ->
    exists h1 t o h2, h = h1 ++ (t, o) :: h2 /\ (o = OWr (WrIntr (Some n)) \/ (t = TClient n /\ o = OWr (WrIntr None))).
  Proof.
    intros H Hn. induction h as [|[t o] h IH] using rev_ind; [unfold interrupted_at in H; simpl in H; congruence|].
    rewrite intr_snoc in H.
    assert (Hc : interrupted_at w0 n h = true \/ (o = OWr (WrIntr (Some n)) \/ (t = TClient n /\ o = OWr (WrIntr None)))).
    { destruct t as [k|xx i], o as [| | | | | | | | | | | | | | |u]; auto; destruct u as [| | | | | | | | | |q i0| | |who|]; auto; simpl in H.
      - destruct i0; auto. destruct (Nat.eqb k n); [discriminate|auto].
      - destruct who as [k'|]; [destruct (Nat.eqb_spec k' n)|destruct (Nat.eqb_spec k n)]; subst; auto.
      - destruct who as [k'|]; auto. destruct (Nat.eqb_spec k' n); subst; auto. }
    destruct Hc as [Hc|Hc]; [|exists h, t, o, []; auto].
    destruct (IH Hc) as (h1 & t' & o' & h2 & -> & Ho). exists h1, t', o', (h2 ++ [(t, o)]). split; [lst|exact Ho].
  Qed.
  Lemma self_intr n h r : T = h ++ (TClient n, OWr (WrIntr None)) :: r ->
    exists p h1 h2, h = h1 ++ (TClient n, OWr (WrAwait p true)) :: h2.
  Proof.
    intro HT. destruct (placed_frame E w0 w H0 Hr _ _ _ _ HT eq_refl) as (k & its & u & Hs & Hf).
    assert (Hm : may E (TClient n) k (OWr (WrIntr None))).
    { apply frame_may in Hf. apply Forall_app in Hf. destruct Hf as [_ Hf]. inversion Hf; assumption. }
    assert (Hk : exists p, k = FApi (AAppStart p)).
    { clear -Hm. remember (OWr (WrIntr None)) as o eqn:Ho. destruct k as [|x|c|q p c]; simpl in Hm.
      - exfalso. dmay; subst; discriminate.
      - destruct x; simpl in Hm; try (exfalso; dmay; subst; try discriminate; contradiction). eauto.
      - exfalso. assert (Ha : forall a e m, mact E a e m o -> False).
        { intros a e m Ha. destruct a; simpl in Ha; dmay; subst; try discriminate; contradiction. }
        destruct c as [en a s e m|a e m|hh e m y|fin l m f e s|uu e m|uu e m y|uu e m|uu e m|up q i]; simpl in Hm;
          try (eapply Ha; exact Hm); try destruct hh; try destruct uu; try (destruct l as [[n0|n0 nm]|n0]); dmay; subst; try discriminate; contradiction.
      - exfalso. destruct Hm as (tm & i & ? & _). discriminate. }
    destruct Hk as [p ->].
    destruct (top_bracket _ _ _ _ _ Hs ltac:(discriminate)) as (a & op & b & -> & Hop & Hb & _).
    destruct Hf as (ext & z & Hn). destruct z; try contradiction. destruct Hn as [_ (x & _ & Hl)].
    assert (Hin : In (OWr (WrAwait p true)) its).
    { eapply intr_after; [exact Hl|]. rewrite <- app_assoc. reflexivity. }
    apply in_split in Hin. destruct Hin as (j1 & j2 & ->).
    destruct (item_inv _ _ [] _ _ _ Hb eq_refl) as (c & d & -> & _).
    exists p, (a ++ (TClient n, op) :: c), d. lst.
  Qed.
  Lemma interrupted_by n : intrs w0 n = false -> forall len h r, List.length h <= len -> T = h ++ r -> interrupted_at w0 n h = true ->
    exists t, In (t, OInv (AInterrupt n)) h.
  Proof.
    intro Hn. induction len as [|len IH]; intros h r Hlen HT Hi.
    { destruct h; [|simpl in Hlen; lia]. unfold interrupted_at in Hi. simpl in Hi. congruence. }
    destruct (intr_step_in _ _ Hi Hn) as (h1 & t & o & h2 & -> & [->|[-> ->]]).
    - (* the mark is inside a call of interrupt() *)
      assert (HT2 : T = h1 ++ (t, OWr (WrIntr (Some n))) :: (h2 ++ r)) by (rewrite HT; lst).
      destruct (placed_frame E w0 w H0 Hr _ _ _ _ HT2 eq_refl) as (k & its & u & Hs & Hf).
      assert (Hm : may E t k (OWr (WrIntr (Some n)))).
      { apply frame_may in Hf. apply Forall_app in Hf. destruct Hf as [_ Hf]. inversion Hf; assumption. }
      assert (Hk : k = FApi (AInterrupt n)).
      { clear -Hm. remember (OWr (WrIntr (Some n))) as o eqn:Ho. destruct k as [|x|c|q p c]; simpl in Hm.
        - exfalso. unfold mroot in Hm. destruct t; dmay; subst; try discriminate; simpl in *; contradiction.
        - destruct x; simpl in Hm; try (exfalso; dmay; subst; try discriminate; contradiction).
          subst o. injection Hm as <-. reflexivity.
        - exfalso. assert (Ha : forall a e m, mact E a e m o -> False).
          { intros a e m Ha. destruct a; simpl in Ha; dmay; subst; try discriminate; contradiction. }
          destruct c as [en a s e m|a e m|hh e m y|fin l m f e s|uu e m|uu e m y|uu e m|uu e m|up q i]; simpl in Hm;
            try (eapply Ha; exact Hm); try destruct hh; try destruct uu; try (destruct l as [[n0|n0 nm]|n0]); dmay; subst; try discriminate; contradiction.
        - exfalso. destruct Hm as (tm & i & _ & _ & Hm). subst o. revert Hm. unfold mtake. intros Hm.
          destruct Hm as [Hm|(e & m & -> & [Hm|[Hm|[Hm|Hm]]])]; try discriminate.
          + dmay; discriminate.
          + unfold mexec in Hm. cbv zeta in Hm. destruct Hm as [Hm|[Hm|(s & [Hm|[Hm|[Hm|[Hm|[Hm|Hm]]]]])]]; dmay; discriminate.
          + dmay; discriminate. }
      subst k. destruct (top_bracket _ _ _ _ _ Hs ltac:(discriminate)) as (a & op & b & -> & Hop & Hb & _).
      exists t. rewrite <- app_assoc. apply in_or_app. right. left. destruct op; try discriminate. injection Hop as ->. reflexivity.
    - assert (HT2 : T = h1 ++ (TClient n, OWr (WrIntr None)) :: (h2 ++ r)) by (rewrite HT; lst).
      destruct (self_intr _ _ _ HT2) as (p & g1 & g2 & ->).
      assert (HT3 : T = g1 ++ (TClient n, OWr (WrAwait p true)) :: (g2 ++ (TClient n, OWr (WrIntr None)) :: h2 ++ r)) by (rewrite HT2; lst).
      destruct (flags E w0 w (im_tr _ _ H0) Hr) as [_ Hfl]. pose proof (Hfl _ _ _ _ HT3) as Hw. simpl in Hw.
      destruct (IH g1 _ ltac:(rewrite !app_length in Hlen; simpl in Hlen; lia) HT3 Hw) as [t Ht].
      exists t. rewrite <- !app_assoc. apply in_or_app. auto.
  Qed.

  (** start() logs that it was interrupted *)
  Lemma nl_in (L : lang) P : L <<= P -> (forall o, P o -> o = OLog "Main latch was interrupted" -> False) -> forall x out, L x out ->
    ~ In (OLog "Main latch was interrupted") out.
  Proof. intros H1 H2 x out Hl Hi. apply H1 in Hl. rewrite Forall_forall in Hl. exact (H2 _ (Hl _ Hi) eq_refl). Qed.
  Lemma nl_fire m e x out : fireL E m e x out -> ~ In (OLog "Main latch was interrupted") out.
  Proof. apply (nl_in _ _ (only_fire E m e)). intros o Ho He. dmay; subst; discriminate. Qed.
  Lemma nl_start m x out : startL m x out -> ~ In (OLog "Main latch was interrupted") out.
  Proof. apply (nl_in _ _ (only_start m)). intros o Ho He. dmay; subst; discriminate. Qed.
  Lemma nl_stop p x out : appStopL E p x out -> ~ In (OLog "Main latch was interrupted") out.
  Proof. apply (nl_in _ _ (only_appstop E p)). intros o Ho He. dmay; subst; discriminate. Qed.
  Lemma interrupted_start p t a b its v d : span t T a (OInv (AAppStart p)) b its (ORet (AAppStart p) v) d ->
    In (OLog "Main latch was interrupted") its ->
    exists n h, t = TClient n /\ during t a (OInv (AAppStart p)) b h /\ interrupted_at w0 n h = true /\
      (intrs w0 n = false -> exists t', In (t', OInv (AInterrupt n)) h).
  Proof.
    intros Hs Hin. pose proof (span_node E w0 w H0 Hr _ _ _ _ _ _ _ (FApi (AAppStart p)) Hs eq_refl) as [_ (x & Hv & Hl)].
    destruct Hl as (c & o & Hi & Hl).
    assert (Haw : In (OWr (WrAwait p true)) its).
    { rewrite Hi in *. destruct Hin as [Hin|Hin]; [discriminate|]. right.
      destruct Hl as [(o' & -> & Hl)|(o' & -> & Hl)]; destruct Hin as [Hin|Hin]; try discriminate; right.
      - destruct Hl as [(y & -> & Hl)|(o1 & o2 & -> & Hl1 & Hl)]; [destruct (nl_start _ _ _ Hl Hin)|].
        apply in_app_or in Hin. destruct Hin as [Hin|Hin]; [destruct (nl_start _ _ _ Hl1 Hin)|]. apply in_or_app. right.
        destruct Hl as [(y & -> & Hl)|(o3 & o4 & -> & Hl2 & Hl)]; [destruct (nl_fire _ _ _ _ Hl Hin)|].
        apply in_app_or in Hin. destruct Hin as [Hin|Hin]; [destruct (nl_fire _ _ _ _ Hl2 Hin)|]. apply in_or_app. right.
        destruct Hl as [(y & -> & [? _])|(o5 & o6 & -> & [_ Ha] & Hl)]; [discriminate|]. apply in_or_app. left.
        destruct Ha as [->| ->]; [|left; reflexivity]. exfalso. destruct Hin as [Hin|Hin]; [discriminate|].
        destruct Hl as (eb & o7 & -> & Hl). destruct Hin as [Hin|Hin]; [discriminate|].
        destruct eb; [destruct Hl as [_ ->]; destruct Hin|exact (nl_stop _ _ _ Hl Hin)].
      - exfalso. destruct (andb _ _); [exact (nl_fire _ _ _ _ Hl Hin)|]. destruct Hl as [_ ->]. destruct Hin. }
    apply in_split in Haw. destruct Haw as (j1 & j2 & Hj).
    destruct (item_moment w _ _ _ _ _ _ _ _ _ _ Hs Hj eq_refl) as (b1 & b2 & Hb & _ & HT).
    destruct (flags E w0 w (im_tr _ _ H0) Hr) as [_ Hfl]. pose proof (Hfl _ _ _ _ HT) as Hw.
    destruct t as [n|xx ii]; [|discriminate Hw]. exists n, (a ++ (TClient n, OInv (AAppStart p)) :: b1).
    split; [reflexivity|]. split; [eexists _, _; split; [exact Hb|reflexivity]|]. split; [exact Hw|].
    intro Hn. eapply interrupted_by; [exact Hn|apply le_n|exact HT|exact Hw].
  Qed.
  Lemma interrupt_ok n t a b its v d : span t T a (OInv (AInterrupt n)) b its (ORet (AInterrupt n) v) d ->
    v = RvUnit /\ shown its = [] /\ exists h, during t a (OInv (AInterrupt n)) b h /\ interrupted_at w0 n h = true.
  Proof.
    intros Hs. pose proof (span_node E w0 w H0 Hr _ _ _ _ _ _ _ (FApi (AInterrupt n)) Hs eq_refl) as [_ [-> Hi]].
    split; [reflexivity|]. split; [rewrite Hi; reflexivity|].
    destruct (item_moment w _ _ _ _ _ _ _ [] _ [] Hs Hi eq_refl) as (b1 & b2 & -> & _ & _).
    exists (a ++ (t, OInv (AInterrupt n)) :: b1 ++ [(t, OWr (WrIntr (Some n)))]).
    split; [eexists _, b2; split; [|reflexivity]; rewrite <- app_assoc; reflexivity|].
    rewrite app_comm_cons, app_assoc, intr_snoc. simpl. rewrite Nat.eqb_refl. destruct t; reflexivity.
  Qed.
End First.
