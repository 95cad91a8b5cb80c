(** * Own.v: ownership of pair objects, queue order (proofs for C09, C24, C29, C39) *)
From Verif Require Import Sched Logic Neutral OwnSpec.

Definition content := option (eid * mid).
(** pairs held by a thread; the flag says: taken from a queue *)
Definition held := list (pid * (bool * content)).

Section Own.
  Context (E : env).
  Definition qof (m : mid) : qid := s_queue (strat E (strat_of E m)).

  Definition pre (t : tid) (g : held) (i : instr) : Prop :=
    match i with
    | ISetPair p _ _ => exists c g0, g = (p, (false, c)) :: g0
    | IQOffer q p _ m e => exists g0, g = (p, (false, Some (e, m))) :: g0 /\ q = qof m
    | IPoolOffer _ p => exists c g0, g = (p, (true, c)) :: g0
    | IMark (OOffer _ _ _ _ _ _) | IMark (OTake _ _ _) | IMark (OWr _) => False
    | _ => True
    end.
  Definition post (t : tid) (g : held) (i : instr) : iret i -> held -> Prop :=
    match i return iret i -> held -> Prop with
    | IPoolPoll _ => fun v g' => match v with None => g' = g | Some p => exists c, g' = (p, (false, c)) :: g end
    | INewPair => fun v g' => g' = (v, (false, None)) :: g
    | ISetPair p e m => fun _ g' => g' = (p, (false, Some (e, m))) :: tl g
    | IQOffer _ _ _ _ _ | IPoolOffer _ _ => fun _ g' => g' = tl g
    | IQPoll _ => fun v g' => match v with None => g' = g | Some p => exists c, g' = (p, (true, Some c)) :: g end
    | IGetPair p => fun v g' => g' = g /\ forall c g0, g = (p, (true, c)) :: g0 -> v = c
    | _ => fun _ g' => g' = g
    end.

  Record inv_loc (w : mem) (gs : tid -> held) (loc : pid -> place) : Prop := {
    il_fresh : forall p, loc p = PFresh <-> npair w <= p;
    il_pool : forall l p, In p (pools w l) <-> loc p = PPool l;
    il_queue : forall q p, In p (queues w q) <-> loc p = PQueue q;
    il_held : forall t p, In p (map fst (gs t)) <-> loc p = PHeld t;
    il_nd_pool : forall l, NoDup (pools w l);
    il_nd_queue : forall q, NoDup (queues w q);
    il_nd_held : forall t, NoDup (map fst (gs t));
    il_cont : forall t p b c, In (p, (b, c)) (gs t) -> pairs w p = c;
    il_some : forall q p, In p (queues w q) -> pairs w p <> None }.
  Record inv (w : mem) (gs : tid -> held) : Prop := {
    i_loc : exists loc, inv_loc w gs loc;
    i_fifo : forall q, accepted q (tr w) = taken q (tr w) ++ map (fun p => (p, pairs w p)) (queues w q);
    i_route : forall t q p e m e' m', In (t, OOffer q p e m e' m') (tr w) -> q = qof m /\ m' = m;
    i_proc : forall t p, In (t, p) (inproc (tr w)) <-> exists c, In (p, (true, c)) (gs t);
    i_nd : NoDup (inproc (tr w)) }.

  Lemma acc_app q a b : accepted q (a ++ b) = accepted q a ++ accepted q b.
  Proof. apply flat_map_app. Qed.
  Lemma tak_app q a b : taken q (a ++ b) = taken q a ++ taken q b.
  Proof. apply flat_map_app. Qed.

  Lemma inp_app a to : inproc (a ++ [to]) = inproc_step (inproc a) to.
  Proof. unfold inproc. rewrite fold_left_app. reflexivity. Qed.

  Lemma inv_ext w gs gs' : (forall t, gs t = gs' t) -> inv w gs -> inv w gs'.
  Proof.
    intros Hg [[loc [H1 H2 H3 H4 H5 H6 H7 H8 H9]] Hf Hr Hp Hn]. split; auto.
    - exists loc. split; auto; intros t; rewrite <- (Hg t); [apply H4|apply H7|apply H8].
    - intros t p. rewrite <- (Hg t). apply Hp.
  Qed.
  Lemma gupd_same (gs : tid -> held) t : forall t', gs t' = gupd gs t (gs t) t'.
  Proof. intro t'. unfold gupd. destruct (tid_eq_dec t' t); congruence. Qed.

  (** changes that do not matter *)
  Definition quiet_obs (o : obs) : Prop :=
    match o with OOffer _ _ _ _ _ _ | OTake _ _ _ | OWr (WrGive _ _) => False | _ => True end.
  Definition quiet_tr (w w' : mem) : Prop :=
    tr w' = tr w \/ exists t o, tr w' = tr w ++ [(t, o)] /\ quiet_obs o.
  Lemma quiet_acc w w' q : quiet_tr w w' -> accepted q (tr w') = accepted q (tr w).
  Proof.
    intros [->|(t & o & -> & Ho)]; [reflexivity|]. rewrite acc_app. simpl.
    destruct o; simpl; rewrite ?app_nil_r; auto; contradiction.
  Qed.
  Lemma quiet_tak w w' q : quiet_tr w w' -> taken q (tr w') = taken q (tr w).
  Proof.
    intros [->|(t & o & -> & Ho)]; [reflexivity|]. rewrite tak_app. simpl.
    destruct o; simpl; rewrite ?app_nil_r; auto; contradiction.
  Qed.
  Lemma quiet_inp w w' : quiet_tr w w' -> inproc (tr w') = inproc (tr w).
  Proof.
    intros [->|(t & o & -> & Ho)]; [reflexivity|]. rewrite inp_app. unfold inproc_step. simpl.
    destruct o; simpl; auto; try contradiction. destruct w0; auto; contradiction.
  Qed.
  Lemma quiet_route w w' : quiet_tr w w' ->
    (forall t q p e m e' m', In (t, OOffer q p e m e' m') (tr w) -> q = qof m /\ m' = m) ->
    (forall t q p e m e' m', In (t, OOffer q p e m e' m') (tr w') -> q = qof m /\ m' = m).
  Proof.
    intros [->|(t & o & -> & Ho)] H; [auto|]. intros t' q p e m e' m' Hin.
    apply in_app_or in Hin. destruct Hin as [Hin|[Hin|[]]]; [eauto|]. injection Hin as -> ->. contradiction.
  Qed.
  Lemma inv_same w w' gs t :
    npair w' = npair w -> pools w' = pools w -> queues w' = queues w -> pairs w' = pairs w ->
    quiet_tr w w' -> inv w gs -> inv w' (gupd gs t (gs t)).
  Proof.
    intros E1 E2 E3 E4 E5 Hi. apply (inv_ext _ gs); [apply gupd_same|].
    destruct Hi as [[loc [H1 H2 H3 H4 H5 H6 H7 H8 H9]] Hf Hr Hp Hn]. split.
    - exists loc. split; intros; rewrite ?E1, ?E2, ?E3, ?E4 in *; eauto.
    - intro q. rewrite (quiet_acc _ _ q E5), (quiet_tak _ _ q E5), E3, E4. apply Hf.
    - eapply quiet_route; eauto.
    - intros. rewrite (quiet_inp _ _ E5). apply Hp.
    - rewrite (quiet_inp _ _ E5). exact Hn.
  Qed.

  Ltac easy_same Hi :=
    match type of Hi with inv ?w _ =>
    solve [ apply (inv_same w); [reflexivity|reflexivity|reflexivity|reflexivity| |exact Hi];
            first [ left; reflexivity | right; eexists _, _; split; [reflexivity|exact I] ] ] end.

  Lemma NoDup_snoc {A} (l : list A) a : NoDup l -> ~ In a l -> NoDup (l ++ [a]).
  Proof.
    intros H1 H2. apply NoDup_rev in H1. rewrite <- (rev_involutive (l ++ [a])). apply NoDup_rev.
    rewrite rev_app_distr. simpl. constructor; [|exact H1]. rewrite <- in_rev. exact H2.
  Qed.

  Lemma NoDup_remove_all {A} (dec : forall a b : A, {a = b} + {a <> b}) x l : NoDup l -> NoDup (remove dec x l).
  Proof.
    induction 1 as [|a l Ha Hl IH]; simpl; [constructor|].
    destruct (dec x a); [exact IH|]. constructor; [|exact IH].
    intro Hin. apply in_remove in Hin. tauto.
  Qed.

  Definition lupd (f : pid -> place) (p : pid) (v : place) : pid -> place :=
    fun p' => if Nat.eqb p' p then v else f p'.

  Ltac cases_nat := repeat match goal with
    | |- context [Nat.eqb ?a ?b] => destruct (Nat.eqb_spec a b); subst
    | H : context [Nat.eqb ?a ?b] |- _ => destruct (Nat.eqb_spec a b); subst
    end.
  Ltac cases_tid := repeat match goal with
    | |- context [tid_eq_dec ?a ?b] => destruct (tid_eq_dec a b); subst
    | H : context [tid_eq_dec ?a ?b] |- _ => destruct (tid_eq_dec a b); subst
    end.

  Lemma exec_own w gs t i v w' : inv w gs -> pre t (gs t) i -> exec E w t i = Some (v, w') ->
    exists g', post t (gs t) i v g' /\ inv w' (gupd gs t g').
  Proof.
    intros Hi Hp Hx.
    destruct i; simpl in Hx;
      try (repeat match type of Hx with
             | (if ?b then _ else _) = _ => destruct b
             | match ?b with _ => _ end = _ => destruct b eqn:?
             end; try discriminate; injection Hx as <- <-;
           (exists (gs t); split; [reflexivity|easy_same Hi])).
    - (* ICasEnded *)
      exists (gs t). destruct (m_ended (machs w m)); [|destruct b]; injection Hx as <- <-;
        (split; [reflexivity|]); easy_same Hi.
    - (* INewPair *)
      injection Hx as <- <-. exists ((npair w, (false, None)) :: gs t). split; [reflexivity|].
      destruct Hi as [[loc [H1 H2 H3 H4 H5 H6 H7 H8 H9]] Hf Hr Hpr Hnp].
      match goal with |- inv ?w' _ => assert (HQ : quiet_tr w w') by (right; eexists _, _; split; [reflexivity|exact I]) end.
      assert (HF : loc (npair w) = PFresh) by (apply H1; lia).
      assert (Hq : forall q p, In p (queues w q) -> p <> npair w).
      { intros q p Hin ->. apply H3 in Hin. congruence. }
      split.
      + exists (lupd loc (npair w) (PHeld t)). split; simpl; auto.
        * intro p. unfold lupd. cases_nat; [split; [discriminate|lia]|]. rewrite H1. lia.
        * intros l p. unfold lupd. cases_nat; [|apply H2]. rewrite H2. split; congruence.
        * intros q p. unfold lupd. cases_nat; [|apply H3]. rewrite H3. split; congruence.
        * intros t' p. unfold lupd, gupd. cases_tid; simpl; cases_nat.
          -- split; auto.
          -- rewrite <- H4. intuition congruence.
          -- rewrite H4. split; congruence.
          -- apply H4.
        * intro t'. unfold gupd. cases_tid; simpl; auto. constructor; auto. rewrite H4. congruence.
        * intros t' p b c. unfold gupd, upd. cases_tid; simpl; intro Hin.
          -- destruct Hin as [Hin|Hin]; [injection Hin as <- <- <-; rewrite Nat.eqb_refl; reflexivity|].
             cases_nat; [|eauto]. exfalso. apply (in_map fst) in Hin. simpl in Hin. apply H4 in Hin. congruence.
          -- cases_nat; [|eauto]. exfalso. apply (in_map fst) in Hin. simpl in Hin. apply H4 in Hin. congruence.
        * intros q p Hin. unfold upd. cases_nat; [exfalso; eapply Hq; eauto|eauto].
      + intro q. rewrite (quiet_acc _ _ q HQ), (quiet_tak _ _ q HQ), Hf. simpl.
        f_equal. apply map_ext_in. intros p Hin. unfold upd. cases_nat; [|reflexivity].
        exfalso; eapply Hq; eauto.
      + eapply quiet_route; eauto.
      + intros t' p. rewrite (quiet_inp _ _ HQ), Hpr. unfold gupd. cases_tid; [|reflexivity]. simpl.
        split; intros [c H]; exists c; [right; exact H|]. destruct H as [H|H]; [discriminate|exact H].
      + rewrite (quiet_inp _ _ HQ). exact Hnp.
    - (* ISetPair *)
      injection Hx as <- <-. destruct Hp as (c0 & g0 & Hg).
      exists ((p, (false, Some (e, m))) :: tl (gs t)). split; [reflexivity|].
      destruct Hi as [[loc [H1 H2 H3 H4 H5 H6 H7 H8 H9]] Hf Hr Hpr Hnp].
      match goal with |- inv ?w' _ => assert (HQ : quiet_tr w w') by (right; eexists _, _; split; [reflexivity|exact I]) end.
      assert (HL : loc p = PHeld t) by (apply H4; rewrite Hg; left; reflexivity).
      assert (Hq : forall q p', In p' (queues w q) -> p' <> p).
      { intros q p' Hin ->. apply H3 in Hin. congruence. }
      assert (Hm : forall t', map fst (gupd gs t ((p, (false, Some (e, m))) :: tl (gs t)) t') = map fst (gs t')).
      { intro t'. unfold gupd. cases_tid; [|reflexivity]. rewrite Hg. reflexivity. }
      split.
      + exists loc. split; simpl; auto.
        * intros t' p'. rewrite Hm. apply H4.
        * intro t'. rewrite Hm. apply H7.
        * intros t' p' b c. unfold gupd, upd. specialize (H7 t). rewrite Hg in H7. simpl in H7.
          cases_tid; simpl; intro Hin.
          -- destruct Hin as [Hin|Hin]; [injection Hin as <- <- <-; rewrite Nat.eqb_refl; reflexivity|].
             rewrite Hg in Hin. simpl in Hin. cases_nat.
             ++ apply (in_map fst) in Hin. inversion H7; contradiction.
             ++ eapply H8. rewrite Hg. right. exact Hin.
          -- cases_nat; [|eauto]. apply (in_map fst) in Hin. simpl in Hin. apply H4 in Hin. congruence.
        * intros q p' Hin. unfold upd. cases_nat; [discriminate|eauto].
      + intro q. rewrite (quiet_acc _ _ q HQ), (quiet_tak _ _ q HQ), Hf. simpl.
        f_equal. apply map_ext_in. intros p' Hin. unfold upd. cases_nat; [|reflexivity].
        exfalso; eapply Hq; eauto.
      + eapply quiet_route; eauto.
      + intros t' p'. rewrite (quiet_inp _ _ HQ), Hpr. unfold gupd. cases_tid; [|reflexivity]. rewrite Hg. simpl.
        split; intros [c [H|H]]; try discriminate; eauto.
      + rewrite (quiet_inp _ _ HQ). exact Hnp.
    - (* IGetPair *)
      injection Hx as <- <-. exists (gs t). split; [|easy_same Hi].
      destruct Hi as [[loc Hl] _ _]. split; [reflexivity|]. intros c g0 Hg. eapply il_cont with (t := t) (b := true); [exact Hl|]. rewrite Hg. left. reflexivity.
    - (* IPoolPoll *)
      destruct (pools w l) as [|p r] eqn:El; injection Hx as <- <-.
      { exists (gs t). split; [reflexivity|]. easy_same Hi. }
      exists ((p, (false, pairs w p)) :: gs t). split; [simpl; eauto|].
      destruct Hi as [[loc [H1 H2 H3 H4 H5 H6 H7 H8 H9]] Hf Hr Hpr Hnp].
      match goal with |- inv ?w' _ => assert (HQ : quiet_tr w w') by (right; eexists _, _; split; [reflexivity|exact I]) end.
      assert (HL : loc p = PPool l) by (apply H2; rewrite El; left; reflexivity).
      pose proof (H5 l) as Hnd. rewrite El in Hnd. inversion Hnd as [|? ? Hn1 Hn2]; subst.
      split; [|intro q; rewrite (quiet_acc _ _ q HQ), (quiet_tak _ _ q HQ); apply Hf|eapply quiet_route; eauto| |
               rewrite (quiet_inp _ _ HQ); exact Hnp].
      + exists (lupd loc p (PHeld t)). split; simpl; auto.
        * intro p'. unfold lupd. cases_nat; [|apply H1]. rewrite <- H1. split; congruence.
        * intros l' p'. unfold lupd, upd. cases_nat.
          -- split; [intro; contradiction|discriminate].
          -- rewrite <- H2, El. simpl. intuition congruence.
          -- rewrite H2. split; congruence.
          -- apply H2.
        * intros q p'. unfold lupd. cases_nat; [|apply H3]. rewrite H3. split; congruence.
        * intros t' p'. unfold lupd, gupd. cases_tid; simpl; cases_nat.
          -- split; auto.
          -- rewrite <- H4. intuition congruence.
          -- rewrite H4. split; congruence.
          -- apply H4.
        * intro l'. unfold upd. cases_nat; auto.
        * intro t'. unfold gupd. cases_tid; simpl; auto. constructor; auto. rewrite H4. congruence.
        * intros t' p' b c. unfold gupd. cases_tid; simpl; [intros [Hin|Hin]|]; eauto. congruence.
      + intros t' p'. rewrite (quiet_inp _ _ HQ), Hpr. unfold gupd. cases_tid; [|reflexivity]. simpl.
        split; intros [c H]; exists c; [right; exact H|]. destruct H as [H|H]; [discriminate|exact H].
    - (* IPoolOffer *)
      injection Hx as <- <-. destruct Hp as (c0 & g0 & Hg).
      exists (tl (gs t)). split; [reflexivity|].
      destruct Hi as [[loc [H1 H2 H3 H4 H5 H6 H7 H8 H9]] Hf Hr Hpr Hnp].
      assert (HL : loc p = PHeld t) by (apply H4; rewrite Hg; left; reflexivity).
      pose proof (H7 t) as Hnd. rewrite Hg in Hnd. simpl in Hnd. inversion Hnd as [|? ? Hn1 Hn2]; subst.
      rewrite Hg. simpl. split; simpl.
      + exists (lupd loc p (PPool l)). split; simpl; auto.
        * intro p'. unfold lupd. cases_nat; [|apply H1]. rewrite <- H1. split; congruence.
        * intros l' p'. unfold lupd, upd. cases_nat; rewrite ?in_app_iff; simpl.
          -- split; auto.
          -- rewrite H2. intuition congruence.
          -- rewrite H2. split; congruence.
          -- apply H2.
        * intros q p'. unfold lupd. cases_nat; [|apply H3]. rewrite H3. split; congruence.
        * intros t' p'. unfold lupd, gupd. cases_tid; simpl; cases_nat.
          -- split; [intro; contradiction|discriminate].
          -- rewrite <- H4, Hg. simpl. intuition congruence.
          -- rewrite H4. split; congruence.
          -- apply H4.
        * intro l'. unfold upd. cases_nat; auto. apply NoDup_snoc; auto. rewrite H2. congruence.
        * intro t'. unfold gupd. cases_tid; simpl; auto.
        * intros t' p' b c. unfold gupd. cases_tid; simpl; eauto.
          intro Hin. eapply H8. rewrite Hg. right. exact Hin.
      + intro q. rewrite acc_app, tak_app. simpl. rewrite !app_nil_r. apply Hf.
      + intros t' q p' e1 m1 e2 m2 Hin. apply in_app_or in Hin. destruct Hin as [Hin|[Hin|[]]]; [eauto|].
        congruence.
      + intros t' p'. rewrite inp_app. unfold inproc_step. simpl.
        assert (Hrm : In (t', p') (remove tp_eq_dec (t, p) (inproc (tr w))) <->
                      In (t', p') (inproc (tr w)) /\ (t', p') <> (t, p)).
        { split; [apply in_remove|]. intros [Ha Hb]. apply in_in_remove; auto. }
        rewrite Hrm, Hpr. unfold gupd. cases_tid.
        * rewrite Hg. simpl. split.
          -- intros [[c [H|H]] Hne]; [congruence|eauto].
          -- intros [c H]. split; [eauto|]. intro Heq. injection Heq as ->.
             apply Hn1. apply (in_map fst) in H. exact H.
        * split; [intros [H _]; exact H|]. intro H. split; [exact H|congruence].
      + rewrite inp_app. unfold inproc_step. simpl. apply NoDup_remove_all. exact Hnp.
    - (* IQOffer *)
      destruct Hp as (g0 & Hg & Hq).
      destruct Hi as [[loc [H1 H2 H3 H4 H5 H6 H7 H8 H9]] Hf Hr Hpr Hnp].
      assert (HP : pairs w p = Some (e', m)) by (eapply H8; rewrite Hg; left; reflexivity).
      rewrite HP in Hx. injection Hx as <- <-.
      exists (tl (gs t)). split; [reflexivity|].
      assert (HL : loc p = PHeld t) by (apply H4; rewrite Hg; left; reflexivity).
      pose proof (H7 t) as Hnd. rewrite Hg in Hnd. simpl in Hnd. inversion Hnd as [|? ? Hn1 Hn2]; subst.
      rewrite Hg. simpl. split; simpl.
      + exists (lupd loc p (PQueue (qof m))). split; simpl; auto.
        * intro p'. unfold lupd. cases_nat; [|apply H1]. rewrite <- H1. split; congruence.
        * intros l p'. unfold lupd. cases_nat; [|apply H2]. rewrite H2. split; congruence.
        * intros q p'. unfold lupd, upd. cases_nat; rewrite ?in_app_iff; simpl.
          -- split; auto.
          -- rewrite H3. intuition congruence.
          -- rewrite H3. split; congruence.
          -- apply H3.
        * intros t' p'. unfold lupd, gupd. cases_tid; simpl; cases_nat.
          -- split; [intro; contradiction|discriminate].
          -- rewrite <- H4, Hg. simpl. intuition congruence.
          -- rewrite H4. split; congruence.
          -- apply H4.
        * intro q. unfold upd. cases_nat; auto. apply NoDup_snoc; auto. rewrite H3. congruence.
        * intro t'. unfold gupd. cases_tid; simpl; auto.
        * intros t' p' b c. unfold gupd. cases_tid; simpl; eauto.
          intro Hin. eapply H8. rewrite Hg. right. exact Hin.
        * intros q p'. unfold upd. cases_nat; rewrite ?in_app_iff; simpl; eauto.
          intros [H|[<-|[]]]; [eauto|congruence].
      + intro q. rewrite acc_app, tak_app. unfold upd. simpl. rewrite Hf, (Nat.eqb_sym (qof m) q).
        cases_nat; simpl; rewrite !app_nil_r; [|reflexivity].
        rewrite map_app, app_assoc. simpl. rewrite HP. reflexivity.
      + intros t' q p' e1 m1 e2 m2 Hin. apply in_app_or in Hin. destruct Hin as [Hin|[Hin|[]]]; [eauto|].
        injection Hin; intros; subst; auto.
      + intros t' p'. rewrite inp_app. unfold inproc_step. simpl. rewrite Hpr. unfold gupd.
        cases_tid; [|reflexivity]. rewrite Hg. simpl.
        split; intros [c H]; exists c; [destruct H as [H|H]; [discriminate|exact H]|right; exact H].
      + rewrite inp_app. exact Hnp.
    - (* IQPoll *)
      destruct (queues w q) as [|p r] eqn:El; injection Hx as <- <-.
      { exists (gs t). split; [reflexivity|]. easy_same Hi. }
      destruct Hi as [[loc [H1 H2 H3 H4 H5 H6 H7 H8 H9]] Hf Hr Hpr Hnp].
      assert (HP : exists c, pairs w p = Some c).
      { specialize (H9 q p). rewrite El in H9. destruct (pairs w p); [eauto|].
        exfalso. apply H9; [left; reflexivity|reflexivity]. }
      destruct HP as [c HP].
      exists ((p, (true, Some c)) :: gs t). split; [simpl; eauto|].
      assert (HL : loc p = PQueue q) by (apply H3; rewrite El; left; reflexivity).
      pose proof (H6 q) as Hnd. rewrite El in Hnd. inversion Hnd as [|? ? Hn1 Hn2]; subst.
      split; simpl.
      + exists (lupd loc p (PHeld t)). split; simpl; auto.
        * intro p'. unfold lupd. cases_nat; [|apply H1]. rewrite <- H1. split; congruence.
        * intros l p'. unfold lupd. cases_nat; [|apply H2]. rewrite H2. split; congruence.
        * intros q' p'. unfold lupd, upd. cases_nat.
          -- split; [intro; contradiction|discriminate].
          -- rewrite <- H3, El. simpl. intuition congruence.
          -- rewrite H3. split; congruence.
          -- apply H3.
        * intros t' p'. unfold lupd, gupd. cases_tid; simpl; cases_nat.
          -- split; auto.
          -- rewrite <- H4. intuition congruence.
          -- rewrite H4. split; congruence.
          -- apply H4.
        * intro q'. unfold upd. cases_nat; auto.
        * intro t'. unfold gupd. cases_tid; simpl; auto. constructor; auto. rewrite H4. congruence.
        * intros t' p' b c'. unfold gupd. cases_tid; simpl; [intros [Hin|Hin]|]; eauto. congruence.
        * intros q' p'. unfold upd. cases_nat; eauto. intro Hin. eapply H9. rewrite El. right. exact Hin.
      + intro q'. rewrite acc_app, tak_app. unfold upd. simpl. rewrite Hf, (Nat.eqb_sym q q').
        cases_nat; simpl; rewrite !app_nil_r; [|reflexivity].
        rewrite El, <- app_assoc. reflexivity.
      + intros t' q' p' e1 m1 e2 m2 Hin. apply in_app_or in Hin. destruct Hin as [Hin|[Hin|[]]]; [eauto|].
        congruence.
      + intros t' p'. rewrite inp_app. unfold inproc_step. simpl. rewrite Hpr. unfold gupd. cases_tid; simpl.
        * split.
          -- intros [H|[c' H]]; [injection H as <-; eauto|eauto].
          -- intros [c' [H|H]]; [left; congruence|eauto].
        * split; [intros [H|H]; [congruence|exact H]|auto].
      + rewrite inp_app. unfold inproc_step. simpl. constructor; [|exact Hnp].
        rewrite Hpr. intros [c' H]. apply (in_map fst) in H. simpl in H. apply H4 in H. congruence.
    - (* ILatchAwait *)
      exists (gs t). destruct t; [destruct (intrs w n); [|destruct (latches w p)]|destruct (latches w p)];
        try discriminate; injection Hx as <- <-; (split; [reflexivity|]); easy_same Hi.
    - (* ISelfInterrupt *)
      exists (gs t). destruct t; injection Hx as <- <-; (split; [reflexivity|]); easy_same Hi.
    - (* IMark *)
      injection Hx as <- <-. exists (gs t). split; [reflexivity|].
      apply (inv_same w); [reflexivity|reflexivity|reflexivity|reflexivity| |exact Hi].
      right. exists t, o. split; [reflexivity|]. destruct o; simpl in *; auto; contradiction.
  Qed.

  (** ** The programs *)
  Notation JJ := (@J held pre post (fun _ _ => True) (fun _ g g' => g' = g)).
  Lemma rrefl : forall (t : tid) (g : held), g = g. Proof. reflexivity. Qed.
  Lemma rtrans : forall (t : tid) (a b c : held), b = a -> c = b -> c = a. Proof. congruence. Qed.
  Definition plain (i : instr) : bool :=
    match i with
    | ISetPair _ _ _ | IQOffer _ _ _ _ _ | IPoolOffer _ _ | IPoolPoll _ | INewPair | IQPoll _
    | IMark (OOffer _ _ _ _ _ _) | IMark (OTake _ _ _) | IMark (OWr _) => false
    | _ => true
    end.
  Lemma J_plain i : plain i = true -> JJ (op i).
  Proof.
    intros H t g _. destruct i; try discriminate; simpl; auto;
      try (split; [auto|]; intros v g'; intros; subst; intuition (subst; auto)).
    destruct o; try discriminate; auto.
  Qed.
  Lemma J_boring i : boring i = true -> JJ (op i).
  Proof. intro H. apply J_plain. destruct i; try discriminate; auto. destruct o; try discriminate; auto. Qed.

  Notation jb L := (L E held pre post (fun _ _ => True) (fun _ g g' => g' = g)) (only parsing).

  Lemma J_default e m : JJ (default_process E (strat_of E m) e m).
  Proof.
    intros t g _. unfold default_process, queue_size.
    apply wp_bind, wp_bind, wp_op; [exact I|]. intros cc g' ->. apply wp_op; [exact I|]. intros n g' ->.
    destruct (andb _ _).
    { pose proof (J_call_ufl E pre post (fun _ _ => True) (fun _ g g' => g' = g) rrefl rtrans J_boring
        (s_ufl (strat E (strat_of E m)))
        (KUflExn (s_ufl (strat E (strat_of E m))) e m (XIllegalState (RQueueFull n))) t g I) as H. exact H. }
    apply wp_bind. unfold pool_take. apply wp_bind, wp_op; [exact I|].
    assert (Hrest : forall p c,
      wp pre post t (py <- op (IGetPay e) ;;
        e' <- match py with
        | Some _ => nm <- op (IGetName e) ;; py' <- op (IGetPay e) ;; c <- op (INewCopy nm py') ;; op (ISetPair p c m) ;;; Ret c
        | None => op (ISetPair p e m) ;;; Ret e
        end ;;
        op (IQOffer (s_queue (strat E (strat_of E m))) p e m e') ;;;
        ok <- op (IExecute (s_exec (strat E (strat_of E m))) {| tk_strat := strat_of E m; tk_mach := m |}) ;;
        if (ok : bool) then skip else Throw XRejected)
        (fun _ g' => g' = g /\ True) ((p, (false, c)) :: g)).
    { intros p c. apply wp_bind, wp_op; [exact I|]. intros py g' ->.
      assert (Hfin : forall e' , wp pre post t (op (IQOffer (s_queue (strat E (strat_of E m))) p e m e') ;;;
          ok <- op (IExecute (s_exec (strat E (strat_of E m))) {| tk_strat := strat_of E m; tk_mach := m |}) ;;
          if (ok : bool) then skip else Throw XRejected) (fun _ g' => g' = g /\ True) ((p, (false, Some (e', m))) :: g)).
      { intro e'. apply wp_bind, wp_op; [exists g; auto|]. intros _ g' ->. simpl tl.
        apply wp_bind, wp_op; [exact I|]. intros ok g' ->. destruct ok; simpl; auto. }
      apply wp_bind. destruct py.
      - apply wp_bind, wp_op; [exact I|]. intros nm g' ->.
        apply wp_bind, wp_op; [exact I|]. intros py' g' ->.
        apply wp_bind, wp_op; [exact I|]. intros c' g' ->.
        apply wp_bind, wp_op; [simpl; eauto|]. intros _ g' ->. apply Hfin.
      - apply wp_bind, wp_op; [simpl; eauto|]. intros _ g' ->. apply Hfin. }
    intros [p|] g'.
    - intros [c ->]. apply Hrest.
    - intros ->. apply wp_op; [exact I|]. intros p g' ->. apply Hrest.
  Qed.

  Lemma J_process e m : JJ (process_event E (strat_of E m) e m).
  Proof.
    apply J_process_event; auto using J_boring, J_default, rrefl; try exact rrefl; try exact rtrans; intros; apply J_plain; reflexivity.
  Qed.
  Lemma J_interp_all u : JJ (interp E u).
  Proof.
    apply (J_interp E pre post (fun _ _ => True) (fun _ g g' => g' = g) rrefl rtrans J_boring (fun _ => True)).
    - intros a _. apply Jret_J; try exact rrefl; try exact rtrans; [|intro; apply J_plain; reflexivity].
      apply J_api; auto using J_boring, rrefl, J_process; try exact rrefl; try exact rtrans.
      + intros. apply J_update_current; auto using J_boring, rrefl; try exact rrefl; try exact rtrans; intros; apply J_plain; reflexivity.
      + intros. apply J_start; auto using J_boring, rrefl, J_process; try exact rrefl; try exact rtrans; intros; apply J_plain; reflexivity.
      + intros. apply J_start_in; auto using J_boring, rrefl, J_process; try exact rrefl; try exact rtrans; intros; apply J_plain; reflexivity.
      + intros i H. apply J_plain. destruct a; try discriminate; injection H as <-; reflexivity.
    - induction u; simpl; auto.
  Qed.
  Lemma J_exec k e m : JJ (execute E k e m).
  Proof.
    apply J_execute; auto using J_boring, rrefl, J_process; try exact rrefl; try exact rtrans.
    intros. apply J_update_current; auto using J_boring, rrefl; try exact rrefl; try exact rtrans; intros; apply J_plain; reflexivity.
  Qed.

  Lemma wp_drain t tk g : wp pre post t (drain_iter E tk) (fun _ g' => g' = g) g.
  Proof.
    unfold drain_iter. apply wp_bind, wp_op; [exact I|]. intros b g' ->.
    destruct b; [reflexivity|].
    apply wp_bind, wp_op; [exact I|]. intros [p|] g'; [|intros ->; reflexivity]. intros [c ->].
    apply wp_bind, wp_then_res. apply wp_bind, wp_op; [exact I|]. intros v g' [-> Hv].
    rewrite (Hv (Some c) g eq_refl). destruct c as [e m].
    apply wp_try_finally.
    eapply wp_mono with (Q := fun _ g' => g' = (p, (true, Some (e, m))) :: g).
    { intros r g' ->. apply wp_op; [simpl; eauto|]. intros _ g' ->. simpl tl.
      destruct r as [[]|x]; apply wp_bind, wp_op; try exact I; intros _ g' ->; simpl; reflexivity. }
    assert (H : JJ (try_catch
                    (en <- op (IGetEnded (tk_mach tk)) ;;
                     if (en : bool) then skip else execute E (tk_strat tk) e m)
                    (fun x => call_ufl E (s_ufl (strat E (tk_strat tk))) (KUflExn (s_ufl (strat E (tk_strat tk))) e m x)))).
    { apply J_try_catch; try exact rrefl; try exact rtrans; [|intro; apply J_call_ufl; auto using rrefl, J_boring; exact rtrans].
      apply J_bind; try exact rrefl; try exact rtrans; [apply J_plain; reflexivity|]. intros [|]; [apply J_skip; exact rrefl|apply J_exec]. }
    eapply wp_mono; [|apply (H t _ I)]. simpl. intros ? ? [-> _]. reflexivity.
  Qed.

  Theorem own_inv w0 w : init_mem E w0 -> reach E w0 w -> exists gs, inv (wm w) gs.
  Proof.
    intros H0 [sched ->].
    destruct (sound E pre post inv (fun _ _ _ => True) (fun _ _ _ g => g = []) (fun _ g => g = [])) with
      (w := init_world E w0) (gs := fun _ : tid => @nil (pid * (bool * content))) (sched := sched) as [gs Hok].
    - intros. eapply exec_own; eauto.
    - intros t g c h _. eapply wp_mono; [|apply (J_interp_all _ t g I)]. simpl. intros ? ? [-> _]; reflexivity.
    - intros w gs x i tk r Hi Hl Hg Et. exists []. split.
      + rewrite <- Hg. apply (inv_same w); try reflexivity; auto. left; reflexivity.
      + apply wp_drain.
    - intros w gs x i tk Hi Hl Hg. exists []. split; [|apply wp_drain].
      rewrite <- Hg. eapply inv_ext; [apply gupd_same|auto].
    - intros w gs x i tk Hi Hl Hg. exists []. split; [|reflexivity].
      rewrite <- Hg. eapply inv_ext; [apply gupd_same|auto].
    - intros w gs x i tk e Hi Hl Hg. exists []. split; [|reflexivity].
      rewrite <- Hg. apply (inv_same w); try reflexivity; auto. right; eexists _, _; split; [reflexivity|exact I].
    - destruct H0. split; [|split].
      + split.
        * exists (fun _ => PFresh). simpl. split; simpl; intros; rewrite ?im_pools, ?im_queues, ?im_npair in *; simpl in *;
            try constructor; try easy; try lia.
        * intro q. simpl. rewrite im_tr, im_queues. reflexivity.
        * intros t q p e m e' m'. simpl. rewrite im_tr. intros [].
        * intros t p. simpl. rewrite im_tr. simpl. split; [intros []|intros [c []]].
        * simpl. rewrite im_tr. constructor.
      + intro n. simpl. destruct (Nat.ltb n (n_clients E)); [|exact I].
        eapply wp_mono; [|apply (J_interp_all _ _ _ I)]. auto.
      + reflexivity.
    - exists gs. apply Hok.
  Qed.
End Own.
