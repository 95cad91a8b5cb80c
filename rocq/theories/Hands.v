(** * Hands.v: which thread holds which pair object (proofs for C24) *)
From Verif Require Import Sched Logic Neutral OwnSpec Own.

Section Hands.
  Context (E : env).
  Record hands_ok (w : mem) (gs : tid -> held) : Prop := {
    ho_in : forall t p, In (t, p) (hands (tr w)) <-> In p (map fst (gs t));
    ho_nd : NoDup (hands (tr w));
    ho_wr : forall tr1 t p e m tr2, tr w = tr1 ++ (t, OWr (WrPair p e m)) :: tr2 -> In (t, p) (hands tr1) }.

  Lemma hands_snoc a to : hands (a ++ [to]) = hands_step (hands a) to.
  Proof. unfold hands. rewrite fold_left_app. reflexivity. Qed.

  Definition calm (o : obs) : Prop :=
    match o with OOffer _ _ _ _ _ _ | OTake _ _ _ | OWr (WrGive _ _) | OWr (WrGot _) | OWr (WrPair _ _ _) => False | _ => True end.
  Lemma snoc_cases {A} (l l1 l2 : list A) x y : l ++ [x] = l1 ++ y :: l2 ->
    (l2 = [] /\ l = l1 /\ x = y) \/ (exists l3, l2 = l3 ++ [x] /\ l = l1 ++ y :: l3).
  Proof.
    intro H. destruct (rev l2) as [|z r] eqn:Er.
    - left. apply (f_equal (@rev A)) in Er. rewrite rev_involutive in Er. simpl in Er. subst l2.
      apply app_inj_tail in H. destruct H. auto.
    - right. apply (f_equal (@rev A)) in Er. rewrite rev_involutive in Er. simpl in Er. subst l2.
      exists (rev r). rewrite app_comm_cons, app_assoc in H. apply app_inj_tail in H.
      destruct H as [-> ->]. auto.
  Qed.
  Lemma hands_calm w w' gs gs' : (forall t, gs' t = gs t) ->
    tr w' = tr w \/ (exists t o, tr w' = tr w ++ [(t, o)] /\ calm o) -> hands_ok w gs -> hands_ok w' gs'.
  Proof.
    intros Hg [He|(t & o & He & Ho)] [H1 H2 H3]; split; rewrite He; auto.
    - intros t p. rewrite Hg. auto.
    - intros t' p. rewrite Hg, hands_snoc, <- H1. destruct o; simpl in *; try tauto. match goal with x : wr |- _ => destruct x; simpl in *; tauto end.
    - rewrite hands_snoc. destruct o; simpl in *; auto; try contradiction. match goal with x : wr |- _ => destruct x; simpl in *; auto; contradiction end.
    - intros tr1 t' p e m tr2 Hs. apply snoc_cases in Hs. destruct Hs as [(-> & <- & Hx)|(l3 & -> & Hx)]; [|eauto].
      injection Hx as -> ->. contradiction.
  Qed.
  Lemma gupd_id (gs : tid -> held) t t' : gupd gs t (gs t) t' = gs t'.
  Proof. unfold gupd. destruct (tid_eq_dec t' t); congruence. Qed.

  Lemma hands_add w w' gs t p g' : ~ In p (map fst (gs t)) -> map fst g' = p :: map fst (gs t) ->
    (exists o, tr w' = tr w ++ [(t, o)] /\ (o = OWr (WrGot p) \/ exists q c, o = OTake q p c)) ->
    hands_ok w gs -> hands_ok w' (gupd gs t g').
  Proof.
    intros Hn Hg (o & He & Ho) [H1 H2 H3].
    assert (Hh : hands (tr w') = (t, p) :: hands (tr w)).
    { rewrite He, hands_snoc. destruct Ho as [->|(q & c & ->)]; reflexivity. }
    split.
    - intros t' p'. rewrite Hh. unfold gupd. destruct (tid_eq_dec t' t) as [->|N].
      + rewrite Hg. simpl. rewrite H1. intuition congruence.
      + simpl. rewrite H1. intuition congruence.
    - rewrite Hh. constructor; [|exact H2]. rewrite H1. exact Hn.
    - intros tr1 t' p' e m tr2. rewrite He. intro Hs. apply snoc_cases in Hs.
      destruct Hs as [(-> & <- & Hx)|(l3 & -> & Hx)]; [|eauto].
      injection Hx as -> ->. destruct Ho as [Ho|(q & c & Ho)]; discriminate.
  Qed.
  Lemma hands_del w w' gs t p g0 x : gs t = (p, x) :: g0 -> ~ In p (map fst g0) ->
    (exists o, tr w' = tr w ++ [(t, o)] /\ ((exists l, o = OWr (WrGive l p)) \/ exists q e m e' m', o = OOffer q p e m e' m')) ->
    hands_ok w gs -> hands_ok w' (gupd gs t g0).
  Proof.
    intros Hg Hn (o & He & Ho) [H1 H2 H3].
    assert (Hh : hands (tr w') = remove tp_eq_dec (t, p) (hands (tr w))).
    { rewrite He, hands_snoc. destruct Ho as [[l ->]|(q & e & m & e' & m' & ->)]; reflexivity. }
    assert (Hrm : forall t' p', In (t', p') (remove tp_eq_dec (t, p) (hands (tr w))) <->
                      In (t', p') (hands (tr w)) /\ (t', p') <> (t, p)).
    { intros. split; [apply in_remove|]. intros [Ha Hb]. apply in_in_remove; auto. }
    split.
    - intros t' p'. rewrite Hh, Hrm, H1. unfold gupd. destruct (tid_eq_dec t' t) as [->|N].
      + rewrite Hg. simpl. split.
        * intros [[->|H] Hne]; [congruence|exact H].
        * intro H. split; [auto|]. intros [= ->]. contradiction.
      + split; [tauto|]. intro H. split; [exact H|congruence].
    - rewrite Hh. apply NoDup_remove_all. exact H2.
    - intros tr1 t' p' e m tr2. rewrite He. intro Hs. apply snoc_cases in Hs.
      destruct Hs as [(-> & <- & Hx)|(l3 & -> & Hx)]; [|eauto].
      injection Hx as -> ->. destruct Ho as [[l Ho]|(q & ? & ? & ? & ? & Ho)]; discriminate.
  Qed.

  Lemma exec_hands w gs t i v w' g' : inv E w gs -> hands_ok w gs -> pre E t (gs t) i -> exec E w t i = Some (v, w') ->
    post t (gs t) i v g' -> hands_ok w' (gupd gs t g').
  Proof.
    intros Hi Hh Hp Hx Hpost.
    destruct Hi as [[loc [H1 H2 H3 H4 H5 H6 H7 H8 H9]] _ _ _ _].
    assert (Hsame : g' = gs t -> tr w' = tr w \/ (exists t o, tr w' = tr w ++ [(t, o)] /\ calm o) ->
              hands_ok w' (gupd gs t g')).
    { intros -> Ht. eapply hands_calm; [apply gupd_id|exact Ht|exact Hh]. }
    destruct i; simpl in Hx, Hpost;
      try (repeat match type of Hx with
             | (if ?b then _ else _) = _ => destruct b
             | match ?b with _ => _ end = _ => destruct b eqn:?
             end; try discriminate; injection Hx as <- <-;
           (apply Hsame; [exact Hpost|]);
           solve [left; reflexivity|right; eexists _, _; split; [reflexivity|exact I]]).
    - (* ICasEnded *)
      apply Hsame; [exact Hpost|]. right.
      destruct (m_ended (machs w m)); [|destruct b]; injection Hx as <- <-; eexists _, _; (split; [reflexivity|exact I]).
    - (* INewPair *)
      injection Hx as <- <-. subst g'. eapply (hands_add w _ gs t (npair w)); [| | |exact Hh].
      + rewrite H4. assert (loc (npair w) = PFresh) by (apply H1; lia). congruence.
      + reflexivity.
      + eexists. split; [reflexivity|auto].
    - (* ISetPair *)
      injection Hx as <- <-. subst g'. destruct Hp as (c0 & g0 & Hg). destruct Hh as [Ha Hb Hc]. split; simpl.
      + intros t' p'. rewrite hands_snoc. simpl. rewrite Ha. unfold gupd. destruct (tid_eq_dec t' t) as [->|]; [|reflexivity].
        rewrite Hg. reflexivity.
      + rewrite hands_snoc. exact Hb.
      + intros tr1 t' p' e' m' tr2 Hs. apply snoc_cases in Hs.
        destruct Hs as [(-> & <- & Hx)|(l3 & -> & Hx)]; [|eauto].
        injection Hx as <- <- <- <-. rewrite Ha, Hg. left. reflexivity.
    - (* IGetPair *)
      injection Hx as <- <-. apply Hsame; [apply Hpost|]. right. eexists _, _. split; [reflexivity|exact I].
    - (* IPoolPoll *)
      destruct (pools w l) as [|p r] eqn:El; injection Hx as <- <-.
      { apply Hsame; [exact Hpost|]. left. reflexivity. }
      destruct Hpost as [c ->]. eapply (hands_add w _ gs t p); [| | |exact Hh].
      + rewrite H4. assert (loc p = PPool l) by (apply H2; rewrite El; left; reflexivity). congruence.
      + reflexivity.
      + eexists. split; [reflexivity|auto].
    - (* IPoolOffer *)
      injection Hx as <- <-. destruct Hp as (c0 & g0 & Hg). subst g'. rewrite Hg. simpl.
      pose proof (H7 t) as Hnd. rewrite Hg in Hnd. simpl in Hnd. inversion Hnd as [|? ? Hn1 Hn2]; subst.
      eapply hands_del; [exact Hg|exact Hn1| |exact Hh]. eexists. split; [reflexivity|]. left. eauto.
    - (* IQOffer *)
      destruct Hp as (g0 & Hg & Hq).
      assert (HP : pairs w p = Some (e', m)) by (eapply H8; rewrite Hg; left; reflexivity).
      rewrite HP in Hx. injection Hx as <- <-. subst g'. rewrite Hg. simpl.
      pose proof (H7 t) as Hnd. rewrite Hg in Hnd. simpl in Hnd. inversion Hnd as [|? ? Hn1 Hn2]; subst.
      eapply hands_del; [exact Hg|exact Hn1| |exact Hh]. eexists. split; [reflexivity|]. right. eauto 10.
    - (* IQPoll *)
      destruct (queues w q) as [|p r] eqn:El; injection Hx as <- <-.
      { apply Hsame; [exact Hpost|]. left. reflexivity. }
      destruct Hpost as [c ->]. eapply (hands_add w _ gs t p); [| | |exact Hh].
      + rewrite H4. assert (loc p = PQueue q) by (apply H3; rewrite El; left; reflexivity). congruence.
      + reflexivity.
      + eexists. split; [reflexivity|eauto].
    - (* IMark *)
      injection Hx as <- <-. apply Hsame; [exact Hpost|]. right. exists t, o. split; [reflexivity|].
      destruct o; simpl in *; auto; contradiction.
  Qed.

  Theorem own_hands w0 w : init_mem E w0 -> reach E w0 w -> exists gs, inv E (wm w) gs /\ hands_ok (wm w) gs.
  Proof.
    intros H0 [sched ->].
    destruct (sound E (pre E) post (fun w gs => inv E w gs /\ hands_ok w gs) (fun _ _ _ => True) (fun _ _ _ g => g = []) (fun _ g => g = [])) with
      (w := init_world E w0) (gs := fun _ : tid => @nil (pid * (bool * content))) (sched := sched) as [gs Hok].
    - intros w gs t i v w' [Hi Hh] Hp Hx. destruct (exec_own E _ _ _ _ _ _ Hi Hp Hx) as (g' & Hpost & Hi').
      exists g'. split; [exact Hpost|]. split; [exact Hi'|]. eapply exec_hands; eauto.
    - intros t g c h _. eapply wp_mono; [|apply (J_interp_all E _ t g I)]. simpl. intros ? ? [-> _]; reflexivity.
    - intros w gs x i tk r [Hi Hh] Hl Hg Et. exists []. split; [|apply wp_drain].
      rewrite <- Hg. split.
      + apply (inv_same E w); try reflexivity; auto. left; reflexivity.
      + apply (hands_calm w _ gs); [apply gupd_id|left; reflexivity|exact Hh].
    - intros w gs x i tk [Hi Hh] Hl Hg. exists []. split; [|apply wp_drain].
      rewrite <- Hg. split.
      + eapply inv_ext; [apply gupd_same|auto].
      + apply (hands_calm w _ gs); [apply gupd_id|left; reflexivity|exact Hh].
    - intros w gs x i tk [Hi Hh] Hl Hg. exists []. split; [|reflexivity].
      rewrite <- Hg. split.
      + eapply inv_ext; [apply gupd_same|auto].
      + apply (hands_calm w _ gs); [apply gupd_id|left; reflexivity|exact Hh].
    - intros w gs x i tk e [Hi Hh] Hl Hg. exists []. split; [|reflexivity].
      rewrite <- Hg. split.
      + apply (inv_same E w); try reflexivity; auto. right; eexists _, _; split; [reflexivity|exact I].
      + apply (hands_calm w _ gs); [apply gupd_id| |exact Hh]. right; eexists _, _; split; [reflexivity|exact I].
    - split; [|split].
      + split.
        * destruct H0. split.
          -- exists (fun _ => PFresh). simpl. split; simpl; intros; rewrite ?im_pools, ?im_queues, ?im_npair in *; simpl in *;
               try constructor; try easy; try lia.
          -- intro q. simpl. rewrite im_tr, im_queues. reflexivity.
          -- intros t q p e m e' m'. simpl. rewrite im_tr. intros [].
          -- intros t p. simpl. rewrite im_tr. simpl. split; [intros []|intros [c []]].
          -- simpl. rewrite im_tr. constructor.
        * destruct H0. split; simpl; rewrite im_tr.
          -- intros. reflexivity.
          -- constructor.
          -- intros. destruct tr1; discriminate.
      + intro n. simpl. destruct (Nat.ltb n (n_clients E)); [|exact I].
        eapply wp_mono; [|apply (J_interp_all E _ _ _ I)]. auto.
      + reflexivity.
    - exists gs. apply Hok.
  Qed.
End Hands.
