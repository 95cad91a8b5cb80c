(** * QueueProofs.v: proofs for C09, C24, C29, C39 *)
From Verif Require Import Spec MemInv Hands Own Lang Tree Nodes Marks.

Section Queue.
  Context (E : env).

  Lemma fifo w0 w q : init_mem E w0 -> reach E w0 w ->
    accepted q (tr (wm w)) = taken q (tr (wm w)) ++ map (fun p => (p, pairs (wm w) p)) (queues (wm w) q).
  Proof. intros H0 Hr. destruct (own_inv E w0 w H0 Hr) as [gs Hi]. apply (i_fifo _ _ _ Hi). Qed.

  Lemma mcall_neq c o (P : Prop) : mcall c o -> (forall c', o <> OCall c') -> (forall c' x, o <> OBack c' x) -> P.
  Proof. intros [->|[x ->]] H1 H2; exfalso; [eapply H1|eapply H2]; reflexivity. Qed.

  Lemma mfire_offer m e q p e1 m1 e' m' : mfire E m e (OOffer q p e1 m1 e' m') -> e1 = e /\ m1 = m /\ m' = m.
  Proof. intro H. dmay; try discriminate. injection H; intros; subst; auto. Qed.

  Lemma may_offer t k q p e m e' m' : may E t k (OOffer q p e m e' m') -> fires E k m e.
  Proof.
    intro H. destruct k as [|a|c|q' p' c]; simpl in H.
    - destruct t; simpl in H; [|contradiction]. dmay; discriminate.
    - destruct a; simpl in H; try contradiction; try (dmay; discriminate); simpl.
      + apply mfire_offer in H. destruct H as (-> & -> & _). auto.
      + unfold mappstart, mappstop in H. destruct H as [H|[H|[[H|H]|H]]]; try (dmay; discriminate);
          apply mfire_offer in H; destruct H as (-> & -> & _); auto.
      + unfold mappstop in H. destruct H as [H|H]; try (dmay; discriminate);
          apply mfire_offer in H; destruct H as (-> & -> & _); auto.
      + destruct H as [H|H]; try (dmay; discriminate);
          apply mfire_offer in H; destruct H as (-> & -> & _); auto.
    - assert (Ha : forall a e0 m0, mact E a e0 m0 (OOffer q p e m e' m') ->
          match a with
          | AAppStarting p | AAppStopping p => m = ap_mach (apps E p) /\ e = ELife LComplete
          | AAppStopped p => m = ap_mach (apps E p) /\ e = ELife LStop
          | _ => False
          end).
      { intros a e0 m0 Ha. destruct a; simpl in Ha; try (dmay; discriminate).
        - destruct Ha as [Ha|[Ha|[Ha|Ha]]]; try (dmay; discriminate). apply mfire_offer in Ha. destruct Ha as (-> & -> & _). auto.
        - contradiction.
        - destruct Ha as [Ha|[Ha|[Ha|Ha]]]; try (dmay; discriminate). apply mfire_offer in Ha. destruct Ha as (-> & -> & _). auto.
        - destruct Ha as [Ha|[Ha|Ha]]; try (dmay; discriminate). apply mfire_offer in Ha. destruct Ha as (-> & -> & _). auto. }
      destruct c; simpl in H.
      + eapply Ha. exact H.
      + eapply Ha. exact H.
      + destruct h; [dmay; discriminate|]. destruct H as [H|[H|H]]; try (dmay; discriminate).
        apply mfire_offer in H. destruct H as (-> & -> & _). simpl. auto.
      + destruct l as [[n|n nm]|n]; dmay; discriminate.
      + destruct h; dmay; discriminate.
      + destruct u; dmay; discriminate.
      + destruct u; dmay; discriminate.
      + destruct u; dmay; discriminate.
      + dmay; discriminate.
    - dmay; discriminate.
  Qed.

  Lemma accepted_fired w0 w t q p e m e' m' : init_mem E w0 -> reach E w0 w ->
    In (t, OOffer q p e m e' m') (tr (wm w)) ->
    m' = m /\ q = queue_of E m /\ exists k, fires E k m e /\ inside t (tr (wm w)) k (OOffer q p e m e' m').
  Proof.
    intros H0 Hr Hin. destruct (own_inv E w0 w H0 Hr) as [gs Hi].
    destruct (i_route _ _ _ Hi _ _ _ _ _ _ _ Hin) as [-> ->].
    split; [reflexivity|]. split; [reflexivity|].
    destruct (placed E w0 w t _ H0 Hr Hin) as (k & its & Hi1 & Hm & Hp).
    exists k. split; [eapply may_offer; exact Hm|]. exists its. split; assumption.
  Qed.

  Lemma one_place w0 w : init_mem E w0 -> reach E w0 w ->
    exists loc : pid -> place,
      (forall l p, In p (pools (wm w) l) <-> loc p = PPool l) /\
      (forall q p, In p (queues (wm w) q) <-> loc p = PQueue q) /\
      (forall t p, In (t, p) (hands (tr (wm w))) <-> loc p = PHeld t) /\
      (forall l, NoDup (pools (wm w) l)) /\ (forall q, NoDup (queues (wm w) q)) /\ NoDup (hands (tr (wm w))).
  Proof.
    intros H0 Hr. destruct (own_hands E w0 w H0 Hr) as (gs & [[loc Hl] _ _ _ _] & [Ha Hb Hc]). destruct Hl.
    exists loc. split; [exact il_pool|]. split; [exact il_queue|]. split; [|auto].
    intros t p. rewrite Ha. apply il_held.
  Qed.

  Lemma no_write_queued w0 w a t p e m b : init_mem E w0 -> reach E w0 w ->
    tr (wm w) = a ++ (t, OWr (WrPair p e m)) :: b ->
    In (t, p) (hands a) /\
    forall q, exists waiting, accepted q a = taken q a ++ waiting /\ ~ In p (map fst waiting).
  Proof.
    intros H0 Hr Htr. destruct (own_hands E w0 w H0 Hr) as (gs & _ & [_ _ Hc]).
    specialize (Hc _ _ _ _ _ _ Htr). split; [exact Hc|]. intro q.
    destruct (reach_prefix E w0 w (im_tr _ _ H0) Hr _ _ Htr) as (w1 & Hr1 & <-).
    exists (map (fun p => (p, pairs (wm w1) p)) (queues (wm w1) q)). split; [apply (fifo w0); assumption|].
    rewrite map_map. simpl. rewrite map_id.
    destruct (one_place w0 w1 H0 Hr1) as (loc & _ & Hq & Hh & _). rewrite Hq. apply Hh in Hc. congruence.
  Qed.

  Lemma taken_in q tr0 p c : (exists t, In (t, OTake q p c) tr0) <-> In (p, c) (taken q tr0).
  Proof.
    unfold taken. rewrite in_flat_map. split.
    - intros [t H]. exists (t, OTake q p c). split; [exact H|]. simpl. rewrite Nat.eqb_refl. left. reflexivity.
    - intros ([t o] & H & Hin). simpl in Hin. destruct o; try contradiction.
      destruct (Nat.eqb_spec q0 q); [|contradiction]. destruct Hin as [[= -> ->]|[]]. subst. eauto.
  Qed.
  Lemma accepted_in q tr0 p c : In (p, c) (accepted q tr0) -> exists t e m e' m', c = Some (e', m') /\ In (t, OOffer q p e m e' m') tr0.
  Proof.
    unfold accepted. rewrite in_flat_map. intros ([t o] & H & Hin). simpl in Hin. destruct o; try contradiction.
    destruct (Nat.eqb_spec q0 q); [|contradiction]. destruct Hin as [[= -> <-]|[]]. subst. eauto 10.
  Qed.
  (** whatever is taken was accepted before, with the machine it was fired on *)
  Lemma taken_accepted w0 w t q p c : init_mem E w0 -> reach E w0 w -> In (t, OTake q p c) (tr (wm w)) ->
    exists t' e e' m, c = Some (e', m) /\ q = queue_of E m /\ In (t', OOffer q p e m e' m) (tr (wm w)).
  Proof.
    intros H0 Hr Hin. assert (Ht : In (p, c) (taken q (tr (wm w)))) by (apply taken_in; eauto).
    assert (Ha : In (p, c) (accepted q (tr (wm w)))) by (rewrite (fifo w0 w q H0 Hr); apply in_or_app; auto).
    apply accepted_in in Ha. destruct Ha as (t' & e & m & e' & m' & -> & Ho).
    destruct (accepted_fired w0 w _ _ _ _ _ _ _ H0 Hr Ho) as (-> & -> & _). exists t', e, e', m. auto.
  Qed.

  (** the queue has been polled as often as an event was taken from it *)
  Lemma polled_now w0 w q : init_mem E w0 -> reach E w0 w -> polled (wm w) q = List.length (taken q (tr (wm w))).
  Proof.
    intros H0 Hr. pattern w. revert w Hr. apply reach_ind.
    - simpl. rewrite (im_polled _ _ H0), (im_tr _ _ H0). reflexivity.
    - intros w t w' Hr IH Hs.
      destruct (step_mem E w0 _ _ _ Hr Hs) as [_ [He|[(i & v & Hp & Hx)|[(x & tk & r & _ & He)|(tk & y & He)]]]].
      + rewrite He. exact IH.
      + destruct i; simpl in Hx;
          repeat match type of Hx with
             | (if ?b then _ else _) = _ => destruct b eqn:?
             | match ?b with _ => _ end = _ => destruct b eqn:?
             end; try discriminate; injection Hx as <- Hx; rewrite <- Hx in *; simpl in *;
          try (match goal with |- context [match pairs ?w ?p with _ => _ end] => destruct (pairs w p) as [[? ?]|]; simpl end);
          unfold taken in *; rewrite ?flat_map_app, ?app_length; simpl;
          try (match goal with b : bool |- context [if ?b then OEnded _ else _] => destruct b; simpl end);
          try (rewrite Nat.add_0_r; exact IH); try exact IH.
        * unfold upd. rewrite (Nat.eqb_sym q q0). destruct (Nat.eqb_spec q0 q) as [->|N]; simpl; rewrite IH; lia.
        * destruct o; try contradiction; simpl; rewrite Nat.add_0_r; exact IH.
      + rewrite He. exact IH.
      + rewrite He. simpl. unfold taken in *. rewrite flat_map_app, app_length. simpl. rewrite Nat.add_0_r. exact IH.
  Qed.

  (** a machine with a queue of its own *)
  Lemma isolated w0 w t m p c its : init_mem E w0 -> reach E w0 w -> private_queue E m ->
    bracket t (tr (wm w)) (FTake (queue_of E m) p c) its ->
    exists e, c = Some (e, m) /\
      (exists i, t = TWorker (exec_of E m) i) /\
      forall o, In o its ->
        match o with
        | ORd (RdMap tb _ e' _) => tb = table_of E m /\ e' = e
        | ORd (RdFinal tb _ _) => tb = table_of E m
        | OState m' _ | OEnded m' => m' = m
        | OCall (KListen _ _ m' _ e' _) | OCall (KAct _ _ _ e' m') | OCall (KUnmapped _ e' m') | OCall (KUflExn _ e' m' _) => m' = m /\ e' = e
        | OCall _ | OOffer _ _ _ _ _ _ | OUnended _ | OStarted _ => False
        | _ => True
        end.
  Proof.
    intros H0 Hr Hpriv Hc.
    assert (Hm : Forall (may E t (FTake (queue_of E m) p c)) its).
    { destruct (tree_ok E w0 w H0 Hr) as [Hn Ho]. destruct Hc as [Hc|[z Hc]].
      - apply Ho in Hc. eapply frame_may; exact Hc.
      - apply Hn in Hc. eapply node_may; exact Hc. }
    assert (Htk : In (t, OTake (queue_of E m) p c) (tr (wm w))).
    { destruct Hc as [Hc|[z Hc]].
      - destruct (opened_inv _ _ _ _ Hc ltac:(discriminate)) as (a & op & b & u & Htr & Ho & _).
        destruct op; try discriminate. injection Ho as -> -> ->. rewrite Htr. apply in_or_app. right. left. reflexivity.
      - destruct (closed_inv _ _ _ _ _ Hc ltac:(discriminate)) as (a & op & b & d & Htr & Ho & _).
        destruct op; try discriminate. injection Ho as -> -> ->. rewrite Htr. apply in_or_app. right. left. reflexivity. }
    destruct (taken_accepted w0 w _ _ _ _ H0 Hr Htk) as (t' & e0 & e & m' & -> & Hq & _).
    symmetry in Hq. apply Hpriv in Hq. subst m'. exists e. split; [reflexivity|].
    assert (Hw : exists i, t = TWorker (exec_of E m) i).
    { destruct (tree_ok E w0 w H0 Hr) as [Hn Ho].
      assert (Hx : exists tm i, t = TWorker (s_exec (strat E (strat_of E tm))) i /\ queue_of E m = s_queue (strat E (strat_of E tm))).
      { destruct Hc as [Hc|[z Hc]].
        - apply Ho in Hc. simpl in Hc. destruct Hc as (ext & z' & Hc). destruct z'; try contradiction.
          destruct Hc as (_ & _ & tm & i & Ht & Hq & _). eauto.
        - apply Hn in Hc. simpl in Hc. destruct z; try contradiction. destruct Hc as (_ & _ & tm & i & Ht & Hq & _). eauto. }
      destruct Hx as (tm & i & Ht & Hq). assert (tm = m) by (apply Hpriv; symmetry; exact Hq). subst tm. exists i. exact Ht. }
    split; [exact Hw|]. intros o Hin. rewrite Forall_forall in Hm. specialize (Hm o Hin). simpl in Hm.
    destruct Hm as (tm & i & _ & Hq & Hm). assert (tm = m) by (apply Hpriv; symmetry; exact Hq). subst tm.
    unfold mtake, mexec, mtrans, mnotify, macts, mupdate, mcur, mcall in Hm. fold (table_of E m) in Hm.
    repeat match goal with
    | H : _ \/ _ |- _ => destruct H
    | H : exists _, _ |- _ => destruct H
    | H : _ /\ _ |- _ => destruct H
    | H : Some _ = Some _ |- _ => injection H as <- <-
    end; subst o; auto.
  Qed.
End Queue.
