(** * FlowProofs3.v: consequences of the exact script (proofs for C13-C18) *)
From Verif Require Import ExactSpec MemInv Lang Tree Nodes Marks QueueProofs Place Moments Truth FlowProofs ConfTruth ExactProofs FlowProofs2 Witness Copies.

Section Consequences.
  Context (E : env) (w0 : mem) (w : world) (H0 : init_mem E w0) (Hr : reach E w0 w).
  Notation T := (tr (wm w)).

  Lemma one_at_a_time h r m t t' p p' c c' its its' : T = h ++ r -> private_queue E m -> one_thread E m ->
    opened t h (FTake (queue_of E m) p c) its -> opened t' h (FTake (queue_of E m) p' c') its' ->
    t = worker_of E m /\ t' = t /\ p' = p /\ c' = c /\ its' = its.
  Proof.
    intros HT Hp Ho O1 O2.
    destruct (take_worker E w0 w H0 Hr m Hp Ho _ _ _ _ _ _ HT O1) as [-> _].
    destruct (take_worker E w0 w H0 Hr m Hp Ho _ _ _ _ _ _ HT O2) as [-> _].
    pose proof (take_unique E w0 w H0 Hr _ _ _ _ _ _ _ _ _ _ _ HT O1 O2) as Hx. injection Hx as -> -> ->. auto.
  Qed.

  Lemma callbacks_placed h r m t o : T = h ++ (t, o) :: r -> private_queue E m -> one_thread E m ->
    match o with OCall (KListen _ _ m' _ _ _) | OCall (KAct _ _ _ _ m') | OCall (KUnmapped _ _ m') => m' = m | _ => False end ->
    (t = worker_of E m /\ exists p e its i, fst (scan t h) = [(FTake (queue_of E m) p (Some (e, m)), its); (FRoot, i)] /\
       match o with OCall (KListen _ _ _ _ e' _) | OCall (KAct _ _ _ e' _) | OCall (KUnmapped _ e' _) => e' = e | _ => False end) \/
    (exists x its u, fst (scan t h) = (FApi x, its) :: u /\
       match x with AStart m' => m' = m | AAppStart p => ap_mach (apps E p) = m | _ => False end) \/
    (exists fin k f e s its u l, fst (scan t h) = (FCall (KListen fin (LMulti k) m f e s), its) :: u /\
       o = OCall (KListen fin (LLeaf l) m f e s)).
  Proof.
    intros HT Hp Ho Hcb.
    assert (Hcl : closes o = false) by (destruct o; try contradiction; reflexivity).
    destruct (placed_at E w0 w H0 Hr _ _ _ _ HT Hcl) as (k & its & u & Hs & Hm).
    destruct k as [|x|c|q p c].
    - exfalso. simpl in Hm. destruct t; simpl in Hm; [unfold muser in Hm; dmay; subst; contradiction|].
      destruct o; contradiction.
    - right. left. exists x, its, u. split; [exact Hs|].
      destruct x; simpl in Hm; dmay; subst; try contradiction; auto.
    - right. right.
      assert (Ha : forall a e0 m0, mact E a e0 m0 o -> False).
      { intros a e0 m0 Ha. destruct a; simpl in Ha; dmay; subst; try contradiction. }
      destruct c; simpl in Hm; try (exfalso; eapply Ha; exact Hm);
        try (exfalso; destruct h0; dmay; subst; try contradiction; fail);
        try (exfalso; destruct u0; simpl in Hm; dmay; subst; try contradiction; fail);
        try (exfalso; dmay; subst; try contradiction; fail).
      destruct l as [[n|n nm]|n]; simpl in Hm; [exfalso; dmay; subst; try contradiction|exfalso; dmay; subst; try contradiction|].
      destruct Hm as [[l ->]|[(l & vs & v & ->)|[(l & vs & v & ->)|[l [->|[x ->]]]]]]; try contradiction. subst m0.
      exists fin, n, f, e, t0, its, u, l. auto.
    - left.
      assert (Hop : opened t h (FTake q p c) its) by (unfold opened; rewrite Hs; left; reflexivity).
      assert (Hq : q = queue_of E m /\ exists e, c = Some (e, m) /\
        match o with OCall (KListen _ _ _ _ e' _) | OCall (KAct _ _ _ e' _) | OCall (KUnmapped _ e' _) => e' = e | _ => False end).
      { destruct (reach_prefix E w0 w (im_tr _ _ H0) Hr _ _ HT) as (w1 & Hr1 & Hw1).
        assert (Htk : In (t, OTake q p c) (tr (wm w1))).
        { rewrite Hw1. destruct (opened_inv _ _ _ _ Hop ltac:(discriminate)) as (a & op & b & v & Htr & Hop' & _).
          destruct op; try discriminate. injection Hop' as -> -> ->. rewrite Htr. apply in_or_app. right. left. reflexivity. }
        destruct (taken_accepted E w0 w1 _ _ _ _ H0 Hr1 Htk) as (t' & e0 & e & m' & -> & Hq & _).
        simpl in Hm. destruct Hm as (tm & i & _ & _ & Hm).
        assert (m' = m /\ match o with OCall (KListen _ _ _ _ e' _) | OCall (KAct _ _ _ e' _) | OCall (KUnmapped _ e' _) => e' = e | _ => False end) as [-> He].
        { dmay; subst; try contradiction;
            repeat match goal with H : Some _ = Some _ |- _ => injection H as <- <- end; auto. }
        split; [exact Hq|]. exists e. auto. }
      destruct Hq as [-> (e & -> & He)].
      destruct (take_worker E w0 w H0 Hr m Hp Ho _ _ _ _ _ _ HT Hop) as [-> _]. split; [reflexivity|].
      destruct (take_on_root E w0 w H0 Hr _ _ _ [] _ _ _ _ _ HT Hs) as (i & ->).
      exists p, e, its, i. auto.
  Qed.

  Lemma name_here m t a p e b its z d : undisturbed E w m t a p e b its z d -> made e a -> forall h,
    during t a (OTake (queue_of E m) p (Some (e, m))) b h -> name_at E w0 e h = name_at E w0 e a.
  Proof. intros (_ & _ & (HT & _) & _) Hm h Hd. eapply (name_during E w0 w H0 Hr); eauto. Qed.

  Lemma unmapped_exactly m t a p e b its z d conf :
    undisturbed E w m t a p e b its z d -> conf_at E w0 (table_of E m) a conf -> ended_at m a = false ->
    made e a -> reacts (sname E) conf (cur_at m a) (name_at E w0 e a) = Unmapped ->
    exists y x Rep, z = ODone (queue_of E m) p x /\ reported (flow_of E m) e m y x Rep /\
      shown its = called (KUnmapped (handler_of E m) e m) y ++ Rep /\
      mstate_at m (a ++ (t, OTake (queue_of E m) p (Some (e, m))) :: b ++ [(t, z)]) = mstate_at m a.
  Proof.
    intros Hu Hc He Hmd Hre. destruct (one_event E w0 w H0 Hr _ _ _ _ _ _ _ _ _ _ Hu Hc) as (x & h & Hz & Hd & Hev); try (rewrite (name_here _ _ _ _ _ _ _ _ _ Hu Hmd _ Hd) in Hev).
    destruct Hev as (y & P & Rep & Hsh & Hrep & Hev). exists y, x, Rep. split; [exact Hz|]. split; [exact Hrep|].
    unfold mstate_at in Hev at 1 2. simpl in Hev. rewrite He, Hre in Hev. destruct Hev as [Hst ->].
    split; [exact Hsh|]. rewrite Hst. unfold mstate_at. rewrite He. reflexivity.
  Qed.
  Lemma noop_exactly m t a p e b its z d conf s li f :
    undisturbed E w m t a p e b its z d -> conf_at E w0 (table_of E m) a conf -> ended_at m a = false ->
    made e a -> reacts (sname E) conf (cur_at m a) (name_at E w0 e a) = Target s -> sname E s = "_NOOP_" ->
    listener_at w0 m a = Some li -> cur_at m a = Some f ->
    exists y x Rep, z = ODone (queue_of E m) p x /\ reported (flow_of E m) e m y x Rep /\
      (shown its = called (KListen false li m f e s) None ++ called (KListen true li m f e s) y ++ Rep \/
       exists v, y = Some v /\ shown its = called (KListen false li m f e s) y ++ Rep) /\
      mstate_at m (a ++ (t, OTake (queue_of E m) p (Some (e, m))) :: b ++ [(t, z)]) = mstate_at m a.
  Proof.
    intros Hu Hc He Hmd Hre Hno Hli Hf. destruct (one_event E w0 w H0 Hr _ _ _ _ _ _ _ _ _ _ Hu Hc) as (x & h & Hz & Hd & Hev); try (rewrite (name_here _ _ _ _ _ _ _ _ _ Hu Hmd _ Hd) in Hev).
    destruct Hev as (y & P & Rep & Hsh & Hrep & Hev). exists y, x, Rep. split; [exact Hz|]. split; [exact Hrep|].
    assert (Hm : mstate_at m a = (Some f, false)) by (unfold mstate_at; rewrite He, Hf; reflexivity).
    rewrite Hm in *. cbn [fst snd] in Hev. rewrite Hf in Hre. rewrite Hre, Hli in Hev. simpl in Hev. rewrite Hno, String.eqb_refl in Hev.
    destruct Hev as [(v & -> & Hst & HP)|(s1 & o1 & o2 & -> & [-> H1] & [Hst H2])].
    - split; [|exact Hst]. right. exists v. split; [reflexivity|]. rewrite Hsh, HP. reflexivity.
    - split; [|exact Hst]. left. rewrite Hsh, H1, H2. reflexivity.
  Qed.
  Lemma state_after_exception m t a p e b its z d cb v :
    undisturbed E w m t a p e b its z d -> In (OBack cb (Some v)) its ->
    let before := mstate_at m a in
    let after := mstate_at m (a ++ (t, OTake (queue_of E m) p (Some (e, m))) :: b ++ [(t, z)]) in
    match cb with
    | KListen false _ _ _ _ _ | KAct false _ _ _ _ => after = before
    | KListen true _ _ _ _ s | KAct true _ s _ _ =>
        if String.eqb (sname E s) "_NOOP_" then after = before
        else after = (Some s, String.eqb (sname E s) "_END_")
    | _ => True
    end.
  Proof.
    intros Hu Hi. destruct (conf_exists E w0 (table_of E m) a H0) as [conf Hc].
    destruct (one_event E w0 w H0 Hr _ _ _ _ _ _ _ _ _ _ Hu Hc) as (x & h & Hz & Hd & Hev); try (rewrite (name_here _ _ _ _ _ _ _ _ _ Hu Hmd _ Hd) in Hev).
    eapply event_throw; [exact Hev|]. apply shown_in. split; [exact Hi|reflexivity].
  Qed.
  Lemma no_throw_shown its : no_throw its -> no_throw (shown its).
  Proof. intros H c y Hi. apply shown_in in Hi. destruct Hi as [Hi _]. exact (H _ _ Hi). Qed.
  Lemma final_state_ends m t a p e b its z d conf s :
    undisturbed E w m t a p e b its z d -> conf_at E w0 (table_of E m) a conf -> ended_at m a = false ->
    made e a -> reacts (sname E) conf (cur_at m a) (name_at E w0 e a) = Target s ->
    sname E s <> "_NOOP_" -> sname E s <> "_END_" -> final_state (sname E) (table_of E m) conf s ->
    let after := mstate_at m (a ++ (t, OTake (queue_of E m) p (Some (e, m))) :: b ++ [(t, z)]) in
    (no_throw its -> after = (Some (SEnd m), true)) /\
    (forall c v, In (OBack c (Some v)) its ->
       match c with
       | KAct true _ _ _ _ | KListen true _ _ _ _ _ => after = (Some s, false)
       | KAct false _ _ _ _ | KListen false _ _ _ _ _ => after = mstate_at m a
       | _ => True
       end).
  Proof.
    intros Hu Hc He Hmd Hre N1 N2 Hfin. destruct (one_event E w0 w H0 Hr _ _ _ _ _ _ _ _ _ _ Hu Hc) as (x & h & Hz & Hd & Hev); try (rewrite (name_here _ _ _ _ _ _ _ _ _ Hu Hmd _ Hd) in Hev).
    apply String.eqb_neq in N1, N2. split.
    - intro Hn. apply event_next in Hev; [|apply no_throw_shown; exact Hn]. revert Hev.
      unfold next. unfold mstate_at at 1 2. simpl. rewrite He, Hre, N1, N2. intros [[_ ->]|[Hx _]]; [reflexivity|contradiction].
    - intros c v Hi.
      assert (Hi' : In (OBack c (Some v)) (shown its)) by (apply shown_in; split; [exact Hi|reflexivity]).
      pose proof (event_target _ _ _ _ _ _ _ _ _ _ _ _ _ _ Hev He Hre N1 _ _ Hi') as Hx.
      pose proof (event_throw _ _ _ _ _ _ _ _ _ _ _ _ _ _ _ Hev Hi') as Hy.
      destruct c; auto; destruct fin || destruct entry; auto; subst; rewrite N1, N2 in Hy; exact Hy.
  Qed.
  Lemma other_states_do_not_end m t a p e b its z d conf s :
    undisturbed E w m t a p e b its z d -> conf_at E w0 (table_of E m) a conf -> ended_at m a = false ->
    made e a -> reacts (sname E) conf (cur_at m a) (name_at E w0 e a) = Target s ->
    sname E s <> "_NOOP_" -> sname E s <> "_END_" -> ~ final_state (sname E) (table_of E m) conf s ->
    no_throw its -> 
    mstate_at m (a ++ (t, OTake (queue_of E m) p (Some (e, m))) :: b ++ [(t, z)]) = (Some s, false).
  Proof.
    intros Hu Hc He Hmd Hre N1 N2 Hfin Hn. destruct (one_event E w0 w H0 Hr _ _ _ _ _ _ _ _ _ _ Hu Hc) as (x & h & Hz & Hd & Hev); try (rewrite (name_here _ _ _ _ _ _ _ _ _ Hu Hmd _ Hd) in Hev).
    apply String.eqb_neq in N1, N2. apply event_next in Hev; [|apply no_throw_shown; exact Hn]. revert Hev.
    unfold next. unfold mstate_at at 1 2. simpl. rewrite He, Hre, N1, N2. intros [[Hx _]|[_ ->]]; [contradiction|reflexivity].
  Qed.
End Consequences.
