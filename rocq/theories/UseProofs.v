(** * UseProofs.v: a machine used as its thread-safety needs (proofs for C64) *)
From Verif Require Import ExactSpec ApiSpec ExactProofs MemInv Lang Logic Own Tree Nodes Marks QueueProofs Place Moments Truth StartProofs HbSpec Chain HbProofs.

(** callbacks that may look at machine m, or call one that does *)
Definition concerns (m : mid) (c : call) : Prop :=
  match c with
  | KAct _ _ _ _ m' | KInner _ _ m' | KHandler _ _ m' _ | KListen _ _ m' _ _ _ | KUnmapped _ _ m' => m' = m
  | KUflExn FDefault _ m' _ => m' = m
  | _ => False
  end.
Definition full_call (m : mid) (o : obs) : Prop :=
  match o with OCall (KUflExn FDefault _ m' _) => m' = m | _ => False end.

Section Full.
  Context (E : env) (m : mid) (Hm : (s_max (strat E (strat_of E m)) <= 0)%Z \/ flow_of E m <> FDefault).
  Lemma plain_full l : Forall plain l -> Forall (fun o => ~ full_call m o) l.
  Proof.
    intro H. eapply Forall_impl; [|exact H]. intros o Ho. destruct o; simpl in *; auto. destruct c; simpl in *; auto.
  Qed.
  Lemma fire_full m' e x out : fireL E m' e x out -> Forall (fun o => ~ full_call m o) out.
  Proof.
    set (P := fun o => ~ full_call m o).
    assert (Hc : forall c y, ~ full_call m (OCall c) -> Forall P (called c y)).
    { intros c y Hn. unfold called, P. repeat constructor; auto. }
    assert (Hr : forall r, P (R r)) by (intros r H; exact H).
    intros [->|[->|(out' & Ho & H)]].
    - constructor; [apply Hr|apply Hc; exact (fun x => x)].
    - apply Forall_app. split; [repeat constructor; apply Hr|apply Hc; exact (fun x => x)].
    - assert (Hd : forall x out, defaultL E (strat_of E m') e m' x out -> Forall P out).
      { intros x1 out1 (c & n & o2 & -> & H1). constructor; [apply Hr|]. constructor; [apply Hr|].
        destruct (full E (strat_of E m') n) eqn:Ef.
        - rewrite H1. apply Hc. intro Hf. simpl in Hf. destruct (s_ufl (strat E (strat_of E m'))) eqn:Eu; [destruct Hf|].
          subst m'. unfold flow_of in Hm. destruct Hm as [Hz|Hz]; [|congruence].
          unfold full in Ef. apply andb_true_iff in Ef as [Ef _]. apply Z.ltb_lt in Ef. lia.
        - destruct H1 as (p & o3 & Hs & Hx).
          assert (Forall P o3) by (destruct Hs as [[_ ->]|[_ ->]]; repeat constructor; intro Hf; exact Hf).
          destruct Hx as [->|(y & nm & y' & e' & ->)]; apply Forall_app; (split; [repeat constructor; intro Hf; exact Hf|assumption]). }
      assert (Ho' : Forall P out').
      { unfold processL in H. destruct (s_drop (strat E (strat_of E m'))); [|eapply Hd; exact H].
        destruct H as (c & nm & b & o1 & o2 & -> & Hs & H). do 2 (constructor; [apply Hr|]). apply Forall_app. split.
        - assert (Hmt : forall ps b out, matchL nm ps b out -> Forall P out) by (induction 1; repeat (constructor; auto)).
          clear - Hs Hmt Hr. induction Hs; repeat (constructor; auto). eapply Hmt; eassumption.
        - destruct b as [y|[|]]; [destruct H as [_ ->]; constructor|destruct H as [_ ->]; repeat constructor; intro Hf; exact Hf|].
          eapply Hd; exact H. }
      destruct Ho as [->| ->]; apply Forall_app; (split; [repeat constructor; apply Hr|exact Ho']).
  Qed.
  Lemma full_frame t k its c : frame_ok E t (k, its ++ [OCall c]) -> full_call m (OCall c) ->
    k = FRoot \/ exists q p c', k = FTake q p c'.
  Proof.
    intros Hf Hc. destruct k as [|a|cl|q p' c']; [auto| | |eauto]; exfalso; destruct Hf as (ext & z & Hn);
      apply (gl_node E (Forall (fun o => ~ full_call m o)) (fun a b Ha Hb => proj2 (Forall_app _ a b) (conj Ha Hb)) plain_full fire_full) in Hn;
      rewrite <- app_assoc in Hn; apply Forall_app in Hn; destruct Hn as [_ Hn]; inversion Hn; auto.
  Qed.
End Full.

Local Ltac oc := match goal with H : OCall _ = OCall _ |- _ => injection H; intros; subst end.

(** ** what touches the fields of a machine *)
Section May.
  Context (E : env) (m : mid).
  Lemma fire_keeps m' e o : mfire E m' e o -> ~ touches m o.
  Proof. intros H Ht. dmay; subst; exact Ht. Qed.
  Lemma start_touch m' o : mstart m' o -> touches m o -> m' = m.
  Proof. intros H Ht. dmay; subst; simpl in Ht; auto; contradiction. Qed.
  Lemma may_touch t k o : may E t k o -> touches m o ->
    (exists x, k = FApi x /\ handles E m x) \/ (exists c, k = FCall c /\ concerns m c) \/
    (exists q p e m', k = FTake q p (Some (e, m')) /\ (m' = m \/ exists tm, q = queue_of E tm /\ table_of E tm = m)).
  Proof.
    intros H Ht. destruct k as [|a|c|q p c]; simpl in H.
    - exfalso. destruct t; simpl in H; [dmay; subst; exact Ht|]. destruct o; simpl in *; auto; try contradiction. destruct r; simpl in *; auto.
    - left. exists a. split; [reflexivity|].
      assert (Hst : forall p, mappstop E p o -> ap_mach (apps E p) = m).
      { intros p [Hp|Hp]; [destruct Hp as [c ->]; exact Ht|exfalso; eapply fire_keeps; eauto]. }
      destruct a; simpl in H |- *;
        try (exfalso; dmay; subst; exact Ht); try (exfalso; eapply fire_keeps; eassumption);
        try (dmay; subst; simpl in Ht; auto; contradiction); try (eapply start_touch; eassumption).
    - right. left. exists c. split; [reflexivity|].
      assert (Ha : forall a e0 m0, mact E a e0 m0 o -> False).
      { intros a e0 m0 Ha. destruct a; simpl in Ha; try (dmay; subst; exact Ht); auto. }
      destruct c; simpl in H |- *; try (exfalso; eapply Ha; exact H).
      + destruct h; [exfalso; dmay; subst; exact Ht|]. destruct H as [H|[H|H]].
        * destruct H as [c ->]. exact Ht.
        * exfalso. dmay; subst; exact Ht.
        * exfalso. eapply fire_keeps; eassumption.
      + exfalso. destruct l as [[n|n nm]|n]; dmay; subst; exact Ht.
      + destruct h; [exfalso; dmay; subst; exact Ht|]. dmay; subst; simpl in Ht; auto; contradiction.
      + destruct u; [exfalso; dmay; subst; exact Ht|]. dmay; subst; simpl in Ht; auto; contradiction.
      + destruct u; dmay; subst; exact Ht.
      + destruct u; dmay; subst; exact Ht.
      + dmay; subst; exact Ht.
    - right. right. destruct H as (tm & i & -> & -> & H). destruct H as [->|(e & m' & -> & H)]; [destruct Ht|].
      exists (qof E tm), p, e, m'. split; [reflexivity|].
      destruct H as [H|[H|[H|H]]]; try (exfalso; dmay; subst; exact Ht).
      assert (Hx : m' = m \/ table_of E tm = m) by (unfold mexec in H; dmay; subst; simpl in Ht; auto; contradiction).
      destruct Hx as [Hx|Hx]; [left; exact Hx|right; exists tm; split; [reflexivity|exact Hx]].
  Qed.
  Lemma may_concern t k c : may E t k (OCall c) -> concerns m c ->
    (exists x, k = FApi x /\ handles E m x) \/ (exists c', k = FCall c' /\ concerns m c') \/
    (exists q p e, k = FTake q p (Some (e, m))) \/ match k with FApi _ | FCall _ => full_call m (OCall c) | _ => False end.
  Proof.
    intros H Hc. remember (OCall c) as o eqn:Eo.
    assert (Hfi : forall m' e, mfire E m' e o -> full_call m o).
    { intros m' e Hf. dmay; subst; try discriminate; oc; simpl in Hc |- *; try contradiction; exact Hc. }
    assert (Hst : forall m', mstart m' o -> m' = m).
    { intros m' Hf. dmay; subst; try discriminate; oc; exact Hc. }
    destruct k as [|a|c'|q p c']; simpl in H.
    - exfalso. destruct t; simpl in H; [dmay; subst; discriminate|]. subst o. exact H.
    - destruct a; simpl in H; try (exfalso; dmay; subst; discriminate).
      + right. right. right. eapply Hfi, H.
      + left. eexists. split; [reflexivity|]. apply Hst, H.
      + destruct H as [H|[H|[[H|H]|H]]].
        * left. eexists. split; [reflexivity|]. apply Hst, H.
        * right. right. right. eapply Hfi, H.
        * exfalso. dmay; subst; discriminate.
        * right. right. right. eapply Hfi, H.
        * exfalso. dmay; subst; discriminate.
      + destruct H as [H|H]; [exfalso; dmay; subst; discriminate|]. right. right. right. eapply Hfi, H.
      + destruct H as [H|H]; [exfalso; dmay; subst; discriminate|]. right. right. right. eapply Hfi, H.
    - assert (Ha : forall a e0 m0, mact E a e0 m0 o -> m0 = m \/ full_call m o).
      { intros a e0 m0 Ha. destruct a; simpl in Ha.
        - exfalso. dmay; subst; discriminate.
        - left. dmay; subst; try discriminate; oc; exact Hc.
        - destruct Ha as [Ha|[Ha|[Ha|Ha]]]; [exfalso; dmay; subst; discriminate| |right; eapply Hfi, Ha|exfalso; dmay; subst; discriminate].
          exfalso. dmay; subst; try discriminate; oc; exact Hc.
        - destruct Ha.
        - destruct Ha as [Ha|[Ha|[Ha|Ha]]]; [exfalso; dmay; subst; discriminate| |right; eapply Hfi, Ha|exfalso; dmay; subst; discriminate].
          exfalso. dmay; subst; try discriminate; oc; exact Hc.
        - destruct Ha as [Ha|[Ha|Ha]]; [exfalso; dmay; subst; discriminate|right; eapply Hfi, Ha|].
          exfalso. dmay; subst; discriminate. }
      destruct c'; simpl in H.
      + destruct (Ha _ _ _ H) as [->|Hf]; [right; left; eexists; split; [reflexivity|reflexivity]|auto].
      + destruct (Ha _ _ _ H) as [->|Hf]; [right; left; eexists; split; [reflexivity|reflexivity]|auto].
      + destruct h; [exfalso; dmay; subst; discriminate|]. destruct H as [H|[H|H]]; [exfalso; dmay; subst; discriminate..|].
        right. right. right. eapply Hfi, H.
      + destruct l as [[n|n nm]|n]; [exfalso; dmay; subst; discriminate..|].
        right. left. eexists. split; [reflexivity|]. simpl.
        dmay; subst; try discriminate; oc; exact Hc.
      + exfalso. destruct h; dmay; subst; discriminate.
      + exfalso. destruct u; dmay; subst; discriminate.
      + exfalso. destruct u; dmay; subst; discriminate.
      + exfalso. destruct u; dmay; subst; discriminate.
      + exfalso. dmay; subst; discriminate.
    - right. right. left. destruct H as (tm & i & -> & -> & H). destruct H as [->|(e & m' & -> & H)]; [discriminate|].
      assert (m' = m) as ->; [|eauto].
      dmay; subst; try discriminate; oc; simpl in Hc; auto.
      destruct (s_ufl _); [destruct Hc|exact Hc].
  Qed.
End May.

(** ** what start() does at its end, and when it calls listeners and actions *)
Lemma in_snoc_split {A} (its : list A) x : In x its -> exists i j, its = i ++ x :: j.
Proof. apply in_split. Qed.
Lemma start_end E m x v its : starting m x -> apiL E x v its -> forall i j, its = i ++ OUnended m :: j -> j = [].
Proof.
  intros Hx H i j Hi.
  assert (Hno : forall l o, Forall (fun o => o <> OUnended m) l -> l ++ [o] = i ++ OUnended m :: j -> j = []).
  { intros l o Hl He. apply app_eq_app in He. destruct He as (r & [[He1 He2]|[He1 He2]]).
    - subst l. destruct r as [|y r]; [injection He2 as _ <-; reflexivity|]. injection He2 as <- _. exfalso.
      apply Forall_app in Hl. destruct Hl as [_ Hl]. inversion Hl; congruence.
    - destruct r as [|y r]; simpl in He2; [injection He2 as _ <-; reflexivity|]. destruct r; discriminate. }
  assert (Hno0 : forall l, Forall (fun o => o <> OUnended m) l -> l <> i ++ OUnended m :: j).
  { intros l Hl ->. apply Forall_app in Hl. destruct Hl as [_ Hl]. inversion Hl; congruence. }
  destruct Hx as [->|[s ->]]; simpl in H; destruct H as (y & _ & H).
  - destruct H as (c & o1 & -> & H).
    destruct c as [init|]; [|destruct H as [_ ->]; exfalso; eapply Hno0; [|exact Hi]; repeat constructor; discriminate].
    destruct H as (b & o2 & -> & H). destruct b; [destruct H as [_ ->]; exfalso; eapply Hno0; [|exact Hi]; repeat constructor; discriminate|].
    destruct H as (b & o3 & -> & H). destruct b; [destruct H as [_ ->]; exfalso; eapply Hno0; [|exact Hi]; repeat constructor; discriminate|].
    destruct H as [[_ ->]|(o4 & -> & H)]; [exfalso; eapply Hno0; [|exact Hi]; repeat constructor; discriminate|].
    assert (Hn : forall fin x out, notifyL m fin (SNone m) (EImm m) init x out -> Forall (fun o => o <> OUnended m) out).
    { intros fin x out Hn. apply only_notify in Hn. eapply Forall_impl; [|exact Hn]. intros o Ho. clear - Ho. dmay; subst; discriminate. }
    assert (Ha : forall x out, actsL true init (EImm m) m x out -> Forall (fun o => o <> OUnended m) out).
    { intros x out Ha. apply only_acts in Ha. eapply Forall_impl; [|exact Ha]. intros o Ho. clear - Ho. dmay; subst; discriminate. }
    set (pre := [R (RdInit m (Some init)); R (RdMapEmpty m false); R (RdDangling m false); OStarted m; OState m init]).
    assert (Hpre : Forall (fun o => o <> OUnended m) pre) by (repeat constructor; discriminate).
    assert (Hi' : pre ++ o4 = i ++ OUnended m :: j) by exact Hi.
    destruct H as [(z & -> & H)|(l1 & l2 & -> & H1 & H)].
    { exfalso. eapply Hno0; [|exact Hi']. apply Forall_app. split; [exact Hpre|eapply Hn; exact H]. }
    apply Hn in H1. destruct H as [(z & -> & H)|(l3 & l4 & -> & H2 & H)].
    { exfalso. eapply Hno0; [|exact Hi']. apply Ha in H. rewrite !Forall_app. auto. }
    apply Ha in H2. destruct H as [(z & -> & H)|(l5 & l6 & -> & H3 & [_ ->])].
    { exfalso. eapply Hno0; [|exact Hi']. apply Hn in H. rewrite !Forall_app. auto. }
    apply Hn in H3. eapply (Hno (pre ++ l1 ++ l3 ++ l5)); [rewrite !Forall_app; auto|].
    rewrite <- Hi', <- !app_assoc. reflexivity.
  - destruct H as [[_ ->]|[[_ ->]|[_ ->]]]; try (exfalso; eapply Hno0; [|exact Hi]; repeat constructor; discriminate).
    eapply (Hno [R (RdHas m s true); OStarted m; OState m s]); [repeat constructor; discriminate|]. exact Hi.
Qed.
Lemma start_calls E m v its c j : apiL E (AStart m) v (its ++ OCall c :: j) -> In (OStarted m) its.
Proof.
  intros (x & _ & i & o1 & H1 & Hl). destruct its as [|o its]; [discriminate|]. injection H1 as _ <-.
  destruct i as [init|]; [|destruct Hl as [_ Hl]; destruct its; discriminate].
  destruct Hl as (b & o2 & H2 & Hl). destruct its as [|o' its]; [discriminate|]. injection H2 as _ <-.
  destruct b; [destruct Hl as [_ Hl]; destruct its; discriminate|].
  destruct Hl as (b & o3 & H3 & Hl). destruct its as [|o3' its]; [discriminate|]. injection H3 as _ <-.
  destruct b; [destruct Hl as [_ Hl]; destruct its; discriminate|].
  destruct Hl as [[_ Hl]|(o4 & Hl & _)]; [destruct its as [|? [|]]; discriminate|].
  destruct its as [|o5 its]; [discriminate|]. injection Hl as -> _. do 3 right. left. reflexivity.
Qed.

Lemma add_item_in op st k i : In (k, i) st -> exists i', In (k, i') (add_item op st).
Proof.
  destruct st as [|[k1 i1] st]; [intros []|]. simpl. intros [H|H]; [injection H as -> ->|]; eauto.
Qed.
Lemma add_item_root op u i : exists u' i', add_item op (u ++ [(FRoot, i)]) = u' ++ [(FRoot, i')].
Proof. destruct u as [|[k j] u]; simpl; [exists [], (i ++ [op]); reflexivity|]. exists ((k, j ++ [op]) :: u), i. reflexivity. Qed.
Lemma first_mark t (l : trace) o : exists l1 o1 l2, l ++ [(t, o)] = l1 ++ (t, o1) :: l2 /\ (forall o', ~ In (t, o') l1) /\
  (l2 = [] -> o1 = o).
Proof.
  induction l as [|[t1 o1] l (l1 & o2 & l2 & H1 & H2 & H3)].
  - exists [], o, []. repeat split; auto.
  - destruct (tid_eq_dec t1 t) as [->|N].
    + exists [], o1, (l ++ [(t, o)]). repeat split; auto. intro He. destruct l; discriminate.
    + exists ((t1, o1) :: l1), o2, l2. simpl. rewrite H1. repeat split; auto.
      intros o' [H|H]; [injection H as -> _; congruence|]. eapply H2, H.
Qed.
Lemma silent t l : (forall o, ~ In (t, o) l) -> forall a, scan t (a ++ l) = scan t a.
Proof.
  intros H a. rewrite !scan_eq, thread_obs_app. replace (thread_obs t l) with (@nil obs); [rewrite app_nil_r; reflexivity|].
  destruct (thread_obs t l) as [|o r] eqn:El; [reflexivity|]. exfalso. apply (H o). apply thread_obs_in. rewrite El. left. reflexivity.
Qed.
Lemma touches_plain m o : touches m o -> opens o = None /\ closes o = false.
Proof. destruct o; simpl; try contradiction; auto. Qed.

Section Use.
  Context (E : env) (w0 : mem) (w : world) (H0 : init_mem E w0) (Hr : reach E w0 w).
  Notation T := (tr (wm w)).
  Context (m : mid) (Hoo : on_its_own E m) (t0 : tid) (i0 : nat) (Hi0 : on T i0 t0 (OUnended m)) (Hh : handled E T m t0 i0).

  Lemma processing_later t a op b u its k : opens op = Some k -> fst (scan t b) = u ++ [(FRoot, its)] ->
    processing E m t a -> processing E m t (a ++ (t, op) :: b).
  Proof.
    intros Ho Hs (p & e & i & Hin). destruct (add_item_in op _ _ _ Hin) as [i' Hin']. exists p, e, i'. unfold opened.
    rewrite (stack_at t a op b k u its Ho Hs). apply in_or_app. right. right. exact Hin'.
  Qed.
  Lemma take_processing h r t q p e m' its : T = h ++ r -> opened t h (FTake q p (Some (e, m'))) its ->
    m' = m \/ (exists tm, q = queue_of E tm /\ table_of E tm = m) -> processing E m t h.
  Proof.
    intros HT Ho Hm. destruct (opened_inv _ _ _ _ Ho ltac:(discriminate)) as (a & op & b & u & Hh' & Hop & _).
    destruct op; try discriminate. injection Hop as -> -> ->.
    assert (Hon : on T (List.length a) t (OTake q p (Some (e, m')))).
    { unfold on. rewrite HT, Hh', <- app_assoc. apply nth_len. }
    destruct (handover E w0 w H0 Hr _ _ _ _ _ Hon) as (k & tk & e0 & m0 & e' & _ & Hc & Hof & _).
    injection Hc as <- <-. apply nth_error_In in Hof.
    destruct (accepted_fired E w0 w _ _ _ _ _ _ _ H0 Hr Hof) as (_ & Hq & _).
    assert (m' = m) as ->.
    { destruct Hm as [Hm|(tm & H1 & H2)]; [exact Hm|]. apply (proj1 (oo_table _ _ Hoo tm)) in H2. subst tm.
      apply (oo_queue _ _ Hoo). congruence. }
    subst q. exists p, e, its. exact Ho.
  Qed.

  (** an open bracket of a call on m *)
  Definition in_call (t : tid) (h : trace) : Prop := exists a x b u its,
    h = a ++ (t, OInv x) :: b /\ handles E m x /\ fst (scan t b) = u ++ [(FRoot, its)].
  Lemma in_call_later t a op b u its k : opens op = Some k -> fst (scan t b) = u ++ [(FRoot, its)] ->
    in_call t a -> in_call t (a ++ (t, op) :: b).
  Proof.
    intros Ho Hs (a1 & x & b1 & u1 & i1 & -> & Hx & H1).
    destruct (add_item_root op u1 i1) as (u' & i' & Hr').
    exists a1, x, (b1 ++ (t, op) :: b), (u ++ (k, its) :: u'), i'. split; [rewrite <- app_assoc; reflexivity|]. split; [exact Hx|].
    rewrite (stack_at t b1 op b k u its Ho Hs), H1, Hr', <- app_assoc. reflexivity.
  Qed.
  Lemma top_call t h x its u : fst (scan t h) = (FApi x, its) :: u -> handles E m x -> in_call t h.
  Proof.
    intros Hs Hx. destruct (top_bracket _ _ _ _ _ Hs ltac:(discriminate)) as (a & op & b & Hh' & Ho & Hb & _).
    destruct op; try discriminate. injection Ho as ->. exists a, x, b, [], its. auto.
  Qed.
  Lemma concerned n : forall h r t c its, List.length h <= n -> T = h ++ r -> opened t h (FCall c) its -> concerns m c ->
    processing E m t h \/ in_call t h.
  Proof.
    induction n as [|n IH]; intros h r t c its Hn HT Ho Hc;
      destruct (opened_inv _ _ _ _ Ho ltac:(discriminate)) as (a & op & b & u & Hh' & Hop & Hb);
      [destruct h; [destruct a; discriminate|simpl in Hn; lia]|].
    destruct op; try discriminate. injection Hop as ->.
    assert (HT' : T = a ++ (t, OCall c) :: b ++ r) by (rewrite HT, Hh', <- app_assoc; reflexivity).
    destruct (placed_frame E w0 w H0 Hr _ _ _ _ HT' eq_refl) as (k & i & v & Hs & Hf).
    pose proof (frame_may E _ _ _ Hf) as Hm. apply Forall_app in Hm. destruct Hm as [_ Hm]. inversion Hm as [|? ? Hm1 _]; subst.
    assert (Hlater : processing E m t a \/ in_call t a -> processing E m t (a ++ (t, OCall c) :: b) \/ in_call t (a ++ (t, OCall c) :: b)).
    { intros [H|H]; [left; eapply processing_later|right; eapply in_call_later]; try eassumption; reflexivity. }
    assert (Hop' : opened t a k i) by (unfold opened; rewrite Hs; left; reflexivity).
    apply Hlater. destruct (may_concern E m t k c Hm1 Hc) as [(x & -> & Hx)|[(c' & -> & Hc')|[(q & p & e & ->)|Hfull]]].
    - right. eapply top_call; eassumption.
    - eapply IH; [|exact HT'|exact Hop'|exact Hc']. rewrite app_length in Hn. simpl in Hn. lia.
    - left. eapply take_processing; [exact HT'|exact Hop'|left; reflexivity].
    - exfalso. assert (Hfc : full_call m (OCall c)) by (destruct k; try contradiction; exact Hfull).
      destruct (full_frame E m (oo_full _ _ Hoo) _ _ _ _ Hf Hfc) as [->|(q & p & c' & ->)]; contradiction.
  Qed.
  Lemma touched t h o r : T = h ++ (t, o) :: r -> touches m o -> processing E m t h \/ in_call t h.
  Proof.
    intros HT Ht. destruct (touches_plain _ _ Ht) as [_ Hcl].
    destruct (placed_at E w0 w H0 Hr _ _ _ _ HT Hcl) as (k & i & v & Hs & Hm).
    assert (Hop' : opened t h k i) by (unfold opened; rewrite Hs; left; reflexivity).
    destruct (may_touch E m t k o Hm Ht) as [(x & -> & Hx)|[(c & -> & Hc)|(q & p & e & m' & -> & Hm')]].
    - right. eapply top_call; eassumption.
    - eapply concerned; [apply le_n|exact HT|exact Hop'|exact Hc].
    - left. eapply take_processing; eassumption.
  Qed.

  (** a call made by t0 before start() came to its end does not touch m later *)
  Lemma ends_before h o r a x b u its : T = h ++ (t0, o) :: r -> closes o = false -> i0 < List.length h ->
    h = a ++ (t0, OInv x) :: b -> fst (scan t0 b) = u ++ [(FRoot, its)] -> handles E m x ->
    (forall p, x <> AAppStart p /\ x <> AAppStop p) -> List.length a < i0 -> False.
  Proof.
    intros HT Hcl Hlt Hha Hb Hx Happ Hla.
    pose proof (on_split T _ _ _ Hi0) as HT0. pose proof (len_firstn w _ _ _ Hi0) as L0.
    set (g := firstn i0 T) in *. set (r0 := skipn (S i0) T) in *. clearbody g r0.
    assert (Hd : exists d, h = g ++ (t0, OUnended m) :: d).
    { pose proof HT as HT1. rewrite HT0 in HT1. apply app_eq_app in HT1. destruct HT1 as (l & [[H1 H2]|[H1 H2]]).
      - exfalso. assert (List.length g = List.length h + List.length l) by (rewrite H1, app_length; reflexivity). lia.
      - destruct l as [|y l]; [rewrite app_nil_r in H1; rewrite H1 in Hlt; lia|]. injection H2 as <- _. exists l. exact H1. }
    destruct Hd as (d & Hd).
    assert (Hb1 : exists b1, g = a ++ (t0, OInv x) :: b1 /\ b = b1 ++ (t0, OUnended m) :: d).
    { rewrite Hha in Hd. apply app_eq_app in Hd. destruct Hd as (l & [[H1 H2]|[H1 H2]]).
      - exfalso. assert (List.length a = List.length g + List.length l) by (rewrite H1, app_length; reflexivity). lia.
      - destruct l as [|y l]; [discriminate|]. injection H2 as <- ->. exists l. auto. }
    destruct Hb1 as (b1 & Hg & Hbb). subst b.
    destruct (root_kept_t _ _ _ _ _ Hb) as (u1 & i1 & i2 & Hs1 & _).
    destruct u1 as [|f0 u1 _] using rev_ind.
    - (* directly inside x *)
      simpl in Hs1. destruct (placed_frame E w0 w H0 Hr _ _ _ _ HT0 eq_refl) as (k & i & v & Hs & Hf).
      rewrite Hg, (stack_at t0 a (OInv x) b1 (FApi x) [] i1 eq_refl Hs1) in Hs. simpl in Hs. injection Hs as <- <- _.
      assert (Hst : starting m x).
      { apply frame_may in Hf. apply Forall_app in Hf. destruct Hf as [_ Hf]. inversion Hf as [|? ? Hm _]; subst. simpl in Hm.
        remember (OUnended m) as ou eqn:Eou.
        destruct x; simpl in Hm, Hx; try contradiction; subst; try (exfalso; clear - Hm; dmay; discriminate);
          [left; reflexivity|right; eexists; reflexivity|destruct (Happ p); congruence]. }
      destruct (first_mark t0 d o) as (d1 & o1 & d2 & Hd1 & Hno & Hlast).
      assert (Hs2 : fst (scan t0 (b1 ++ (t0, OUnended m) :: d1)) = [(FRoot, i1 ++ [OUnended m])]).
      { change ((t0, OUnended m) :: d1) with ([(t0, OUnended m)] ++ d1). rewrite app_assoc, (silent t0 d1 Hno), scan_snoc, Hs1. reflexivity. }
      destruct (closes o1) eqn:Ec.
      + destruct d2 as [|y d2 _] using rev_ind; [rewrite (Hlast eq_refl) in Ec; congruence|].
        replace (d1 ++ (t0, o1) :: d2 ++ [y]) with ((d1 ++ (t0, o1) :: d2) ++ [y]) in Hd1 by (rewrite <- app_assoc; reflexivity).
        apply app_inj_tail in Hd1. destruct Hd1 as [Hd1 _]. rewrite Hd1 in Hb.
        replace (b1 ++ (t0, OUnended m) :: d1 ++ (t0, o1) :: d2) with (((b1 ++ (t0, OUnended m) :: d1) ++ [(t0, o1)]) ++ d2) in Hb
          by (repeat (rewrite <- app_assoc; simpl); reflexivity).
        destruct (root_kept_t _ _ _ _ _ Hb) as (u3 & i3 & i4 & Hs3 & _). rewrite scan_snoc, Hs2 in Hs3.
        unfold scan1 in Hs3. rewrite Ec in Hs3. simpl in Hs3. destruct u3; discriminate.
      + assert (HT1 : T = (g ++ (t0, OUnended m) :: d1) ++ (t0, o1) :: d2 ++ r).
        { rewrite HT, Hd. repeat (rewrite <- app_assoc; simpl). f_equal. f_equal.
          change ((t0, o) :: r) with ([(t0, o)] ++ r). rewrite app_assoc, Hd1. repeat (rewrite <- app_assoc; simpl). reflexivity. }
        destruct (placed_frame E w0 w H0 Hr _ _ _ _ HT1 Ec) as (k & i & v1 & Hs & Hf1).
        rewrite Hg, <- app_assoc in Hs. simpl in Hs.
        rewrite (stack_at t0 a (OInv x) (b1 ++ (t0, OUnended m) :: d1) (FApi x) [] _ eq_refl Hs2) in Hs. simpl in Hs. injection Hs as <- <- _.
        destruct Hf1 as (ext & z & Hn). simpl in Hn. destruct z; try contradiction. destruct Hn as [_ Hn].
        assert (He : o1 :: ext = []); [|discriminate].
        eapply (start_end E m x _ _ Hst Hn i1). repeat (rewrite <- app_assoc; simpl). reflexivity.
    - (* in a bracket nested in x *)
      destruct f0 as [k2 j2]. rewrite <- app_assoc in Hs1. simpl in Hs1.
      assert (Hk2 : k2 <> FRoot).
      { intros ->. rewrite scan_eq in Hs1. destruct (root_bottom _ _ _ _ Hs1) as [Hx2 _]. discriminate. }
      pose proof Hs1 as Hs1'. rewrite scan_eq in Hs1.
      destruct (open_bracket _ _ _ _ _ Hs1 Hk2) as (l1 & op2 & l2 & Hl & Ho2 & Hs2 & Hv).
      destruct (thread_obs_split _ _ _ _ _ Hl) as (b2 & b3 & -> & E2 & E3).
      rewrite <- E2, <- scan_eq in Hv.
      destruct (fst (scan t0 b2)) as [|[k3 i3] v3] eqn:Es2; [discriminate|]. simpl in Hv. injection Hv as -> _ ->.
      assert (HT2 : T = (a ++ (t0, OInv x) :: b2) ++ (t0, op2) :: b3 ++ (t0, OUnended m) :: r0).
      { rewrite HT0, Hg. repeat (rewrite <- app_assoc; simpl). reflexivity. }
      destruct (placed_frame E w0 w H0 Hr _ _ _ _ HT2 (opens_not_closes _ _ Ho2)) as (k & i & v & Hs & Hf).
      rewrite (stack_at t0 a (OInv x) b2 (FApi x) [] i3 eq_refl Es2) in Hs. simpl in Hs. injection Hs as <- <- _.
      assert (Hxs : x = AStart m).
      { pose proof (frame_may E _ _ _ Hf) as Hm. apply Forall_app in Hm. destruct Hm as [_ Hm]. inversion Hm as [|? ? Hm1 _]; subst. simpl in Hm1.
        destruct x; simpl in Hm1, Hx; try contradiction; subst; try reflexivity; try discriminate;
          try (exfalso; clear - Hm1 Ho2; dmay; subst; discriminate); [destruct (Happ p)|destruct (Happ p)]; congruence. }
      subst x. destruct Hf as (ext & z & Hn). simpl in Hn. destruct z; try contradiction. destruct Hn as [_ Hn].
      assert (Hin : In (OStarted m) i3).
      { rewrite <- app_assoc in Hn. simpl in Hn. destruct op2; try discriminate.
        - exfalso. apply (only_api E (AStart m)) in Hn. apply Forall_app in Hn. destruct Hn as [_ Hn]. inversion Hn as [|? ? Hm _]. clear - Hm. simpl in Hm. dmay; discriminate.
        - eapply (start_calls E); exact Hn.
        - exfalso. apply (only_api E (AStart m)) in Hn. apply Forall_app in Hn. destruct Hn as [_ Hn]. inversion Hn as [|? ? Hm _]. clear - Hm. simpl in Hm. dmay; discriminate. }
      apply in_split in Hin. destruct Hin as (ja & jb & ->).
      destruct (unended_frame E w0 w H0 Hr _ _ _ _ HT0) as (a3 & op3 & b4 & k4 & its4 & Hg4 & Ho4 & Hs4 & Hin4).
      apply in_split in Hin4. destruct Hin4 as (jc & jd & ->).
      assert (HT3 : T = a3 ++ (t0, op3) :: b4 ++ (t0, OUnended m) :: r0) by (rewrite HT0, Hg4, <- app_assoc; reflexivity).
      assert (HT4 : T = a ++ (t0, OInv (AStart m)) :: b2 ++ (t0, op2) :: b3 ++ (t0, OUnended m) :: r0) by (rewrite HT2, <- app_assoc; reflexivity).
      destruct (starter_unique E w0 w H0 Hr m _ _ _ _ _ _ _ _ _ _ _ _ _ _ _ _ HT3 Ho4 Hs4 HT4 (eq_refl (Some (FApi (AStart m)))) Es2) as (_ & -> & ->).
      rewrite Hg in Hg4. apply app_inv_head in Hg4. injection Hg4 as <-. rewrite Hs1' in Hs4.
      destruct u1 as [|? u1]; [discriminate|]. destruct u1; discriminate.
  Qed.

  Lemma use_confined : confined E (touches m) T m t0 i0.
  Proof.
    intros i t o Hon Ht. pose proof (on_split T _ _ _ Hon) as HT. pose proof (len_firstn w _ _ _ Hon) as Li.
    destruct (touched _ _ _ _ HT Ht) as [Hp|(a & x & b & u & its & Hha & Hx & Hb)]; [right; exact Hp|].
    assert (HT' : T = a ++ (t, OInv x) :: b ++ (t, o) :: skipn (S i) T) by (rewrite HT at 1; rewrite Hha, <- app_assoc; reflexivity).
    destruct (Hh _ _ _ _ HT' Hx) as [Hp|(-> & Hla & Happ)].
    - right. rewrite Hha. eapply processing_later; [reflexivity|exact Hb|exact Hp].
    - left. split; [reflexivity|]. destruct (Nat.le_gt_cases i i0) as [Hle|Hgt]; [exact Hle|]. exfalso.
      eapply (ends_before _ o _ a x b u its HT (proj2 (touches_plain _ _ Ht))); eauto. rewrite Li. exact Hgt.
  Qed.
End Use.

Lemma used_race_free E w0 w : init_mem E w0 -> reach E w0 w ->
  forall m t0 i0, on_its_own E m -> on (tr (wm w)) i0 t0 (OUnended m) -> fired_after E (tr (wm w)) m t0 i0 ->
    handled E (tr (wm w)) m t0 i0 ->
  forall i j t t' o o', i < j -> on (tr (wm w)) i t o -> on (tr (wm w)) j t' o' -> touches m o -> touches m o' ->
    hb sw_min (tr (wm w)) i j.
Proof.
  intros H0 Hr m t0 i0 Hoo Hi0 Hfa Hh. apply (confined_race_free E w0 w H0 Hr (touches m) m t0 i0).
  - apply Hoo.
  - apply (oo_thread _ _ Hoo).
  - exact Hi0.
  - exact Hfa.
  - apply (use_confined E w0 w H0 Hr m Hoo t0 i0 Hi0 Hh).
Qed.
