(** * Nodes.v: structure lemmas about the bracket scan of TreeSpec.v *)
From Coq Require Import Permutation List.
From Verif Require Import Types TreeSpec.

Definition scanl (s : stack * list node) (l : list obs) : stack * list node := fold_left scan1 l s.
Definition fresh : stack * list node := ([(FRoot, [])], []).
Notation scan0 l := (scanl fresh l).

Lemma scanl_app s a b : scanl s (a ++ b) = scanl (scanl s a) b.
Proof. apply fold_left_app. Qed.
Lemma scanl_snoc s a x : scanl s (a ++ [x]) = scan1 (scanl s a) x.
Proof. rewrite scanl_app. reflexivity. Qed.

(** the stack does not depend on the nodes, which only accumulate *)
Lemma scan1_nodes st ns o : scan1 (st, ns) o = (fst (scan1 (st, []) o), ns ++ snd (scan1 (st, []) o)).
Proof.
  unfold scan1. destruct (closes o).
  - destruct st as [|[k its] r]; simpl; rewrite ?app_nil_r; reflexivity.
  - destruct (opens o); simpl; rewrite ?app_nil_r; reflexivity.
Qed.
Lemma scanl_nodes l : forall st ns, scanl (st, ns) l = (fst (scanl (st, []) l), ns ++ snd (scanl (st, []) l)).
Proof.
  induction l as [|o l IH]; intros st ns; [simpl; rewrite app_nil_r; reflexivity|].
  change (scanl (st, ns) (o :: l)) with (scanl (scan1 (st, ns) o) l).
  change (scanl (st, []) (o :: l)) with (scanl (scan1 (st, []) o) l).
  rewrite scan1_nodes. rewrite IH. destruct (scan1 (st, []) o) as [st' ns']. simpl.
  rewrite (IH st' ns'). simpl. rewrite app_assoc. reflexivity.
Qed.

Lemma opens_not_closes o k : opens o = Some k -> closes o = false.
Proof. destruct o; try discriminate; reflexivity. Qed.
Lemma opens_not_root o k : opens o = Some k -> k <> FRoot.
Proof. destruct o; try discriminate; intros [= <-]; discriminate. Qed.

(** ** Scanning a suffix on its own *)
Definition sim (s1 s2 : stack) : Prop := exists u v v', s1 = u ++ v /\ s2 = u ++ v' /\
  (v = [] \/ exists i, v = [(FRoot, i)]).
Lemma add_item_app o u v : u <> [] -> add_item o (u ++ v) = add_item o u ++ v.
Proof. destruct u as [|[k i] r]; [congruence|reflexivity]. Qed.
Lemma sim_nil s : sim [] s.
Proof. exists [], [], s. auto. Qed.
Lemma sim_add o s1 s2 : sim s1 s2 -> sim (add_item o s1) (add_item o s2).
Proof.
  intros (u & v & v' & -> & -> & Hv). destruct u as [|[k i] u].
  - exists [], (add_item o v), (add_item o v'). split; [reflexivity|]. split; [reflexivity|].
    destruct Hv as [->|[i ->]]; simpl; eauto.
  - exists ((k, i ++ [o]) :: u), v, v'. auto.
Qed.
Lemma sim_scan1 o st1 st2 : sim st1 st2 ->
  sim (fst (scan1 (st1, []) o)) (fst (scan1 (st2, []) o)) /\
  forall k its x, In (k, its, x) (snd (scan1 (st1, []) o)) -> k <> FRoot -> In (k, its, x) (snd (scan1 (st2, []) o)).
Proof.
  intro Hs. unfold scan1. destruct (closes o) eqn:Ec.
  - destruct Hs as (u & v & v' & -> & -> & Hv). destruct u as [|[k i] u]; simpl.
    + destruct Hv as [->|[i ->]]; simpl.
      * split; [|contradiction]. apply sim_nil.
      * split.
        -- destruct v' as [|[k' i'] r']; simpl; apply sim_nil.
        -- intros k its x [E|[]] Hk. congruence.
    + split; [|auto]. apply sim_add. exists u, v, v'. auto.
  - destruct (opens o) eqn:Eo; simpl.
    + split; [|auto]. destruct (sim_add o _ _ Hs) as (u & v & v' & -> & -> & Hv).
      exists ((f, []) :: u), v, v'. auto.
    + split; [|auto]. apply sim_add. exact Hs.
Qed.
Lemma sim_scanl l : forall st1 st2, sim st1 st2 ->
  sim (fst (scanl (st1, []) l)) (fst (scanl (st2, []) l)) /\
  forall k its x, In (k, its, x) (snd (scanl (st1, []) l)) -> k <> FRoot -> In (k, its, x) (snd (scanl (st2, []) l)).
Proof.
  induction l as [|o l IH]; intros st1 st2 Hs; [split; auto|].
  change (scanl (st1, []) (o :: l)) with (scanl (scan1 (st1, []) o) l).
  change (scanl (st2, []) (o :: l)) with (scanl (scan1 (st2, []) o) l).
  destruct (sim_scan1 o _ _ Hs) as [H1 H2].
  destruct (scan1 (st1, []) o) as [st1' ns1], (scan1 (st2, []) o) as [st2' ns2]. simpl in *.
  destruct (IH _ _ H1) as [H3 H4]. rewrite (scanl_nodes l st1' ns1), (scanl_nodes l st2' ns2). simpl.
  split; [exact H3|]. intros k its x Hin Hk. rewrite in_app_iff in *. destruct Hin; eauto.
Qed.
Lemma scan_suffix a b k its x :
  In (k, its, x) (snd (scan0 b)) -> k <> FRoot -> In (k, its, x) (snd (scan0 (a ++ b))).
Proof.
  intros H Hk. rewrite scanl_app. destruct (scan0 a) as [st ns]. rewrite scanl_nodes. simpl.
  apply in_or_app. right. assert (Hs : sim [(FRoot, [])] st) by (exists [], [(FRoot, [])], st; eauto).
  apply (proj2 (sim_scanl b _ _ Hs)); assumption.
Qed.
Lemma scan_suffix_open a b k its :
  In (k, its) (fst (scan0 b)) -> k <> FRoot -> In (k, its) (fst (scan0 (a ++ b))).
Proof.
  intros H Hk. rewrite scanl_app. destruct (scan0 a) as [st ns]. rewrite scanl_nodes. simpl.
  assert (Hs : sim [(FRoot, [])] st) by (exists [], [(FRoot, [])], st; eauto).
  destruct (proj1 (sim_scanl b _ _ Hs)) as (u & v & v' & E1 & -> & Hv).
  assert (H' : In (k, its) (u ++ v)) by (rewrite <- E1; exact H). clear H. rename H' into H.
  apply in_app_or in H. apply in_or_app. destruct H as [H|H]; [auto|].
  destruct Hv as [->|[i ->]]; [contradiction|]. destruct H as [[= <- <-]|[]]. congruence.
Qed.

(** ** The opening mark of an open bracket *)
Lemma snoc_ind {A} (P : list A -> Prop) : P [] -> (forall l x, P l -> P (l ++ [x])) -> forall l, P l.
Proof. intros H0 H1 l. rewrite <- (rev_involutive l). induction (rev l); simpl; auto. Qed.

Lemma add_item_split o r u f v : add_item o r = u ++ f :: v ->
  (u = [] /\ exists k i, f = (k, i ++ [o]) /\ r = (k, i) :: v) \/
  (exists u0, u = add_item o u0 /\ u0 <> [] /\ r = u0 ++ f :: v).
Proof.
  destruct r as [|[k i] r]; simpl; [intro H; destruct u; discriminate|].
  destruct u as [|g u]; simpl; intros [= <- H].
  - left. split; [reflexivity|]. subst. eauto.
  - right. subst r. exists ((k, i) :: u). simpl. split; [reflexivity|]. split; [discriminate|reflexivity].
Qed.
Lemma scan_fst_snoc l x : fst (scan0 (l ++ [x])) = fst (scan1 (fst (scan0 l), []) x).
Proof. rewrite scanl_snoc. destruct (scan0 l) as [st ns]. rewrite scan1_nodes. reflexivity. Qed.

Lemma open_bracket l : forall u k its v, fst (scan0 l) = u ++ (k, its) :: v -> k <> FRoot ->
  exists l1 op l2, l = l1 ++ op :: l2 /\ opens op = Some k /\ fst (scan0 l2) = u ++ [(FRoot, its)] /\
    add_item op (fst (scan0 l1)) = v.
Proof.
  induction l as [|l x IH] using snoc_ind; intros u k its v H Hk.
  - simpl in H. destruct u as [|f u]; [injection H as <- _ _; congruence|]. destruct u; discriminate.
  - rewrite scan_fst_snoc in H. unfold scan1 in H. destruct (closes x) eqn:Ec.
    + destruct (fst (scan0 l)) as [|[k0 i0] r] eqn:Es; [destruct u; discriminate|]. simpl in H.
      apply add_item_split in H. destruct H as [(-> & k' & i' & [= -> ->] & ->)|(u0 & -> & Hu0 & ->)].
      * destruct (IH [(k0, i0)] k' i' v eq_refl Hk) as (l1 & op & l2 & -> & Ho & Hs & Hv).
        exists l1, op, (l2 ++ [x]). split; [rewrite <- app_assoc; reflexivity|]. split; [exact Ho|]. split; [|auto].
        rewrite scan_fst_snoc, Hs. unfold scan1. rewrite Ec. reflexivity.
      * destruct (IH ((k0, i0) :: u0) k its v eq_refl Hk) as (l1 & op & l2 & -> & Ho & Hs & Hv).
        exists l1, op, (l2 ++ [x]). split; [rewrite <- app_assoc; reflexivity|]. split; [exact Ho|]. split; [|auto].
        rewrite scan_fst_snoc, Hs. unfold scan1. rewrite Ec. simpl. rewrite add_item_app by exact Hu0. reflexivity.
    + assert (Hadd : forall u, add_item x (fst (scan0 l)) = u ++ (k, its) :: v ->
        exists l1 op l2, l = l1 ++ op :: l2 /\ opens op = Some k /\
          add_item x (fst (scan0 l2)) = u ++ [(FRoot, its)] /\ add_item op (fst (scan0 l1)) = v).
      { clear u H. intros u H. apply add_item_split in H. destruct H as [(-> & k' & i' & [= -> ->] & H)|(u0 & -> & Hu0 & H)].
        - destruct (IH [] k' i' v H Hk) as (l1 & op & l2 & -> & Ho & Hs & Hv).
          exists l1, op, l2. rewrite Hs. auto.
        - destruct (IH u0 k its v H Hk) as (l1 & op & l2 & -> & Ho & Hs & Hv).
          exists l1, op, l2. rewrite Hs, add_item_app by exact Hu0. auto. }
      destruct (opens x) as [k0|] eqn:Eo; simpl in H.
      * destruct u as [|f u]; injection H as H1 H.
        -- subst. exists l, x, []. auto.
        -- destruct (Hadd u H) as (l1 & op & l2 & -> & Ho & Hs & Hv).
           exists l1, op, (l2 ++ [x]). split; [rewrite <- app_assoc; reflexivity|]. split; [exact Ho|]. split; [|auto].
           rewrite scan_fst_snoc. unfold scan1. rewrite Ec, Eo. simpl. rewrite Hs, H1. reflexivity.
      * destruct (Hadd u H) as (l1 & op & l2 & -> & Ho & Hs & Hv).
        exists l1, op, (l2 ++ [x]). split; [rewrite <- app_assoc; reflexivity|]. split; [exact Ho|]. split; [|auto].
        rewrite scan_fst_snoc. unfold scan1. rewrite Ec, Eo. simpl. exact Hs.
Qed.

(** ** A completed bracket: opening mark, inside, closing mark *)
Lemma closed_bracket l k its o : In (k, its, o) (snd (scan0 l)) -> k <> FRoot ->
  exists l1 op l2 l3, l = l1 ++ op :: l2 ++ o :: l3 /\ opens op = Some k /\ closes o = true /\
    fst (scan0 l2) = [(FRoot, its)].
Proof.
  induction l as [|l x IH] using snoc_ind; [contradiction|]. intros H Hk.
  rewrite scanl_snoc in H. destruct (scan0 l) as [st ns] eqn:Es. rewrite scan1_nodes in H. simpl in H.
  apply in_app_or in H. destruct H as [H|H].
  - destruct (IH H Hk) as (l1 & op & l2 & l3 & -> & H1 & H2 & H3). exists l1, op, l2, (l3 ++ [x]).
    split; [|auto]. rewrite <- app_assoc. simpl. rewrite <- app_assoc. reflexivity.
  - unfold scan1 in H. destruct (closes x) eqn:Ec; [|destruct (opens x); contradiction].
    destruct st as [|[k0 i0] r]; [contradiction|]. destruct H as [[= -> -> ->]|[]].
    destruct (open_bracket l [] k its r) as (l1 & op & l2 & -> & Ho & Hs & _); [rewrite Es; reflexivity|exact Hk|].
    exists l1, op, l2, []. split; [rewrite <- app_assoc; reflexivity|]. auto.
Qed.

(** ** Items and marks *)
Lemma root_bottom l u its v : fst (scan0 l) = u ++ (FRoot, its) :: v -> v = [] /\ Forall (fun f => fst f <> FRoot) u.
Proof.
  revert u its v. induction l as [|l x IH] using snoc_ind; intros u its v H.
  - simpl in H. destruct u as [|f u]; [injection H as _ <-; auto|]. destruct u; discriminate.
  - assert (Hadd : forall r u its v, (forall u its v, r = u ++ (FRoot, its) :: v -> v = [] /\ Forall (fun f => fst f <> FRoot) u) ->
       add_item x r = u ++ (FRoot, its) :: v -> v = [] /\ Forall (fun f => fst f <> FRoot) u).
    { clear. intros r u its v IH H. apply add_item_split in H.
      destruct H as [(-> & k' & i' & [= <- ->] & H)|(u0 & -> & Hu0 & H)].
      - split; [eapply (IH [])|constructor]. exact H.
      - destruct (IH _ _ _ H) as [-> Hf]. split; [reflexivity|]. destruct u0 as [|[k i] u0]; [constructor|].
        inversion Hf; subst. constructor; auto. }
    rewrite scan_fst_snoc in H. unfold scan1 in H. destruct (closes x) eqn:Ec.
    + destruct (fst (scan0 l)) as [|[k0 i0] r] eqn:Es; [destruct u; discriminate|]. simpl in H.
      eapply Hadd; [|exact H]. intros u' its' v' ->. destruct (IH ((k0, i0) :: u') its' v' eq_refl) as [-> Hf].
      inversion Hf; auto.
    + destruct (opens x) as [k0|] eqn:Eo; simpl in H.
      * destruct u as [|f u]; injection H as H1 H.
        -- exfalso. apply (opens_not_root _ _ Eo). exact H1.
        -- destruct (Hadd _ _ _ _ IH H) as [-> Hf]. split; [reflexivity|]. constructor; [|exact Hf].
           subst f. simpl. apply (opens_not_root _ _ Eo).
      * eapply Hadd; eauto.
Qed.

(** a plain item of the root frame, located *)
Lemma item_split l : forall u its i1 x i2, fst (scan0 l) = u ++ [(FRoot, its)] -> its = i1 ++ x :: i2 -> closes x = false ->
  exists c1 c2, l = c1 ++ x :: c2 /\ fst (scan0 c1) = [(FRoot, i1)].
Proof.
  induction l as [|l y IH] using snoc_ind; intros u its i1 x i2 H Hi Hx.
  - simpl in H. destruct u as [|f u]; [injection H as <-; destruct i1; discriminate|]. destruct u; discriminate.
  - assert (Hext : forall c1 c2, l = c1 ++ x :: c2 /\ fst (scan0 c1) = [(FRoot, i1)] ->
              exists c1 c2, l ++ [y] = c1 ++ x :: c2 /\ fst (scan0 c1) = [(FRoot, i1)]).
    { intros c1 c2 [-> Hc]. exists c1, (c2 ++ [y]). split; [rewrite <- app_assoc; reflexivity|exact Hc]. }
    assert (Hadd : forall u, add_item y (fst (scan0 l)) = u ++ [(FRoot, its)] ->
              exists c1 c2, l ++ [y] = c1 ++ x :: c2 /\ fst (scan0 c1) = [(FRoot, i1)]).
    { clear u H. intros u H. apply add_item_split in H. destruct H as [(-> & k' & i' & [= <- ->] & H)|(u0 & -> & Hu0 & H)].
      - destruct (rev i2) as [|z r] eqn:Er; apply (f_equal (@rev obs)) in Er; rewrite rev_involutive in Er; subst i2; simpl in Hi.
        + apply app_inj_tail in Hi. destruct Hi as [-> ->]. exists l, []. auto.
        + rewrite app_comm_cons, app_assoc in Hi. apply app_inj_tail in Hi. destruct Hi as [-> ->].
          destruct (IH [] _ i1 x (rev r) H eq_refl Hx) as (c1 & c2 & Hc). eauto.
      - destruct (IH u0 its i1 x i2 H Hi Hx) as (c1 & c2 & Hc). eauto. }
    rewrite scan_fst_snoc in H. unfold scan1 in H. destruct (closes y) eqn:Ec.
    + destruct (fst (scan0 l)) as [|[k0 i0] r] eqn:Es; [destruct u; discriminate|]. simpl in H.
      apply add_item_split in H. destruct H as [(-> & k' & i' & [= <- ->] & ->)|(u0 & -> & Hu0 & ->)].
      * destruct (rev i2) as [|z r] eqn:Er; apply (f_equal (@rev obs)) in Er; rewrite rev_involutive in Er; subst i2; simpl in Hi.
        -- apply app_inj_tail in Hi. destruct Hi as [-> ->]. congruence.
        -- rewrite app_comm_cons, app_assoc in Hi. apply app_inj_tail in Hi. destruct Hi as [-> ->].
           destruct (IH [(k0, i0)] _ i1 x (rev r) eq_refl eq_refl Hx) as (c1 & c2 & Hc). eauto.
      * destruct (IH ((k0, i0) :: u0) its i1 x i2 eq_refl Hi Hx) as (c1 & c2 & Hc). eauto.
    + destruct (opens y) as [k0|] eqn:Eo; simpl in H; [|eauto].
      destruct u as [|f u]; injection H as H1 H; [|eauto].
      exfalso. apply (opens_not_root _ _ Eo). exact H1.
Qed.

(** marks satisfying P are exactly the root items satisfying P, if no other
    frame or node has one *)
Lemma filter_root (P : obs -> bool) l u its :
  fst (scan0 l) = u ++ [(FRoot, its)] ->
  Forall (fun f => Forall (fun o => P o = false) (snd f)) u ->
  Forall (fun n => Forall (fun o => P o = false) (snd (fst n))) (snd (scan0 l)) ->
  filter P l = filter P its.
Proof.
  revert u its. induction l as [|l x IH] using snoc_ind; intros u its H Hu Hn.
  - simpl in H. destruct u as [|f u]; [injection H as <-; reflexivity|]. destruct u; discriminate.
  - assert (Hn' : Forall (fun n => Forall (fun o => P o = false) (snd (fst n))) (snd (scan0 l)) /\
        Forall (fun n => Forall (fun o => P o = false) (snd (fst n))) (snd (scan1 (fst (scan0 l), []) x))).
    { rewrite scanl_snoc in Hn. destruct (scan0 l) as [st ns]. rewrite scan1_nodes in Hn. simpl in *.
      apply Forall_app in Hn. exact Hn. }
    destruct Hn' as [Hn1 Hn2].
    assert (HPsnoc : forall i y, Forall (fun o => P o = false) (i ++ [y]) -> Forall (fun o => P o = false) i /\ P y = false).
    { intros i y Hf. apply Forall_app in Hf. destruct Hf as [H1 H2]. inversion H2; auto. }
    rewrite filter_app. simpl.
    assert (Hadd : forall r u its, 
        (forall u its, r = u ++ [(FRoot, its)] -> Forall (fun f => Forall (fun o => P o = false) (snd f)) u -> filter P l = filter P its) ->
        add_item x r = u ++ [(FRoot, its)] ->
        Forall (fun f => Forall (fun o => P o = false) (snd f)) u ->
        filter P l ++ (if P x then [x] else []) = filter P its).
    { clear u its H Hu. intros r u its IHr H Hu. apply add_item_split in H. destruct H as [(-> & k' & i' & [= <- ->] & H)|(u0 & -> & Hu0 & H)].
      - rewrite (IHr [] i' H ltac:(constructor)). rewrite filter_app. reflexivity.
      - destruct u0 as [|[k i] u0]; [congruence|]. simpl in Hu. inversion Hu as [|? ? Hx Hu']; subst.
        simpl in Hx. apply HPsnoc in Hx. destruct Hx as [Hx1 Hx2]. rewrite Hx2, app_nil_r.
        apply (IHr ((k, i) :: u0) its eq_refl). constructor; auto. }
    rewrite scan_fst_snoc in H. unfold scan1 in H, Hn2. destruct (closes x) eqn:Ec.
    + destruct (fst (scan0 l)) as [|[k0 i0] r] eqn:Es; [destruct u; discriminate|]. simpl in H, Hn2.
      inversion Hn2 as [|? ? Hi0 _]; subst. simpl in Hi0.
      eapply Hadd; [|exact H|exact Hu]. intros u' its' -> Hu'.
      apply (IH ((k0, i0) :: u') its'); auto.
    + destruct (opens x) as [k0|] eqn:Eo; simpl in H.
      * destruct u as [|f u]; injection H as H1 H; [exfalso; apply (opens_not_root _ _ Eo); exact H1|].
        inversion Hu; subst. eapply Hadd; [|exact H|assumption]. intros u' its' H' Hu'. eapply IH; eauto.
      * eapply Hadd; [|exact H|exact Hu]. intros u' its' H' Hu'. eapply IH; eauto.
Qed.

(** every mark is an item of exactly one frame or node *)
Definition items_of (s : stack * list node) : list obs :=
  List.concat (map snd (fst s)) ++ List.concat (map (fun n => snd (fst n)) (snd s)).
Lemma scan_perm l u its : fst (scan0 l) = u ++ [(FRoot, its)] -> Permutation l (items_of (scan0 l)).
Proof.
  revert u its. induction l as [|l x IH] using snoc_ind; intros u its H; [reflexivity|].
  assert (Hadd : forall r, r <> [] -> Permutation (List.concat (map snd (add_item x r))) (x :: List.concat (map snd r))).
  { clear. intros [|[k i] r] Hr; [congruence|]. simpl. rewrite <- app_assoc. simpl.
    symmetry. apply Permutation_middle. }
  rewrite scan_fst_snoc in H. rewrite scanl_snoc. destruct (scan0 l) as [st ns] eqn:Es. simpl in H.
  rewrite Permutation_app_comm. simpl. unfold scan1 in *. destruct (closes x) eqn:Ec.
  - destruct st as [|[k0 i0] r]; [destruct u; discriminate|]. simpl in H. unfold items_of. simpl.
    assert (Hr : r <> []) by (intros ->; destruct u; discriminate).
    assert (Hb : exists u' its', r = u' ++ [(FRoot, its')]).
    { apply add_item_split in H. destruct H as [(-> & k' & i' & [= <- ->] & ->)|(u0 & -> & Hu0 & ->)]; [exists [], i'; reflexivity|exists u0, its; reflexivity]. }
    destruct Hb as (u' & its' & Hb).
    specialize (IH ((k0, i0) :: u') its'). rewrite Hb in IH. specialize (IH eq_refl). rewrite <- Hb in IH.
    rewrite (Hadd r Hr). simpl. apply perm_skip. rewrite IH. unfold items_of. simpl.
    rewrite map_app, concat_app. simpl. rewrite app_nil_r, app_assoc.
    rewrite <- app_assoc. apply Permutation_app_comm.
  - assert (Hgo : forall u its, add_item x st = u ++ [(FRoot, its)] -> st <> [] /\ Permutation l (items_of (st, ns))).
    { intros u' its' H'. split; [intros ->; destruct u'; discriminate|].
      apply add_item_split in H'. destruct H' as [(-> & k' & i' & [= <- ->] & H')|(u0 & -> & Hu0 & H')].
      - apply (IH [] i'). exact H'.
      - apply (IH u0 its'). exact H'. }
    unfold items_of in *. destruct (opens x) as [k0|] eqn:Eo; simpl in *.
    + destruct u as [|f u]; injection H as H1 H; [exfalso; apply (opens_not_root _ _ Eo); exact H1|].
      destruct (Hgo _ _ H) as [Hst Hp]. rewrite (Hadd st Hst). simpl. apply perm_skip. exact Hp.
    + destruct (Hgo _ _ H) as [Hst Hp]. rewrite (Hadd st Hst). simpl. apply perm_skip. exact Hp.
Qed.

(** the root is never closed if no node says so *)
Lemma root_stays l : Forall (fun n => fst (fst n) <> FRoot) (snd (scan0 l)) ->
  exists u its, fst (scan0 l) = u ++ [(FRoot, its)].
Proof.
  induction l as [|l x IH] using snoc_ind; intro Hn; [exists [], []; reflexivity|].
  rewrite scanl_snoc in Hn. rewrite scan_fst_snoc. destruct (scan0 l) as [st ns] eqn:Es.
  rewrite scan1_nodes in Hn. simpl in *. apply Forall_app in Hn. destruct Hn as [Hn1 Hn2].
  destruct (IH Hn1) as (u & its & ->).
  unfold scan1 in *. destruct (closes x) eqn:Ec.
  - destruct u as [|[k0 i0] u]; simpl in *.
    + inversion Hn2; subst. simpl in *. congruence.
    + destruct u as [|[k1 i1] u]; simpl; [exists [], (its ++ [x]); reflexivity|].
      exists ((k1, i1 ++ [x]) :: u), its. reflexivity.
  - assert (Hadd : exists u' its', add_item x (u ++ [(FRoot, its)]) = u' ++ [(FRoot, its')]).
    { destruct u as [|[k1 i1] u]; simpl; [exists [], (its ++ [x]); reflexivity|].
      exists ((k1, i1 ++ [x]) :: u), its. reflexivity. }
    destruct Hadd as (u' & its' & Ha). destruct (opens x) as [k0|]; simpl; rewrite Ha; [|eauto].
    exists ((k0, []) :: u'), its'. reflexivity.
Qed.

(** ** Threads *)
Lemma thread_obs_app t a b : thread_obs t (a ++ b) = thread_obs t a ++ thread_obs t b.
Proof. unfold thread_obs. rewrite filter_app, map_app. reflexivity. Qed.
Lemma thread_obs_in t tr o : In o (thread_obs t tr) <-> In (t, o) tr.
Proof.
  unfold thread_obs. rewrite in_map_iff. split.
  - intros ([t' o'] & <- & H). apply filter_In in H. destruct H as [H Ht]. simpl in *.
    unfold tid_eqb in Ht. destruct (tid_eq_dec t' t); [subst; exact H|discriminate].
  - intro H. exists (t, o). split; [reflexivity|]. apply filter_In. split; [exact H|].
    unfold tid_eqb. simpl. destruct (tid_eq_dec t t); congruence.
Qed.
Lemma thread_obs_split t tr : forall l1 o l2, thread_obs t tr = l1 ++ o :: l2 ->
  exists a b, tr = a ++ (t, o) :: b /\ thread_obs t a = l1 /\ thread_obs t b = l2.
Proof.
  induction tr as [|[t' o'] tr IH]; intros l1 o l2 H; [destruct l1; discriminate|].
  unfold thread_obs in H. simpl in H. unfold tid_eqb in H at 1. destruct (tid_eq_dec t' t) as [->|N]; simpl in H.
  - destruct l1 as [|z l1]; injection H as -> H.
    + exists [], tr. auto.
    + destruct (IH l1 o l2 H) as (a & b & -> & H1 & H2). exists ((t, z) :: a), b.
      split; [reflexivity|]. split; [|exact H2]. unfold thread_obs in *. simpl. unfold tid_eqb at 1.
      destruct (tid_eq_dec t t); [|congruence]. simpl. rewrite H1. reflexivity.
  - destruct (IH l1 o l2 H) as (a & b & -> & H1 & H2). exists ((t', o') :: a), b.
    split; [reflexivity|]. split; [|exact H2]. unfold thread_obs in *. simpl. unfold tid_eqb at 1.
    destruct (tid_eq_dec t' t); [congruence|]. exact H1.
Qed.
Lemma scan_eq t tr : scan t tr = scan0 (thread_obs t tr).
Proof. reflexivity. Qed.

Lemma closed_suffix t a b k its o : closed t b k its o -> k <> FRoot -> closed t (a ++ b) k its o.
Proof. unfold closed. rewrite !scan_eq, thread_obs_app. apply scan_suffix. Qed.
Lemma opened_suffix t a b k its : opened t b k its -> k <> FRoot -> opened t (a ++ b) k its.
Proof. unfold opened. rewrite !scan_eq, thread_obs_app. apply scan_suffix_open. Qed.

(** a completed bracket in the trace *)
Lemma closed_inv t tr k its o : closed t tr k its o -> k <> FRoot ->
  exists a op b d, tr = a ++ (t, op) :: b ++ (t, o) :: d /\ opens op = Some k /\ closes o = true /\
    fst (scan t b) = [(FRoot, its)].
Proof.
  unfold closed. rewrite scan_eq. intros H Hk.
  destruct (closed_bracket _ _ _ _ H Hk) as (l1 & op & l2 & l3 & Hl & Ho & Hc & Hs).
  destruct (thread_obs_split _ _ _ _ _ Hl) as (a & b & -> & Ha & Hb).
  destruct (thread_obs_split _ _ _ _ _ Hb) as (b1 & b2 & -> & Hb1 & Hb2).
  exists a, op, b1, b2. split; [reflexivity|]. rewrite scan_eq, Hb1. auto.
Qed.
Lemma opened_inv t tr k its : opened t tr k its -> k <> FRoot ->
  exists a op b u, tr = a ++ (t, op) :: b /\ opens op = Some k /\ fst (scan t b) = u ++ [(FRoot, its)].
Proof.
  unfold opened. rewrite scan_eq. intros H Hk. apply in_split in H. destruct H as (u & v & H).
  destruct (open_bracket _ _ _ _ _ H Hk) as (l1 & op & l2 & Hl & Ho & Hs & _).
  destruct (thread_obs_split _ _ _ _ _ Hl) as (a & b & -> & Ha & Hb).
  exists a, op, b, u. split; [reflexivity|]. rewrite scan_eq, Hb. auto.
Qed.
(** a plain item of an open or completed bracket, located in the trace *)
Lemma item_inv t b u i1 x i2 : fst (scan t b) = u ++ [(FRoot, i1 ++ x :: i2)] -> closes x = false ->
  exists c d, b = c ++ (t, x) :: d /\ fst (scan t c) = [(FRoot, i1)].
Proof.
  rewrite scan_eq. intros H Hx.
  destruct (item_split _ _ _ _ _ _ H eq_refl Hx) as (c1 & c2 & Hc & Hs).
  destruct (thread_obs_split _ _ _ _ _ Hc) as (c & d & -> & H1 & H2).
  exists c, d. rewrite scan_eq, H1. auto.
Qed.
