(** * MultiProofs.v: the multi-consumer listener (proofs for C30) *)
From Verif Require Import CallSpec MemInv Lang Tree Nodes Marks QueueProofs Place Moments Truth FlowProofs QTruth StartProofs FireProofs CallProofs.

Lemma leaf_eqb_iff a b : leaf_eqb a b = true <-> a = b.
Proof. unfold leaf_eqb. destruct (leaf_eq_dec a b); split; congruence. Qed.
Lemma leaf_eqb_refl a : leaf_eqb a a = true.
Proof. apply leaf_eqb_iff. reflexivity. Qed.

(** ** The map *)
Definition present (es : list (leaf * bool)) : list leaf := map fst (filter snd es).
Lemma has_present l es : has_leaf l es = true <-> In l (present es).
Proof.
  unfold has_leaf, present. rewrite existsb_exists, in_map_iff. split.
  - intros ([l' b] & Hi & Hx). simpl in Hx. apply andb_true_iff in Hx. destruct Hx as [Hb Hl]. apply leaf_eqb_iff in Hl. subst l'.
    exists (l, b). split; [reflexivity|]. apply filter_In. auto.
  - intros ([l' b] & <- & Hi). apply filter_In in Hi. destruct Hi as [Hi Hb]. exists (l', b). split; [exact Hi|].
    simpl in *. rewrite Hb. apply leaf_eqb_refl.
Qed.
Lemma present_add l es : present (es ++ [(l, true)]) = present es ++ [l].
Proof. unfold present. rewrite filter_app, map_app. reflexivity. Qed.
Lemma present_drop l es : present (drop_leaf l es) = filter (fun y => negb (leaf_eqb l y)) (present es).
Proof.
  induction es as [|[l' b] es IH]; [reflexivity|]. unfold present in *. simpl. destruct (leaf_eqb l l') eqn:El, b; simpl; rewrite ?El; simpl; congruence.
Qed.
Lemma has_add l l' es : has_leaf l (es ++ [(l', true)]) = orb (has_leaf l es) (leaf_eqb l l').
Proof. unfold has_leaf. rewrite existsb_app. simpl. rewrite orb_false_r. reflexivity. Qed.
Lemma has_drop l l' es : has_leaf l (drop_leaf l' es) = andb (has_leaf l es) (negb (leaf_eqb l' l)).
Proof.
  unfold has_leaf. induction es as [|[x b] es IH]; [reflexivity|]. simpl. rewrite IH.
  destruct (leaf_eqb l' x) eqn:E1; simpl.
  - apply leaf_eqb_iff in E1. subst x. destruct (leaf_eqb l l') eqn:E2.
    + apply leaf_eqb_iff in E2. subst l'. rewrite leaf_eqb_refl. simpl. rewrite !andb_false_r. reflexivity.
    + rewrite andb_false_r. reflexivity.
  - destruct b, (leaf_eqb l x) eqn:E2; simpl; try reflexivity.
    apply leaf_eqb_iff in E2. subst x. rewrite E1. reflexivity.
Qed.
Lemma nodup_snoc (l : leaf) L : NoDup L -> ~ In l L -> NoDup (L ++ [l]).
Proof.
  induction L as [|y L IH]; intros Hn Hx; simpl; [constructor; [intros []|constructor]|].
  inversion Hn; subst. constructor.
  - intro Hi. apply in_app_or in Hi. destruct Hi as [Hi|[->|[]]]; [auto|]. apply Hx. left. reflexivity.
  - apply IH; auto. intro Hi. apply Hx. right. exact Hi.
Qed.

(** the effect of one mark *)
Definition mstep (k : nat) (es : list (leaf * bool)) (o : obs) : list (leaf * bool) :=
  match o with
  | OWr (WrMulti true k' x true) => if Nat.eqb k' k then es ++ [(x, true)] else es
  | OWr (WrMulti false k' x true) => if Nat.eqb k' k then drop_leaf x es else es
  | _ => es
  end.
Lemma multi_snoc k v h t o : multi_of k v (h ++ [(t, o)]) = mstep k (multi_of k v h) o.
Proof. unfold multi_of. rewrite replay_snoc. reflexivity. Qed.
Lemma mstep_cases k es o : mstep k es o = es \/
  (exists l, o = OWr (WrMulti true k l true) /\ mstep k es o = es ++ [(l, true)]) \/
  (exists l, o = OWr (WrMulti false k l true) /\ mstep k es o = drop_leaf l es).
Proof.
  destruct o as [| | | | | | | | | | | | | | |ww]; auto. destruct ww as [| | | | | | | |add k' l b| | | | | |]; auto.
  simpl. destruct add, b; auto; destruct (Nat.eqb_spec k' k) as [->|]; eauto 6.
Qed.
Lemma registered_snoc w0 k l h t o : registered w0 k l (h ++ [(t, o)]) =
  match o with OWr (WrMulti add k' l' _) => if andb (Nat.eqb k' k) (leaf_eqb l' l) then add else registered w0 k l h | _ => registered w0 k l h end.
Proof. unfold registered. rewrite replay_snoc. reflexivity. Qed.

Lemma nth_drop l es i : nth_error (drop_leaf l es) i =
  option_map (fun y : leaf * bool => if leaf_eqb l (fst y) then (fst y, false) else y) (nth_error es i).
Proof. unfold drop_leaf. revert i. induction es as [|y es IH]; intros [|i]; simpl; auto. Qed.
Lemma drop_length l es : List.length (drop_leaf l es) = List.length es.
Proof. apply map_length. Qed.

(** an entry keeps its number; once removed it stays so *)
Lemma stable k v r : forall h i l b, nth_error (multi_of k v h) i = Some (l, b) ->
  exists b', nth_error (multi_of k v (h ++ r)) i = Some (l, b') /\ (b = false -> b' = false).
Proof.
  induction r as [|[t o] r IH] using rev_ind; intros h i l b Hn.
  - exists b. rewrite app_nil_r. auto.
  - destruct (IH h i l b Hn) as (b' & Hb & Hf). rewrite app_assoc, multi_snoc.
    destruct (mstep_cases k (multi_of k v (h ++ r)) o) as [->|[(x & _ & ->)|(x & _ & ->)]].
    + eauto.
    + exists b'. split; [|exact Hf]. rewrite nth_error_app1; [exact Hb|]. apply nth_error_Some. rewrite Hb. discriminate.
    + rewrite nth_drop, Hb. simpl. destruct (leaf_eqb x l); eauto.
Qed.
Lemma grows k v r h : List.length (multi_of k v h) <= List.length (multi_of k v (h ++ r)).
Proof.
  induction r as [|[t o] r IH] using rev_ind; [rewrite app_nil_r; lia|]. rewrite app_assoc, multi_snoc.
  destruct (mstep_cases k (multi_of k v (h ++ r)) o) as [->|[(x & _ & ->)|(x & _ & ->)]]; [exact IH|rewrite app_length; lia|rewrite drop_length; exact IH].
Qed.
(** an entry that was not there before was added meanwhile *)
Lemma was_new w0 k v r : forall h i l b, nth_error (multi_of k v (h ++ r)) i = Some (l, b) -> List.length (multi_of k v h) <= i ->
  exists r1 r2, r = r1 ++ r2 /\ registered w0 k l (h ++ r1) = true.
Proof.
  induction r as [|[t o] r IH] using rev_ind; intros h i l b Hn Hi.
  - rewrite app_nil_r in Hn. exfalso. assert (H : nth_error (multi_of k v h) i <> None) by congruence. apply nth_error_Some in H. lia.
  - assert (HI : forall b', nth_error (multi_of k v (h ++ r)) i = Some (l, b') ->
      exists r1 r2, r ++ [(t, o)] = r1 ++ r2 /\ registered w0 k l (h ++ r1) = true).
    { intros b' Hn'. destruct (IH h i l b' Hn' Hi) as (r1 & r2 & -> & Hreg). exists r1, (r2 ++ [(t, o)]). rewrite app_assoc. auto. }
    rewrite app_assoc, multi_snoc in Hn.
    destruct (mstep_cases k (multi_of k v (h ++ r)) o) as [Hm|[(x & -> & Hm)|(x & -> & Hm)]]; rewrite Hm in Hn.
    + eauto.
    + destruct (Nat.lt_ge_cases i (List.length (multi_of k v (h ++ r)))) as [Hl|Hl].
      * rewrite nth_error_app1 in Hn by exact Hl. eauto.
      * rewrite nth_error_app2 in Hn by exact Hl. destruct (i - List.length (multi_of k v (h ++ r))) as [|j]; [|destruct j; discriminate Hn].
        injection Hn as -> <-. exists (r ++ [(t, OWr (WrMulti true k l true))]), []. split; [rewrite app_nil_r; reflexivity|].
        rewrite app_assoc, registered_snoc, Nat.eqb_refl, leaf_eqb_refl. reflexivity.
    + rewrite nth_drop in Hn. destruct (nth_error (multi_of k v (h ++ r)) i) as [[l' b']|] eqn:En; [|discriminate Hn].
      simpl in Hn. assert (l' = l) by (destruct (leaf_eqb x l'); congruence). subst l'. eauto.
Qed.
(** the entry of a listener that stays registered stays *)
Lemma stays w0 k v r : forall h i l, nth_error (multi_of k v h) i = Some (l, true) ->
  (forall r1 r2, r = r1 ++ r2 -> registered w0 k l (h ++ r1) = true) -> nth_error (multi_of k v (h ++ r)) i = Some (l, true).
Proof.
  induction r as [|[t o] r IH] using rev_ind; intros h i l Hn Hreg; [rewrite app_nil_r; exact Hn|].
  assert (Hb : nth_error (multi_of k v (h ++ r)) i = Some (l, true)).
  { apply IH; [exact Hn|]. intros r1 r2 ->. apply (Hreg r1 (r2 ++ [(t, o)])). rewrite app_assoc. reflexivity. }
  specialize (Hreg (r ++ [(t, o)]) [] (eq_sym (app_nil_r _))). rewrite app_assoc, registered_snoc in Hreg.
  rewrite app_assoc, multi_snoc.
  destruct (mstep_cases k (multi_of k v (h ++ r)) o) as [->|[(x & _ & ->)|(x & -> & ->)]].
  - exact Hb.
  - rewrite nth_error_app1; [exact Hb|]. apply nth_error_Some. rewrite Hb. discriminate.
  - rewrite nth_drop, Hb. simpl. rewrite Nat.eqb_refl in Hreg. simpl in Hreg. destruct (leaf_eqb x l); [discriminate Hreg|reflexivity].
Qed.

(** ** The walk *)
Lemma in_number (es : list (leaf * bool)) : forall n i y, In (i, y) (combine (List.seq n (List.length es)) es) <-> n <= i /\ nth_error es (i - n) = Some y.
Proof.
  induction es as [|x es IH]; intros n i y; simpl.
  - split; [intros []|]. intros [_ H]. destruct (i - n); discriminate H.
  - rewrite IH. split.
    + intros [[= <- <-]|[H1 H2]]; [rewrite Nat.sub_diag; auto|]. split; [lia|]. replace (i - n) with (S (i - S n)) by lia. exact H2.
    + intros [H1 H2]. destruct (Nat.eq_dec i n) as [->|N]; [left; rewrite Nat.sub_diag in H2; injection H2 as ->; reflexivity|].
      right. split; [lia|]. replace (i - n) with (S (i - S n)) in H2 by lia. exact H2.
Qed.
Lemma number_nodup (es : list (leaf * bool)) : forall n, NoDup (map fst (combine (List.seq n (List.length es)) es)).
Proof.
  induction es as [|x es IH]; intro n; simpl; constructor; [|apply IH].
  intro Hi. apply in_map_iff in Hi. destruct Hi as ([i y] & <- & Hi). apply in_number in Hi. simpl in Hi. lia.
Qed.
Definition gone (c : list (leaf * bool)) (i : nat) : Prop := exists l, nth_error c i = Some (l, false).
Lemma in_unvisited c vs es i y : In (i, y) (unvisited c vs es) <-> nth_error es i = Some y /\ ~ In i vs /\ ~ gone c i.
Proof.
  unfold unvisited. rewrite filter_In, in_number, Nat.sub_0_r. simpl. rewrite andb_true_iff, negb_true_iff.
  assert (H1 : existsb (Nat.eqb i) vs = false <-> ~ In i vs).
  { rewrite <- not_true_iff_false, existsb_exists. split.
    - intros H Hi. apply H. exists i. split; [exact Hi|apply Nat.eqb_refl].
    - intros H (j & Hj & Ej). apply Nat.eqb_eq in Ej. subst j. auto. }
  assert (H2 : match nth_error c i with Some (_, false) => false | _ => true end = true <-> ~ gone c i).
  { unfold gone. destruct (nth_error c i) as [[l [|]]|]; split; intros; try congruence.
    - intros (l' & [= ]).
    - exfalso. eauto.
    - intros (l' & [= ]). }
  rewrite H1, H2. split; [intros ((_ & H) & H' & H''); auto|intros (H & H' & H''); repeat split; auto; lia].
Qed.
Lemma in_owed c vs es i y : In (i, y) (owed c vs es) <-> In (i, y) (unvisited c vs es) /\ i < List.length c /\ snd y = true.
Proof. unfold owed. rewrite filter_In. simpl. rewrite andb_true_iff, Nat.ltb_lt. tauto. Qed.
Lemma filter_nodup {A B} (f : A -> B) P (l : list A) : NoDup (map f l) -> NoDup (map f (filter P l)).
Proof.
  induction l as [|x l IH]; intro H; [constructor|]. inversion H; subst. simpl. destruct (P x); [|auto]. simpl. constructor; [|auto].
  intro Hi. apply in_map_iff in Hi. destruct Hi as (y & Hy & Hi). apply filter_In in Hi. apply H2. rewrite <- Hy. apply in_map. apply Hi.
Qed.
Lemma unvisited_nodup c vs es : NoDup (map fst (unvisited c vs es)).
Proof. apply filter_nodup. apply number_nodup. Qed.

Lemma unvisited_snoc c vs es y : unvisited c vs (es ++ [y]) = unvisited c vs es ++
  (if andb (negb (existsb (Nat.eqb (List.length es)) vs)) (match nth_error c (List.length es) with Some (_, false) => false | _ => true end)
   then [(List.length es, y)] else []).
Proof.
  assert (Hcomb : forall (A B : Type) (u1 : list A) (u2 : list B) a1 a2, List.length u1 = List.length u2 ->
    combine (u1 ++ [a1]) (u2 ++ [a2]) = combine u1 u2 ++ [(a1, a2)]).
  { clear. induction u1 as [|y u1 IH]; intros [|z u2] a1 a2 Hl; try discriminate Hl; simpl; [reflexivity|]. rewrite IH; auto. }
  unfold unvisited. rewrite app_length. simpl List.length. rewrite Nat.add_1_r, seq_S. simpl. rewrite Hcomb by apply seq_length.
  rewrite filter_app. reflexivity.
Qed.

Lemma calls_app cs1 cs2 x o1 o2 : callsL cs1 None o1 -> one_by_one cs2 x o2 -> one_by_one (cs1 ++ cs2) x (o1 ++ o2).
Proof.
  intro H. apply calls_one in H. destruct H as [[_ ->]|(? & ? & ? & ? & _ & [= ] & _)].
  intros [[-> ->]|(c1 & c & c2 & y & -> & -> & ->)].
  - left. split; [reflexivity|]. rewrite flat_map_app. reflexivity.
  - right. exists (cs1 ++ c1), c, c2, y. rewrite <- app_assoc. split; [reflexivity|]. split; [reflexivity|]. rewrite flat_map_app, app_assoc. reflexivity.
Qed.

Section Multi.
  Context (E : env) (w0 : mem) (w : world) (H0 : init_mem E w0) (Hr : reach E w0 w).
  Notation T := (tr (wm w)).
  Notation M k h := (multi_of k (multis w0 k) h).

  Lemma multi_truth h r : T = h ++ r -> forall k, NoDup (present (M k h)) /\ forall l, has_leaf l (M k h) = registered w0 k l h.
  Proof.
    revert r. induction h as [|[t o] h IH] using rev_ind; intros r HT k.
    - split; [exact (im_multis _ _ H0 k)|reflexivity].
    - assert (HT' : T = h ++ (t, o) :: r) by (rewrite HT, <- app_assoc; reflexivity).
      destruct (IH _ HT' k) as [Hnd Hreg]. destruct (truth E w0 w (im_tr _ _ H0) Hr) as [_ Ht].
      destruct (Ht _ _ _ _ HT') as [Hw _]. clear Ht IH HT HT' r. rewrite multi_snoc.
      assert (Hs : forall l, registered w0 k l (h ++ [(t, o)]) = match o with
        | OWr (WrMulti add k' l' _) => if andb (Nat.eqb k' k) (leaf_eqb l' l) then add else has_leaf l (M k h)
        | _ => has_leaf l (M k h) end).
      { intro l. rewrite registered_snoc. destruct o as [| | | | | | | | | | | | | | |ww]; auto.
        destruct ww; auto. destruct (andb _ _); auto. }
      clear Hreg.
      destruct o as [| | | | | | | | | | | | | | |ww]; try (split; [exact Hnd|intro; rewrite Hs; reflexivity]).
      destruct ww as [| | | | | | | |add k' l' b| | | | | |]; try (split; [exact Hnd|intro; rewrite Hs; reflexivity]).
      destruct (Nat.eqb_spec k' k) as [->|Nk].
      2:{ assert (Hm : mstep k (M k h) (OWr (WrMulti add k' l' b)) = M k h).
          { simpl. destruct (Nat.eqb_spec k' k); [congruence|]. destruct add, b; reflexivity. }
          rewrite Hm. split; [exact Hnd|]. intro l. rewrite Hs. reflexivity. }
      simpl in Hs, Hw |- *. rewrite Nat.eqb_refl. destruct add, b; simpl in Hs, Hw.
      + symmetry in Hw. apply negb_true_iff in Hw. rewrite present_add. split.
        * apply nodup_snoc; [exact Hnd|]. intro Hi. apply has_present in Hi. congruence.
        * intro l. rewrite has_add, Hs. destruct (leaf_eqb l' l) eqn:El.
          -- apply leaf_eqb_iff in El. subst. rewrite leaf_eqb_refl. apply orb_true_r.
          -- destruct (leaf_eqb l l') eqn:El2; [apply leaf_eqb_iff in El2; subst; rewrite leaf_eqb_refl in El; discriminate|]. apply orb_false_r.
      + symmetry in Hw. apply negb_false_iff in Hw. split; [exact Hnd|]. intro l. rewrite Hs. destruct (leaf_eqb l' l) eqn:El; [|reflexivity].
        apply leaf_eqb_iff in El. subst. exact Hw.
      + rewrite present_drop. split; [apply NoDup_filter; exact Hnd|]. intro l. rewrite has_drop, Hs.
        destruct (leaf_eqb l' l); [apply andb_false_r|apply andb_true_r].
      + split; [exact Hnd|]. intro l. rewrite Hs. destruct (leaf_eqb l' l) eqn:El; [|reflexivity].
        apply leaf_eqb_iff in El. subst. congruence.
  Qed.
  Lemma multi_call (add : bool) k l t a b its v d :
    let x := if add then AMultiAdd k l else AMultiRem k l in
    span t T a (OInv x) b its (ORet x v) d ->
    exists h o, during t a (OInv x) b h /\ during t a (OInv x) b (h ++ [(t, o)]) /\
      v = RvBool (if add then negb (registered w0 k l h) else registered w0 k l h) /\
      registered w0 k l (h ++ [(t, o)]) = add /\
      forall k' l', (k', l') <> (k, l) -> registered w0 k' l' (h ++ [(t, o)]) = registered w0 k' l' h.
  Proof.
    intros x Hs. pose proof (span_node E w0 w H0 Hr _ _ _ _ _ _ _ (FApi x) Hs eq_refl) as [_ Hl].
    assert (Hi : exists r, v = RvBool r /\ its = [OWr (WrMulti add k l r)]) by (destruct add; exact Hl).
    destruct Hi as (r & -> & Hi).
    destruct (item_moment w _ _ _ _ _ _ _ [] _ [] Hs Hi eq_refl) as (b1 & b2 & -> & _ & HT).
    exists (a ++ (t, OInv x) :: b1), (OWr (WrMulti add k l r)).
    split; [exists b1, ((t, OWr (WrMulti add k l r)) :: b2); auto|].
    split; [exists (b1 ++ [(t, OWr (WrMulti add k l r))]), b2; rewrite <- !app_assoc; auto|].
    destruct (truth E w0 w (im_tr _ _ H0) Hr) as [_ Ht]. destruct (Ht _ _ _ _ HT) as [Hw _].
    destruct (multi_truth _ _ HT k) as [_ Hreg]. rewrite <- Hreg.
    split; [destruct add; simpl in Hw; rewrite Hw; reflexivity|].
    rewrite registered_snoc, Nat.eqb_refl, leaf_eqb_refl. split; [reflexivity|].
    intros k' l' Hn. rewrite registered_snoc. destruct (Nat.eqb_spec k k') as [<-|]; [|reflexivity].
    destruct (leaf_eqb l l') eqn:El; [|reflexivity]. apply leaf_eqb_iff in El. subst. congruence.
  Qed.

  (** the entries that were not removed at moment h, after r: at most one for the
      listener as it was registered then, and one for each time it was added *)
  Lemma live_count k l h : forall r d, T = h ++ r ++ d ->
    List.length (filter (fun y => leaf_eqb l (fst (snd y))) (unvisited (M k h) [] (M k (h ++ r)))) <=
    (if registered w0 k l h then 1 else 0) + joins k l r.
  Proof.
    induction r as [|[t o] r IH] using rev_ind; intros d HT.
    - rewrite app_nil_r. destruct (multi_truth _ _ HT k) as [Hnd Hreg]. rewrite <- Hreg. clear Hreg HT d. generalize (M k h) Hnd. clear.
      intros es Hnd. unfold unvisited.
      assert (G : forall n c, (forall i, nth_error c (n + i) = nth_error es i) ->
        List.length (filter (fun y => leaf_eqb l (fst (snd y))) (filter (fun y => andb (negb (existsb (Nat.eqb (fst y)) []))
          (match nth_error c (fst y) with Some (_, false) => false | _ => true end)) (combine (List.seq n (List.length es)) es))) <=
        (if has_leaf l es then 1 else 0)).
      { revert Hnd. induction es as [|[x b] es IH]; intros Hnd n c Hc; [simpl; lia|]. simpl.
        pose proof (Hc 0) as Hc0. rewrite Nat.add_0_r in Hc0. rewrite Hc0. simpl.
        assert (Hnd' : NoDup (present es)) by (unfold present in *; destruct b; [inversion Hnd; auto|exact Hnd]).
        specialize (IH Hnd' (S n) c). assert (Hc' : forall i, nth_error c (S n + i) = nth_error es i).
        { intro i. change (nth_error es i) with (nth_error ((x, b) :: es) (S i)). rewrite <- (Hc (S i)). f_equal. lia. }
        specialize (IH Hc'). simpl in IH. destruct b; simpl; [|exact IH]. destruct (leaf_eqb l x) eqn:El; simpl; [|exact IH].
        apply leaf_eqb_iff in El. subst x. destruct (has_leaf l es) eqn:Eh; [|lia].
        apply has_present in Eh. unfold present in Hnd. simpl in Hnd. inversion Hnd; subst. contradiction. }
      unfold joins. simpl. rewrite Nat.add_0_r. apply (G 0). reflexivity.
    - rewrite <- app_assoc in HT. specialize (IH _ HT). unfold joins in *. rewrite filter_app, app_length.
      rewrite app_assoc, multi_snoc. set (es := M k (h ++ r)) in *.
      destruct (mstep_cases k es o) as [->|[(x & -> & ->)|(x & -> & ->)]].
      + lia.
      + rewrite unvisited_snoc, filter_app, app_length. cbn [filter snd]. rewrite Nat.eqb_refl.
        assert (Hx : leaf_eqb x l = leaf_eqb l x).
        { unfold leaf_eqb. destruct (leaf_eq_dec x l), (leaf_eq_dec l x); congruence. }
        rewrite Hx. match goal with |- context [if ?q then [_] else []] => destruct q end; cbn [filter List.length fst snd andb]; destruct (leaf_eqb l x); simpl; lia.
      + assert (Heq : List.length (filter (fun y => leaf_eqb l (fst (snd y))) (unvisited (M k h) [] (drop_leaf x es))) =
                      List.length (filter (fun y => leaf_eqb l (fst (snd y))) (unvisited (M k h) [] es))).
        { unfold unvisited. rewrite drop_length. generalize (M k h). intro c. generalize 0. clear. induction es as [|[z b] es IH]; intro n; [reflexivity|].
          cbn [List.length List.seq drop_leaf map combine filter fst snd]. specialize (IH (S n)). unfold drop_leaf in IH.
          assert (Hz : fst (if leaf_eqb x z then (z, false) else (z, b)) = z) by (destruct (leaf_eqb x z); reflexivity).
          match goal with |- context [if ?q then _ else _] => destruct q end; [|exact IH]. cbn [filter fst snd]. rewrite Hz. destruct (leaf_eqb l z); cbn [List.length]; [f_equal|]; exact IH. }
        rewrite Heq. lia.
  Qed.

  Section Notify.
    Context (t : tid) (a b : trace) (its : list obs) (d : trace) (k : nat) (fin : bool) (m : mid) (f : sid) (e : eid) (s : sid) (x : option exn).
    Let c := KListen fin (LMulti k) m f e s.
    Let cl (l : leaf) : call := KListen fin (LLeaf l) m f e s.
    Context (Hs : span t T a (OCall c) b its (OBack c x) d).
    Notation du := (during t a (OCall c) b).

    Lemma walk_ok v i0 : its = R (RdMulti k v) :: i0 ->
      forall n vs pend i1 out, i0 = i1 ++ out -> walkL cl k (fst v) n vs pend x out ->
      exists ils, one_by_one (map cl (pend ++ map snd ils)) x (shown out) /\ NoDup (map fst ils) /\
        (forall i, In i (map fst ils) -> ~ In i vs) /\
        (forall i l, In (i, l) ils -> exists h1 h2 fl, du h1 /\ du h2 /\ upto h1 h2 /\ fst v = M k h1 /\
           nth_error (M k h2) i = Some (l, fl) /\ ~ gone (fst v) i) /\
        (x = None -> exists h1 h2, du h1 /\ du h2 /\ upto h1 h2 /\ fst v = M k h1 /\
           forall i l, In (i, (l, true)) (owed (fst v) vs (M k h2)) -> In i (map fst ils)).
    Proof.
      intro Hits. induction n as [|n IH]; intros vs pend i1 out Hi0.
      - intros (ls & out' & -> & Hc).
        destruct (reads_during E w0 w H0 Hr _ _ _ _ _ _ _ [] (RdMulti k v) i1 (RdMRest k (fst v) vs ls) out' Hs) as (h1 & h2 & D1 & D2 & Hu & R1 & R2).
        { rewrite Hits, Hi0. reflexivity. }
        simpl in R1, R2. exists ls. apply calls_one in Hc.
        split; [change (shown (R (RdMRest k (fst v) vs ls) :: out')) with (shown out'); rewrite (shown_one _ _ _ Hc); exact Hc|].
        assert (Hls : forall i l, In (i, l) ls <-> nth_error (M k h2) i = Some (l, true) /\ ~ In i vs /\ ~ gone (fst v) i).
        { intros i l. rewrite R2, in_map_iff. split.
          - intros ([i' [l' b']] & [= <- <-] & Hi). apply filter_In in Hi. destruct Hi as [Hi Hb]. simpl in Hb. subst b'. apply in_unvisited in Hi. exact Hi.
          - intro Hi. exists (i, (l, true)). split; [reflexivity|]. apply filter_In. split; [apply in_unvisited; exact Hi|reflexivity]. }
        split; [|split; [|split]].
        + rewrite R2, map_map. apply filter_nodup. apply unvisited_nodup.
        + intros i Hi. apply in_map_iff in Hi. destruct Hi as ([i' l] & <- & Hi). apply Hls in Hi. apply Hi.
        + intros i l Hi. apply Hls in Hi. destruct Hi as (H1 & H2 & H3). exists h1, h2, true. auto 8.
        + intros _. exists h1, h2. repeat (split; [assumption|]). intros i l Hi. apply in_owed in Hi. destruct Hi as [Hi _].
          apply in_unvisited in Hi. apply in_map_iff. exists (i, l). split; [reflexivity|]. apply Hls. exact Hi.
      - intros (v' & out' & -> & Hc).
        destruct (reads_during E w0 w H0 Hr _ _ _ _ _ _ _ [] (RdMulti k v) i1 (RdMNext k (fst v) vs v') out' Hs) as (h1 & h2 & D1 & D2 & Hu & R1 & R2).
        { rewrite Hits, Hi0. reflexivity. }
        change (shown (R (RdMNext k (fst v) vs v') :: out')) with (shown out').
        simpl in R1, R2. destruct Hc as [(y & -> & Hc)|(o1 & o2 & -> & Hc1 & Hc2)].
        + exists []. simpl. rewrite app_nil_r. apply calls_one in Hc. split; [rewrite (shown_one _ _ _ Hc); exact Hc|].
          split; [constructor|]. split; [intros i []|]. split; [intros i l []|discriminate].
        + assert (Ho1 : shown o1 = o1) by (eapply shown_one; apply calls_one; exact Hc1).
          rewrite shown_app, Ho1. destruct v' as [[i l]|].
          * destruct R2 as ([i' [l' fl]] & Hy & [= -> ->]). apply in_unvisited in Hy. destruct Hy as (Hn & Hv & Hg).
            destruct (IH (i' :: vs) [l'] (i1 ++ R (RdMNext k (fst v) vs (Some (i', l'))) :: o1) o2) as (ils & I1 & I2 & I3 & I4 & I5).
            { rewrite Hi0, <- app_assoc. reflexivity. }
            { exact Hc2. }
            exists ((i', l') :: ils). split; [|split; [|split; [|split]]].
            -- rewrite map_app. apply calls_app; [exact Hc1|exact I1].
            -- simpl. constructor; [|exact I2]. intro Hi. apply (I3 _ Hi). left. reflexivity.
            -- intros j [<-|Hj]; [exact Hv|]. intro Hx. apply (I3 _ Hj). right. exact Hx.
            -- intros j l [[= <- <-]|Hj]; [|apply I4; exact Hj]. exists h1, h2, fl. auto 8.
            -- intro Hx. destruct (I5 Hx) as (g1 & g2 & G1 & G2 & G3 & G4 & G5). exists g1, g2. repeat (split; [assumption|]).
               intros j l Hj. simpl. destruct (Nat.eq_dec i' j) as [->|N]; [left; reflexivity|right]. apply (G5 j l).
               apply in_owed in Hj. destruct Hj as [Hj Hj2]. apply in_owed. split; [|exact Hj2]. apply in_unvisited in Hj. apply in_unvisited.
               destruct Hj as (J1 & J2 & J3). split; [exact J1|]. split; [|exact J3]. intros [Hx1|Hx1]; congruence.
          * destruct Hc2 as [-> ->]. exists []. simpl. rewrite !app_nil_r. split; [apply calls_one; exact Hc1|].
            split; [constructor|]. split; [intros i []|]. split; [intros i l []|]. intros _. exists h1, h2. repeat (split; [assumption|]).
            intros i l Hi. rewrite R2 in Hi. exact Hi.
    Qed.

    Lemma multi_notify : exists ls, one_by_one (map cl ls) x (shown its) /\
      (forall l, In l ls -> sometime t a (OCall c) b (fun h => registered w0 k l h = true)) /\
      (forall l, times l ls <= (if registered w0 k l a then 1 else 0) + joins k l b) /\
      (x = None -> forall l, (forall h, du h -> registered w0 k l h = true) -> In l ls).
    Proof.
      pose proof (span_node E w0 w H0 Hr _ _ _ _ _ _ _ (FCall c) Hs eq_refl) as [_ (v & o & Hi & Hl)].
      destruct (walk_ok v o Hi _ _ _ [] o eq_refl Hl) as (ils & I1 & I2 & _ & I4 & I5).
      assert (HT : T = a ++ (t, OCall c) :: b ++ (t, OBack c x) :: d) by apply Hs.
      assert (Hdu : forall h, du h -> exists r, T = h ++ r).
      { intros h (b1 & b2 & -> & ->). rewrite HT. exists (b2 ++ (t, OBack c x) :: d). lst. }
      exists (map snd ils). split; [rewrite Hi; exact I1|]. split; [|split].
      - intros l Hin. apply in_map_iff in Hin. destruct Hin as ([i l'] & <- & Hin). simpl.
        destruct (I4 _ _ Hin) as (h1 & h2 & fl & D1 & D2 & [r ->] & Hv & Hn & Hg). rewrite Hv in Hg.
        destruct (nth_error (M k h1) i) as [[l fl1]|] eqn:En.
        + destruct (stable _ _ r _ _ _ _ En) as (fl2 & Hn2 & _). rewrite Hn in Hn2. injection Hn2 as <- <-.
          destruct fl1; [|exfalso; apply Hg; exists l'; exact En]. exists h1. split; [exact D1|].
          destruct (Hdu _ D1) as [r1 HT1]. destruct (multi_truth _ _ HT1 k) as [_ Hreg]. rewrite <- Hreg. apply has_present. unfold present.
          apply in_map_iff. exists (l', true). split; [reflexivity|]. apply filter_In. split; [eapply nth_error_In; exact En|reflexivity].
        + apply nth_error_None in En. destruct (was_new w0 _ _ _ _ _ _ _ Hn En) as (r1 & r2 & -> & Hreg).
          exists (h1 ++ r1). split; [|exact Hreg]. destruct D1 as (b1 & b2 & Hb & ->). destruct D2 as (b3 & b4 & Hb' & H3).
          exists (b1 ++ r1), (r2 ++ b4). split.
          * rewrite Hb'. rewrite <- app_assoc in H3. apply app_inv_head in H3. injection H3 as H3. rewrite <- H3. lst.
          * lst.
      - intro l.
        assert (HT' : T = a ++ ((t, OCall c) :: b) ++ (t, OBack c x) :: d) by (rewrite HT; reflexivity).
        eapply Nat.le_trans; [|apply (live_count k l a ((t, OCall c) :: b) _ HT')].
        unfold times. transitivity (List.length (filter (fun il : nat * leaf => leaf_eqb l (snd il)) ils)).
        { clear. induction ils as [|[i y] ils IH]; [reflexivity|]. simpl. destruct (leaf_eqb l y); simpl; lia. }
        rewrite <- (map_length fst). rewrite <- (map_length fst (filter _ (unvisited _ _ _))).
        apply NoDup_incl_length; [apply filter_nodup; exact I2|].
        intros i Hin. apply in_map_iff in Hin. destruct Hin as ([i' l'] & <- & Hin). apply filter_In in Hin. simpl in *. destruct Hin as [Hin Hll].
        apply leaf_eqb_iff in Hll. subst l'. destruct (I4 _ _ Hin) as (h1 & h2 & fl & D1 & D2 & Hu & Hv & Hn & Hg).
        destruct D2 as (b3 & b4 & -> & ->). destruct (stable _ _ b4 _ _ _ _ Hn) as (fl2 & Hn2 & _).
        apply in_map_iff. exists (i', (l, fl2)). split; [reflexivity|]. apply filter_In. simpl. split; [|apply leaf_eqb_refl].
        apply in_unvisited. split; [rewrite <- Hn2; f_equal; f_equal; lst|]. split; [intros []|]. intros [l2 Hg2]. apply Hg.
        destruct D1 as (b1 & b2 & _ & Hh1). destruct (stable _ _ ((t, OCall c) :: b1) _ _ _ _ Hg2) as (fl3 & Hg3 & Hf). rewrite Hv, Hh1.
        rewrite (Hf eq_refl) in Hg3. exists l2. exact Hg3.
      - intros Hx l Hreg. destruct (I5 Hx) as (h1 & h2 & D1 & D2 & [r ->] & Hv & Hall). pose proof (Hreg _ D1) as Hl1.
        destruct (Hdu _ D1) as [r1 HT1]. destruct (multi_truth _ _ HT1 k) as [_ Hh]. rewrite <- Hh in Hl1. apply has_present in Hl1.
        apply in_map_iff in Hl1. destruct Hl1 as ([l' fl] & <- & Hin). apply filter_In in Hin. simpl in *. destruct Hin as [Hin ->].
        apply In_nth_error in Hin. destruct Hin as [i Hn].
        assert (Hn2 : nth_error (M k (h1 ++ r)) i = Some (l', true)).
        { apply (stays w0); [exact Hn|]. intros u1 u2 ->. apply Hreg. destruct D1 as (b1 & b2 & Hb & ->). destruct D2 as (b3 & b4 & Hb' & H3).
          exists (b1 ++ u1), (u2 ++ b4). split.
          - rewrite Hb'. rewrite <- app_assoc in H3. apply app_inv_head in H3. injection H3 as H3. rewrite <- H3. lst.
          - lst. }
        assert (Ho : In i (map fst ils)).
        { apply (Hall i l'). apply in_owed. split.
          - apply in_unvisited. split; [exact Hn2|]. split; [intros []|]. rewrite Hv. intros [l2 Hg]. congruence.
          - split; [|reflexivity]. rewrite Hv. apply nth_error_Some. congruence. }
        apply in_map_iff in Ho. destruct Ho as ([i' l2] & Hi' & Hin). simpl in Hi'. subst i'.
        destruct (I4 _ _ Hin) as (g1 & g2 & fl & G1 & G2 & _ & Hv' & Hn' & _).
        (* l2 = l': both at number i *)
        apply in_map_iff. exists (i, l2). split; [|exact Hin]. simpl.
        assert (Hend : forall g ll bb, du g -> nth_error (M k g) i = Some (ll, bb) -> exists b', nth_error (M k (a ++ (t, OCall c) :: b)) i = Some (ll, b')).
        { intros g ll bb (b3 & b4 & Hb & ->) Hg. rewrite Hb. destruct (stable _ _ b4 _ _ _ _ Hg) as (b' & Hg2 & _). exists b'. rewrite <- Hg2. f_equal. f_equal. lst. }
        destruct (Hend _ _ _ D2 Hn2) as [u1 Hu1]. destruct (Hend _ _ _ G2 Hn') as [u2 Hu2]. congruence.
    Qed.
    (** without interference *)
    Lemma multi_undisturbed : (forall l h, du h -> registered w0 k l h = registered w0 k l a) ->
      exists ls, one_by_one (map cl ls) x (shown its) /\ NoDup ls /\ (forall l, In l ls -> registered w0 k l a = true) /\
        (x = None -> forall l, registered w0 k l a = true -> In l ls).
    Proof.
      intro Hc. destruct multi_notify as (ls & H1 & H2 & H3 & H4). exists ls. split; [exact H1|].
      assert (HT : T = a ++ (t, OCall c) :: b ++ (t, OBack c x) :: d) by apply Hs.
      assert (Hj : forall l, joins k l b = 0).
      { intro l. unfold joins. destruct (filter _ b) as [|[t' o] rest] eqn:Ef; [reflexivity|]. exfalso.
        assert (Hin : In (t', o) (filter (fun to => match snd to with OWr (WrMulti true k' l' true) => andb (Nat.eqb k' k) (leaf_eqb l' l) | _ => false end) b))
          by (rewrite Ef; left; reflexivity).
        apply filter_In in Hin. destruct Hin as [Hin Ho]. simpl in Ho.
        destruct o as [| | | | | | | | | | | | | | |ww]; try discriminate Ho. destruct ww as [| | | | | | | |ad k' l' r| | | | | |]; try discriminate Ho.
        destruct ad, r; try discriminate Ho. apply andb_true_iff in Ho. destruct Ho as [Hk Hl]. apply Nat.eqb_eq in Hk. apply leaf_eqb_iff in Hl. subst k' l'.
        apply in_split in Hin. destruct Hin as (b1 & b2 & Hb).
        pose proof (Hc l (a ++ (t, OCall c) :: b1)) as Ha. pose proof (Hc l ((a ++ (t, OCall c) :: b1) ++ [(t', OWr (WrMulti true k l true))])) as Hz.
        rewrite registered_snoc, Nat.eqb_refl, leaf_eqb_refl in Hz. simpl in Hz.
        rewrite Hb in HT. destruct (truth E w0 w (im_tr _ _ H0) Hr) as [_ Ht].
        assert (HT2 : T = (a ++ (t, OCall c) :: b1) ++ (t', OWr (WrMulti true k l true)) :: b2 ++ (t, OBack c x) :: d) by (rewrite HT; lst).
        destruct (Ht _ _ _ _ HT2) as [Hw _]. destruct (multi_truth _ _ HT2 k) as [_ Hreg]. simpl in Hw. rewrite Hreg in Hw.
        rewrite Ha in Hw by (exists b1, ((t', OWr (WrMulti true k l true)) :: b2); auto).
        rewrite <- Hz in Hw by (exists (b1 ++ [(t', OWr (WrMulti true k l true))]), b2; split; [rewrite Hb|]; lst). discriminate Hw. }
      split; [|split].
      - assert (Ht1 : forall l, times l ls <= 1). { intro l. specialize (H3 l). rewrite Hj in H3. destruct (registered w0 k l a); lia. }
        clear - Ht1. induction ls as [|y ls IH]; constructor.
        + intro Hi. specialize (Ht1 y). unfold times in Ht1. simpl in Ht1. rewrite leaf_eqb_refl in Ht1. simpl in Ht1.
          assert (In y (filter (leaf_eqb y) ls)) by (apply filter_In; split; [exact Hi|apply leaf_eqb_refl]).
          destruct (filter (leaf_eqb y) ls); [contradiction|simpl in Ht1; lia].
        + apply IH. intro l. specialize (Ht1 l). unfold times in *. simpl in Ht1. destruct (leaf_eqb l y); simpl in Ht1; lia.
      - intros l Hi. destruct (H2 l Hi) as (h & Hd & Hh). rewrite <- (Hc l h Hd). exact Hh.
      - intros Hx l Hl. apply (H4 Hx). intros h Hd. rewrite (Hc l h Hd). exact Hl.
    Qed.
  End Notify.
End Multi.
