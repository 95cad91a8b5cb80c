(** * QTruth.v: queues and pair objects as told by the trace *)
From Verif Require Import ApiSpec MemInv Own Hands QueueProofs Truth Tree Nodes Lang Moments.

Section QTruth.
  Context (E : env).

  Lemma pair_snoc p h t o : pair_at p (h ++ [(t, o)]) =
    match o with OWr (WrPair p' e m) => if Nat.eqb p' p then Some (e, m) else pair_at p h | _ => pair_at p h end.
  Proof. unfold pair_at. rewrite replay_snoc. reflexivity. Qed.
  Lemma pair_stays p h h' : pair_at p h <> None -> pair_at p (h ++ h') <> None.
  Proof.
    intro H. revert h H. induction h' as [|[t o] h' IH]; intros h H; [rewrite app_nil_r; exact H|].
    change ((t, o) :: h') with ([(t, o)] ++ h'). rewrite app_assoc. apply IH. rewrite pair_snoc.
    destruct o; auto. destruct w; auto. destruct (Nat.eqb p0 p); [discriminate|exact H].
  Qed.

  Lemma pair_truth w0 w : init_mem E w0 -> reach E w0 w -> forall p,
    (p < npair (wm w) -> pairs (wm w) p = pair_at p (tr (wm w))) /\ (npair (wm w) <= p -> pair_at p (tr (wm w)) = None).
  Proof.
    intros H0 Hr. pattern w. revert w Hr. apply reach_ind.
    - simpl. rewrite (im_npair _ _ H0), (im_tr _ _ H0). intro p. split; [lia|reflexivity].
    - intros w t w' Hr IH Hs p. specialize (IH p).
      pose proof (reach_snoc E w0 _ _ _ Hr Hs) as Hr'. destruct (own_hands E w0 w' H0 Hr') as (gs & [[loc Hl] _ _ _ _] & Hh).
      destruct (step_mem E w0 _ _ _ Hr Hs) as [_ [He|[(i & v & Hp & Hx)|[(x & tk & r & _ & He)|(tk & y & He)]]]].
      + rewrite He. exact IH.
      + assert (Hfr : forall q e m, tr (wm w') = tr (wm w) ++ [(t, OWr (WrPair q e m))] -> q < npair (wm w')).
        { intros q e m Htr. pose proof (ho_wr _ _ Hh _ _ _ _ _ [] Htr) as Hq.
          assert (Hq2 : In (t, q) (hands (tr (wm w')))) by (rewrite Htr; unfold hands in *; rewrite fold_left_app; exact Hq).
          apply (ho_in _ _ Hh) in Hq2. apply (il_held _ _ _ Hl) in Hq2.
          destruct (Nat.lt_ge_cases q (npair (wm w'))) as [|Hg]; [assumption|]. apply (il_fresh _ _ _ Hl) in Hg. congruence. }
        destruct i; simpl in Hx;
          repeat match type of Hx with
             | (if ?b then _ else _) = _ => destruct b eqn:?
             | match ?b with _ => _ end = _ => destruct b eqn:?
             end; try discriminate; injection Hx as <- Hx; rewrite <- Hx in *; simpl in *;
          try (match goal with |- context [match pairs ?w ?p with _ => _ end] => destruct (pairs w p) as [[? ?]|]; simpl end);
          rewrite ?pair_snoc; try (match goal with b : bool |- context [if ?b then OEnded _ else _] => destruct b end); try exact IH.
        * unfold upd. split; intro Hlt.
          -- destruct (Nat.eqb_spec p (npair (wm w))) as [->|N]; [|apply IH; lia]. symmetry. apply IH. lia.
          -- apply IH. lia.
        * specialize (Hfr _ _ _ eq_refl). unfold upd. rewrite (Nat.eqb_sym p p0).
          destruct (Nat.eqb_spec p0 p) as [->|N]; [|exact IH]. split; [auto|lia].
        * destruct o; try contradiction; exact IH.
      + rewrite He. exact IH.
      + rewrite He. simpl. rewrite pair_snoc. exact IH.
  Qed.

  Lemma waiting_now w0 w q : init_mem E w0 -> reach E w0 w ->
    waiting q (tr (wm w)) = map (fun p => (p, pairs (wm w) p)) (queues (wm w) q).
  Proof.
    intros H0 Hr. unfold waiting. rewrite (fifo E w0 w q H0 Hr). rewrite skipn_app, skipn_all, Nat.sub_diag. reflexivity.
  Qed.
  Lemma waiting_pair w0 w q p c : init_mem E w0 -> reach E w0 w -> In (p, c) (waiting q (tr (wm w))) ->
    pair_at p (tr (wm w)) = c /\ c <> None.
  Proof.
    intros H0 Hr Hin. rewrite (waiting_now w0 w q H0 Hr) in Hin. apply in_map_iff in Hin. destruct Hin as (p' & [= -> <-] & Hin).
    destruct (own_inv E w0 w H0 Hr) as [gs [[loc Hl] _ _ _ _]]. pose proof (il_some _ _ _ Hl _ _ Hin) as Hs.
    split; [|exact Hs]. symmetry. apply (pair_truth w0 w H0 Hr).
    destruct (Nat.lt_ge_cases p (npair (wm w))) as [|Hg]; [assumption|]. apply (il_fresh _ _ _ Hl) in Hg.
    apply (il_queue _ _ _ Hl) in Hin. congruence.
  Qed.

  (** what a walk along a queue sees, by the events accepted and taken so far *)
  Definition acc (q : qid) (h : trace) : nat := List.length (accepted q h).
  Definition tak (q : qid) (h : trace) : nat := List.length (taken q h).
  Definition q_read_at (h : trace) (r : rd) : Prop :=
    match r with
    | RdLook q c => c = (acc q h, tak q h)
    | RdSize q c n => fst c - tak q h <= n /\ n <= Nat.max (fst c - tak q h) (acc q h - snd c)
    | RdEmpty q b => b = true <-> waiting q h = []
    | RdIter q c => fst c = tak q h
    | RdNext q c None => acc q h <= Nat.max c (tak q h)
    | RdNext q c (Some (p, c', fin)) =>
        c' = S (Nat.max c (tak q h)) /\ nth_error (map fst (accepted q h)) (Nat.max c (tak q h)) = Some p /\
        (fin = true -> acc q h = c')
    | RdRest q c l => l = map fst (skipn (Nat.max c (tak q h)) (accepted q h))
    | RdPair p c => (exists q c', In (p, c') (waiting q h)) \/ pair_at p h <> None -> c = pair_at p h
    | _ => True
    end.
  Lemma acc_now w0 w q : init_mem E w0 -> reach E w0 w ->
    acc q (tr (wm w)) = polled (wm w) q + List.length (queues (wm w) q).
  Proof.
    intros H0 Hr. unfold acc. rewrite (fifo E w0 w q H0 Hr), app_length, map_length, (polled_now E w0 w q H0 Hr). reflexivity.
  Qed.
  Lemma skip_now w0 w q k : init_mem E w0 -> reach E w0 w -> polled (wm w) q <= k ->
    skipn (k - polled (wm w) q) (queues (wm w) q) = map fst (skipn k (accepted q (tr (wm w)))).
  Proof.
    intros H0 Hr Hk. rewrite (polled_now E w0 w q H0 Hr) in *. rewrite (fifo E w0 w q H0 Hr), skipn_app.
    rewrite (skipn_all2 (taken q (tr (wm w)))) by exact Hk. simpl.
    rewrite <- skipn_map, map_map. simpl. rewrite map_id. reflexivity.
  Qed.
  Lemma nth_skip {A} (l : list A) k : nth_error l k = hd_error (skipn k l).
  Proof. revert k. induction l; intros [|k]; simpl; auto. Qed.
  Lemma q_read_true w0 w t h r rest : init_mem E w0 -> reach E w0 w -> tr (wm w) = h ++ (t, ORd r) :: rest -> q_read_at h r.
  Proof.
    intros H0 Hr Htr. destruct (reach_mark E w0 w (im_tr _ _ H0) Hr _ _ _ _ Htr) as (w1 & w2 & Hr1 & _ & Ha & Hb & _ & Hm).
    assert (Hn : match r with
                 | RdLook q c => c = (polled (wm w1) q + List.length (queues (wm w1) q), polled (wm w1) q)
                 | RdSize q c n => exists k, n = Nat.max (fst c - polled (wm w1) q)
                                    (Nat.min (polled (wm w1) q + List.length (queues (wm w1) q) - snd c) k)
                 | RdEmpty q b => b = match queues (wm w1) q with [] => true | _ => false end
                 | RdIter q c => fst c = polled (wm w1) q
                 | RdNext q c v => exists k, v = match nth_error (queues (wm w1) q) (c - polled (wm w1) q) with
                          | None => None
                          | Some p => Some (p, S (polled (wm w1) q + (c - polled (wm w1) q)),
                              andb (Nat.eqb (S (c - polled (wm w1) q)) (List.length (queues (wm w1) q))) k)
                          end
                 | RdRest q c l => l = skipn (c - polled (wm w1) q) (queues (wm w1) q)
                 | RdPair p c => c = pairs (wm w1) p
                 | _ => True
                 end).
    { destruct Hm as [He|[(i & v & Hp & Hx)|[(x & tk & r' & _ & He)|(tk & y & He)]]].
      - rewrite He, Ha in Hb. apply (f_equal (@List.length _)) in Hb. rewrite app_length in Hb. simpl in Hb. lia.
      - destruct i; cbn [exec] in Hx; cbv zeta in Hx;
        repeat match type of Hx with
             | (if ?b then _ else _) = _ => destruct b eqn:?
             | match ?b with _ => _ end = _ => destruct b eqn:?
             end; try discriminate; injection Hx as <- Hx; rewrite <- Hx in Hb; simpl in Hb; rewrite ?Ha in Hb;
        try (match type of Hb with context [log _ (match pairs ?w ?p with _ => _ end) _] => destruct (pairs w p) as [[? ?]|]; simpl in Hb; rewrite ?Ha in Hb end);
        try (match type of Hb with context [tr (match pairs ?w ?p with _ => _ end)] => destruct (pairs w p) as [[? ?]|]; simpl in Hb; rewrite ?Ha in Hb end);
        try (apply (f_equal (@List.length _)) in Hb; rewrite app_length in Hb; simpl in Hb; lia);
        apply app_inv_head in Hb; try discriminate; try (injection Hb as <-; exact I); try (injection Hb as <-; reflexivity);
        try (injection Hb as <-; eexists; reflexivity).
        + destruct b; [discriminate|]. injection Hb as <-. exact I.
        + injection Hb as ->. contradiction.
      - rewrite He in Hb. simpl in Hb. rewrite Ha in Hb. apply (f_equal (@List.length _)) in Hb. rewrite app_length in Hb. simpl in Hb. lia.
      - rewrite He in Hb. simpl in Hb. rewrite Ha in Hb. apply app_inv_head in Hb. discriminate. }
    subst h. destruct r; try exact I; cbn [q_read_at].
    - intros [(q & c' & Hin)|Hp].
      + rewrite Hn. destruct (waiting_pair w0 w1 q p c' H0 Hr1 Hin) as [-> _]. rewrite (waiting_now w0 w1 q H0 Hr1) in Hin.
        apply in_map_iff in Hin. destruct Hin as (p' & [= -> ->] & _). reflexivity.
      + rewrite Hn. apply (pair_truth w0 w1 H0 Hr1). destruct (Nat.lt_ge_cases p (npair (wm w1))) as [|Hg]; [assumption|].
        destruct Hp. apply (pair_truth w0 w1 H0 Hr1). exact Hg.
    - rewrite (waiting_now w0 w1 q H0 Hr1), Hn. destruct (queues (wm w1) q); simpl; split; congruence.
    - rewrite Hn, (acc_now w0 w1 q H0 Hr1), (polled_now E w0 w1 q H0 Hr1). reflexivity.
    - destruct Hn as (k & ->). rewrite (acc_now w0 w1 q H0 Hr1), (polled_now E w0 w1 q H0 Hr1). unfold tak. lia.
    - rewrite Hn, (polled_now E w0 w1 q H0 Hr1). reflexivity.
    - destruct Hn as (k & Hn).
      assert (Hx : Nat.max c (tak q (tr (wm w1))) = polled (wm w1) q + (c - polled (wm w1) q)).
      { unfold tak. rewrite <- (polled_now E w0 w1 q H0 Hr1). lia. }
      assert (Hy : c - polled (wm w1) q = Nat.max c (tak q (tr (wm w1))) - polled (wm w1) q) by (rewrite Hx; lia).
      pose proof (acc_now w0 w1 q H0 Hr1) as Hac.
      destruct (nth_error (queues (wm w1) q) (c - polled (wm w1) q)) as [p|] eqn:En; subst v.
      + split; [rewrite Hx; reflexivity|]. split.
        * rewrite nth_skip, skipn_map, <- (skip_now w0 w1 q _ H0 Hr1) by lia. rewrite <- Hy, <- nth_skip. exact En.
        * intro Hf. apply andb_prop in Hf. destruct Hf as [Hf _]. apply Nat.eqb_eq in Hf. lia.
      + apply nth_error_None in En. lia.
    - rewrite Hn. rewrite <- (skip_now w0 w1 q _ H0 Hr1) by (unfold tak; rewrite <- (polled_now E w0 w1 q H0 Hr1); lia).
      f_equal. unfold tak. rewrite <- (polled_now E w0 w1 q H0 Hr1). lia.
  Qed.

  Lemma acc_app q h h' : acc q h <= acc q (h ++ h').
  Proof. unfold acc, accepted. rewrite flat_map_app, app_length. lia. Qed.
  Lemma tak_app q h h' : tak q h <= tak q (h ++ h').
  Proof. unfold tak, taken. rewrite flat_map_app, app_length. lia. Qed.
  Lemma tak_acc w0 w q : init_mem E w0 -> reach E w0 w -> tak q (tr (wm w)) <= acc q (tr (wm w)).
  Proof. intros H0 Hr. unfold tak, acc. rewrite (fifo E w0 w q H0 Hr), app_length. lia. Qed.

  (** two reads of one size() *)
  Lemma size_reads w0 w h1 t q c t' rest n h' : init_mem E w0 -> reach E w0 w ->
    tr (wm w) = h1 ++ (t, ORd (RdLook q c)) :: rest ++ (t', ORd (RdSize q c n)) :: h' ->
    counted q h1 (h1 ++ (t, ORd (RdLook q c)) :: rest) n.
  Proof.
    intros H0 Hr Htr. pose proof (q_read_true w0 w _ _ _ _ H0 Hr Htr) as H1. simpl in H1. subst c.
    set (h2 := h1 ++ (t, ORd (RdLook q (acc q h1, tak q h1))) :: rest) in *.
    assert (Htr2 : tr (wm w) = h2 ++ (t', ORd (RdSize q (acc q h1, tak q h1) n)) :: h')
      by (rewrite Htr; unfold h2; rewrite <- app_assoc; reflexivity).
    pose proof (q_read_true w0 w _ _ _ _ H0 Hr Htr2) as H2. simpl in H2.
    destruct (reach_prefix E w0 w (im_tr _ _ H0) Hr _ _ Htr2) as (w2 & Hr2 & Hw2).
    pose proof (tak_acc w0 w2 q H0 Hr2) as Hta. rewrite Hw2 in Hta.
    pose proof (acc_app q h1 ((t, ORd (RdLook q (acc q h1, tak q h1))) :: rest)) as Ha. fold h2 in Ha.
    pose proof (tak_app q h1 ((t, ORd (RdLook q (acc q h1, tak q h1))) :: rest)) as Ht. fold h2 in Ht.
    unfold counted, stayed, passed. fold (acc q h1) (acc q h2) (tak q h1) (tak q h2).
    destruct (reach_prefix E w0 w (im_tr _ _ H0) Hr _ _ Htr) as (w3 & Hr3 & Hw3).
    pose proof (tak_acc w0 w3 q H0 Hr3) as Hta3. rewrite Hw3 in Hta3. lia.
  Qed.

  Lemma size_counts w0 w t a m b its z d : init_mem E w0 -> reach E w0 w ->
    span t (tr (wm w)) a (OInv (AQSize m)) b its z d ->
    exists n h1 h2, z = ORet (AQSize m) (RvNat n) /\
      during t a (OInv (AQSize m)) b h1 /\ during t a (OInv (AQSize m)) b h2 /\ upto h1 h2 /\
      counted (queue_of E m) h1 h2 n.
  Proof.
    intros H0 Hr (Htr & Hz & Hs). destruct (tree_ok E w0 w H0 Hr) as [Hn _].
    assert (Hc : closed t (tr (wm w)) (FApi (AQSize m)) its z) by (eapply span_closed; [split; [exact Htr|split; [exact Hz|exact Hs]]|reflexivity]).
    pose proof (Hn _ _ _ _ Hc) as Hk. simpl in Hk. destruct z; try contradiction. destruct Hk as (-> & c & n & -> & Hi).
    set (q := s_queue (strat E (strat_of E m))) in *.
    destruct (item_inv t b [] [R (RdLook q c)] (ORd (RdSize q c n)) []) as (b1 & f & -> & Hf);
      [rewrite Hs, Hi; reflexivity|reflexivity|].
    destruct (item_inv t b1 [] [] (ORd (RdLook q c)) []) as (b0 & g & -> & _); [exact Hf|reflexivity|].
    exists n, (a ++ (t, OInv (AQSize m)) :: b0), (a ++ (t, OInv (AQSize m)) :: b0 ++ (t, ORd (RdLook q c)) :: g).
    split; [reflexivity|]. split; [|split; [|split]].
    - exists b0. eexists. split; [rewrite <- app_assoc; reflexivity|reflexivity].
    - eexists. eexists. split; [reflexivity|reflexivity].
    - exists ((t, ORd (RdLook q c)) :: g). rewrite <- app_assoc. reflexivity.
    - pose proof (size_reads w0 w (a ++ (t, OInv (AQSize m)) :: b0) t q c t g n
        (f ++ (t, ORet (AQSize m) (RvNat n)) :: d) H0 Hr) as Hq.
      rewrite <- !app_assoc in Hq. simpl in Hq. apply Hq. rewrite Htr. repeat (rewrite <- ?app_assoc; simpl). reflexivity.
  Qed.
  Lemma during_same q t a x b h : during t a (OInv x) b h -> accepted q b = [] -> taken q b = [] ->
    accepted q h = accepted q a /\ taken q h = taken q a.
  Proof.
    intros (b1 & b2 & -> & ->) Ha Ht. unfold accepted, taken in *. rewrite flat_map_app in Ha, Ht.
    apply app_eq_nil in Ha, Ht. destruct Ha as [Ha _], Ht as [Ht _]. rewrite !flat_map_app. simpl. rewrite Ha, Ht, !app_nil_r. auto.
  Qed.
  Lemma size_exact w0 w t a m b its z d : init_mem E w0 -> reach E w0 w ->
    span t (tr (wm w)) a (OInv (AQSize m)) b its z d ->
    accepted (queue_of E m) b = [] -> taken (queue_of E m) b = [] ->
    exists n, z = ORet (AQSize m) (RvNat n) /\
      n + List.length (taken (queue_of E m) a) = List.length (accepted (queue_of E m) a).
  Proof.
    intros H0 Hr Hs Ha Ht. destruct (size_counts _ _ _ _ _ _ _ _ _ H0 Hr Hs) as (n & h1 & h2 & -> & D1 & D2 & _ & Hc).
    exists n. split; [reflexivity|]. destruct (during_same _ _ _ _ _ _ D1 Ha Ht) as [A1 T1]. destruct (during_same _ _ _ _ _ _ D2 Ha Ht) as [A2 T2].
    unfold counted, stayed, passed in Hc. rewrite A1, T1, A2, T2 in Hc.
    destruct Hs as (Htr & _). destruct (reach_prefix E w0 w (im_tr _ _ H0) Hr _ _ Htr) as (w1 & Hr1 & Hw1).
    pose proof (tak_acc w0 w1 (queue_of E m) H0 Hr1) as Hle. rewrite Hw1 in Hle. unfold tak, acc in Hle. lia.
  Qed.
End QTruth.
