(** * FireProofs.v: what fire() does (proofs for C08, C21, C25, C42) *)
From Verif Require Import ApiSpec MemInv Lang Tree Nodes Marks QueueProofs Place Moments Truth FlowProofs QTruth StartProofs Copies.

Ltac lst := simpl; repeat (rewrite <- ?app_assoc; simpl); reflexivity.

Section Fire.
  Context (E : env) (w0 : mem) (w : world) (H0 : init_mem E w0) (Hr : reach E w0 w).
  Notation T := (tr (wm w)).
  Definition reads_at (h : trace) (r : rd) : Prop := read_at E w0 h r /\ q_read_at h r.

  Section Bracket.
  Context (t : tid) (a : trace) (op : obs) (b : trace) (its : list obs) (z : obs) (d : trace).
  Context (Hs : span t T a op b its z d).
  Notation du := (during t a op b).

  (** the marks [out], one after the other, are read in order *)
  Lemma rd1 i1 r i2 : its = i1 ++ ORd r :: i2 -> exists h, du h /\ reads_at h r /\
    exists h', T = h ++ (t, ORd r) :: h'.
  Proof.
    intro Hi. destruct (item_moment w _ _ _ _ _ _ _ _ _ _ Hs Hi eq_refl) as (b1 & b2 & -> & _ & HT).
    exists (a ++ (t, op) :: b1). split; [exists b1, ((t, ORd r) :: b2); auto|].
    split; [split; [eapply read_true|eapply q_read_true]; eauto|eauto].
  Qed.
  Lemma rd2 i1 r1 i2 r2 i3 : its = i1 ++ ORd r1 :: i2 ++ ORd r2 :: i3 ->
    exists h1 h2, du h1 /\ du h2 /\ upto h1 h2 /\ reads_at h1 r1 /\ reads_at h2 r2.
  Proof.
    intros Hi. rewrite app_comm_cons, app_assoc in Hi.
    destruct (item_moment w _ _ _ _ _ _ _ _ _ _ Hs Hi eq_refl) as (b2 & b3 & Hb & Hsc & HT).
    destruct (item_inv t b2 [] i1 (ORd r1) i2 Hsc eq_refl) as (b0 & b1 & H4 & H5).
    exists (a ++ (t, op) :: b0), (a ++ (t, op) :: b2). subst b2 b.
    assert (HT1 : T = (a ++ (t, op) :: b0) ++ (t, ORd r1) :: b1 ++ (t, ORd r2) :: b3 ++ (t, z) :: d)
      by (rewrite HT; lst).
    repeat split.
    - exists b0, ((t, ORd r1) :: b1 ++ (t, ORd r2) :: b3). split; [rewrite <- app_assoc; reflexivity|reflexivity].
    - exists (b0 ++ (t, ORd r1) :: b1), ((t, ORd r2) :: b3). auto.
    - exists ((t, ORd r1) :: b1). rewrite <- app_assoc. reflexivity.
    - eapply read_true; eauto.
    - eapply q_read_true; eauto.
    - eapply read_true; eauto.
    - eapply q_read_true; eauto.
  Qed.
  Lemma rd4 i1 r1 i2 r2 i3 r3 i4 r4 i5 : its = i1 ++ ORd r1 :: i2 ++ ORd r2 :: i3 ++ ORd r3 :: i4 ++ ORd r4 :: i5 ->
    exists h1 h2 h3 h4, du h1 /\ du h2 /\ du h3 /\ du h4 /\ upto h1 h2 /\ upto h2 h3 /\ upto h3 h4 /\
      reads_at h1 r1 /\ reads_at h2 r2 /\ reads_at h3 r3 /\ reads_at h4 r4.
  Proof.
    intros Hi.
    assert (Hi4 : its = (i1 ++ ORd r1 :: i2 ++ ORd r2 :: i3 ++ ORd r3 :: i4) ++ ORd r4 :: i5)
      by (rewrite Hi; lst).
    destruct (item_moment w _ _ _ _ _ _ _ _ _ _ Hs Hi4 eq_refl) as (b4 & b5 & Hb & S4 & HT).
    assert (Hi3 : i1 ++ ORd r1 :: i2 ++ ORd r2 :: i3 ++ ORd r3 :: i4 = (i1 ++ ORd r1 :: i2 ++ ORd r2 :: i3) ++ ORd r3 :: i4)
      by (lst).
    rewrite Hi3 in S4. destruct (item_inv t b4 [] _ _ _ S4 eq_refl) as (b3 & b4' & -> & S3).
    rewrite app_comm_cons, app_assoc in S3. destruct (item_inv t b3 [] _ _ _ S3 eq_refl) as (b2 & b3' & -> & S2).
    destruct (item_inv t b2 [] _ _ _ S2 eq_refl) as (b1 & b2' & -> & S1). subst b.
    set (h1 := a ++ (t, op) :: b1). set (h2 := h1 ++ (t, ORd r1) :: b2'). set (h3 := h2 ++ (t, ORd r2) :: b3').
    set (h4 := h3 ++ (t, ORd r3) :: b4').
    exists h1, h2, h3, h4.
    assert (E4 : T = h4 ++ (t, ORd r4) :: b5 ++ (t, z) :: d)
      by (rewrite HT; unfold h4, h3, h2, h1; lst).
    assert (E3 : T = h3 ++ (t, ORd r3) :: b4' ++ (t, ORd r4) :: b5 ++ (t, z) :: d)
      by (rewrite HT; unfold h3, h2, h1; lst).
    assert (E2 : T = h2 ++ (t, ORd r2) :: b3' ++ (t, ORd r3) :: b4' ++ (t, ORd r4) :: b5 ++ (t, z) :: d)
      by (rewrite HT; unfold h2, h1; lst).
    assert (E1 : T = h1 ++ (t, ORd r1) :: b2' ++ (t, ORd r2) :: b3' ++ (t, ORd r3) :: b4' ++ (t, ORd r4) :: b5 ++ (t, z) :: d)
      by (rewrite HT; unfold h1; lst).
    split; [eexists b1, _; split; [lst|reflexivity]|].
    split; [eexists (b1 ++ (t, ORd r1) :: b2'), _; split; [lst|unfold h2, h1; rewrite <- !app_assoc; reflexivity]|].
    split; [eexists (b1 ++ (t, ORd r1) :: b2' ++ (t, ORd r2) :: b3'), _; split; [lst|unfold h3, h2, h1; rewrite <- !app_assoc; reflexivity]|].
    split; [eexists _, _; split; [reflexivity|unfold h4, h3, h2, h1; lst]|].
    split; [eexists; reflexivity|]. split; [eexists; reflexivity|]. split; [eexists; reflexivity|].
    repeat split; (eapply read_true || eapply q_read_true); eauto.
  Qed.

  Lemma skipn_more {A} (l : list A) : forall j k x, In x (skipn (j + k) l) -> In x (skipn k l).
  Proof.
    induction l as [|y l IH]; intros j k x; destruct k; simpl; rewrite ?Nat.add_0_r, ?Nat.add_succ_r; simpl; auto.
    - destruct j; simpl; auto.
    - destruct j as [|j]; [simpl; auto|]. intro H. right. apply (IH j 0). rewrite Nat.add_0_r. exact H.
    - apply IH.
  Qed.
  (** inspecting the queue: nothing throws, and an equal name was found if it says so *)
  Definition sees (q : qid) (r : rd) (p : pid) : Prop :=
    match r with
    | RdNext q' _ (Some (p', _, _)) => q' = q /\ p' = p
    | RdRest q' _ l => q' = q /\ In p l
    | _ => False
    end.
  Lemma sees_waiting h q r p : sees q r p -> q_read_at h r -> exists c, In (p, c) (waiting q h).
  Proof.
    assert (Hsk : forall k, tak q h <= k -> In p (map fst (skipn k (accepted q h))) -> exists c, In (p, c) (waiting q h)).
    { intros k Hk Hin. apply in_map_iff in Hin. destruct Hin as ([p' c] & Hp & Hin). simpl in Hp. subst p'. exists c.
      unfold waiting. fold (tak q h). replace k with ((k - tak q h) + tak q h) in Hin by lia.
      eapply skipn_more, Hin. }
    destruct r; simpl; try contradiction.
    - destruct v as [[[p' c'] fin]|]; [|contradiction]. intros [-> ->] (_ & Hn & _). apply (Hsk (Nat.max c (tak q h))); [lia|]. rewrite nth_skip, skipn_map in Hn.
      destruct (map fst (skipn (Nat.max c (tak q h)) (accepted q h))); [discriminate|]. injection Hn as ->. left. reflexivity.
    - intros [-> Hin] ->. apply (Hsk (Nat.max c (tak q h))); [lia|exact Hin].
  Qed.
  Lemma no_null q r p i1 i2 j : sees q r p -> its = i1 ++ ORd r :: i2 ++ ORd (RdPair p None) :: j -> False.
  Proof.
    intros Hp Hi. destruct (rd2 _ _ _ _ _ Hi) as (h1 & h2 & D1 & D2 & [u ->] & [_ R1] & [_ R2]).
    destruct (sees_waiting _ _ _ _ Hp R1) as (c & Hin). simpl in R2.
    destruct D1 as (c1 & c2 & -> & ->). destruct Hs as (HT & _).
    destruct (reach_prefix E w0 w (im_tr _ _ H0) Hr (a ++ (t, op) :: c1) (c2 ++ (t, z) :: d)) as (w1 & Hr1 & Hw1).
    { rewrite HT. lst. }
    rewrite <- Hw1 in *. destruct (waiting_pair E w0 w1 q p c H0 Hr1 Hin) as [Hc Hcn].
    assert (Hne : pair_at p (tr (wm w1) ++ u) <> None) by (apply pair_stays; congruence).
    apply Hne. symmetry. apply R2. auto.
  Qed.
  Lemma match_ok q nm r ps y out : (forall p, In p ps -> sees q r p) -> forall i1 i2 j, its = i1 ++ ORd r :: i2 ++ out ++ j ->
    forall ps1, List.incl ps1 ps -> matchL nm ps1 y out ->
    match y with
    | inl _ => False
    | inr true => exists o1 p e m, In p ps /\ out = o1 ++ [ORd (RdPair p (Some (e, m))); ORd (RdName e nm)]
    | inr false => True
    end.
  Proof.
    intros Hsee i1 i2 j Hi ps1 Hps Hm. revert i2 Hi. induction Hm as [|p l|p l e m|p l e m nm' y out Hn Hm IH]; intros i2 Hi; auto.
    - apply (no_null q r p i1 i2 j); [apply Hsee, Hps; left; reflexivity|exact Hi].
    - exists [], p, e, m. split; [apply Hps; left; reflexivity|reflexivity].
    - specialize (IH (fun x Hx => Hps x (or_intror Hx)) (i2 ++ [ORd (RdPair p (Some (e, m))); ORd (RdName e nm')])).
      assert (Hi' : its = i1 ++ ORd r :: (i2 ++ [ORd (RdPair p (Some (e, m))); ORd (RdName e nm')]) ++ out ++ j)
        by (rewrite Hi; lst).
      specialize (IH Hi'). destruct y as [x|[|]]; auto.
      destruct IH as (o1 & p' & e' & m' & Hp & ->).
      exists (R (RdPair p (Some (e, m))) :: R (RdName e nm') :: o1), p', e', m'. auto.
  Qed.
  Lemma scan_ok q nm f c y out : scanL nm q f c y out -> forall i1 j, its = i1 ++ out ++ j ->
    match y with
    | inl _ => False
    | inr true => exists o0 r o1 p e m, sees q r p /\ out = o0 ++ ORd r :: o1 ++ [ORd (RdPair p (Some (e, m))); ORd (RdName e nm)]
    | inr false => True
    end.
  Proof.
    intro Hm. induction Hm as [c ps y out Hm|f c|f c p c' fin|f c p c' fin e m|f c p c' e m nm' Hn|f c p c' e m nm' y out Hn Hm IH];
      intros i1 j Hi; auto.
    - pose proof (match_ok q nm (RdRest q c ps) ps y out (fun p Hp => conj eq_refl Hp) i1 [] j Hi ps (fun x Hx => Hx) Hm) as Ho.
      destruct y as [x|[|]]; auto. destruct Ho as (o1 & p & e & m & Hp & ->).
      exists [], (RdRest q c ps), o1, p, e, m. split; [split; auto|reflexivity].
    - apply (no_null q (RdNext q c (Some (p, c', fin))) p i1 [] j); [split; reflexivity|exact Hi].
    - exists [], (RdNext q c (Some (p, c', fin))), [], p, e, m. split; [split; reflexivity|reflexivity].
    - specialize (IH (i1 ++ [R (RdNext q c (Some (p, c', false))); R (RdPair p (Some (e, m))); R (RdName e nm')]) j).
      destruct y as [x|[|]]; auto.
      + apply IH. rewrite Hi. lst.
      + destruct IH as (o0 & r & o1 & p' & e' & m' & Hp & ->); [rewrite Hi; lst|].
        exists (R (RdNext q c (Some (p, c', false))) :: R (RdPair p (Some (e, m))) :: R (RdName e nm') :: o0), r, o1, p', e', m'. auto.
  Qed.
  Lemma match_reads nm ps y out : matchL nm ps y out -> reads out.
  Proof. clear. intro H. induction H; repeat constructor; auto. Qed.
  Lemma scan_reads nm q f c y out : scanL nm q f c y out -> reads out.
  Proof. clear. intro H. induction H; repeat constructor; auto. eapply match_reads; eauto. Qed.
  Lemma reads_shown out : reads out -> shown out = [].
  Proof. clear. intro H. induction H as [|o l Ho H IH]; [reflexivity|]. destruct o; try discriminate. exact IH. Qed.

  Lemma full_iff m n : full E (strat_of E m) n = true <-> is_full E m n.
  Proof. unfold full, is_full, limit. rewrite andb_true_iff, Z.ltb_lt, Z.leb_le. reflexivity. Qed.
  (** what size() returned is the number of events seen between two moments *)
  Lemma size_ok q c n i1 i2 : its = i1 ++ ORd (RdLook q c) :: ORd (RdSize q c n) :: i2 ->
    exists h1 h2, du h1 /\ du h2 /\ upto h1 h2 /\ counted q h1 h2 n.
  Proof.
    intro Hi. change (its = i1 ++ [ORd (RdLook q c)] ++ ORd (RdSize q c n) :: i2) in Hi. rewrite app_assoc in Hi.
    destruct (item_moment w _ _ _ _ _ _ _ _ _ _ Hs Hi eq_refl) as (b2 & b3 & Hb & Hsc & HT).
    destruct (item_inv t b2 [] i1 _ [] Hsc eq_refl) as (b0 & b1 & -> & _).
    exists (a ++ (t, op) :: b0), ((a ++ (t, op) :: b0) ++ (t, ORd (RdLook q c)) :: b1).
    split; [eexists b0, _; split; [rewrite Hb; lst|reflexivity]|].
    split; [eexists _, _; split; [exact Hb|lst]|]. split; [eexists; reflexivity|].
    eapply (size_reads E w0 w _ t q c t b1 n); [exact H0|exact Hr|]. rewrite HT. lst.
  Qed.
  Lemma default_ok m e x i1 out i2 : its = i1 ++ out ++ i2 -> defaultL E (strat_of E m) e m x out ->
    refused E m e t a op b x (shown out) \/ queued E m e t a op b x (shown out).
  Proof.
    intros Hi (c & n & o & -> & Hl). simpl in Hi. destruct (size_ok _ _ _ _ _ Hi) as (h1 & h2 & D1 & D2 & Hu & Hc).
    destruct (full E (strat_of E m) n) eqn:Hf.
    - left. exists n, h1, h2. repeat (split; [assumption|]). split; [apply full_iff; exact Hf|]. rewrite Hl. reflexivity.
    - right. destruct Hl as (p & o' & Hsub & Ho).
      assert (Hsh : exists e', shown o = OOffer (queue_of E m) p e m e' m :: shown o').
      { destruct Ho as [->|(y & nm & y' & e' & ->)]; eexists; reflexivity. }
      destruct Hsh as [e' Hsh]. exists p, e', (shown o').
      match goal with |- shown (?x :: ?y :: o) = _ /\ _ => change (shown (x :: y :: o)) with (shown o) end.
      split; [exact Hsh|]. split.
      + destruct Hsub as [[-> ->]|[-> ->]]; [left|right]; auto.
      + exists n, h1, h2. repeat (split; [assumption|]). rewrite <- full_iff. congruence.
  Qed.
  Lemma process_ok m e x i1 out i2 : its = i1 ++ out ++ i2 -> processL E (strat_of E m) e m x out ->
    dropped E w0 m e t a op b x (shown out) \/ refused E m e t a op b x (shown out) \/ queued E m e t a op b x (shown out).
  Proof.
    intros Hi Hl. unfold processL in Hl. destruct (s_drop (strat E (strat_of E m))) eqn:Hdr; [|right; eapply default_ok; eauto].
    set (q := s_queue (strat E (strat_of E m))) in *.
    destruct Hl as (cc & nm & y & o1 & o2 & -> & Hm & Hy).
    assert (Hi' : its = (i1 ++ [ORd (RdIter q cc); ORd (RdName e nm)]) ++ o1 ++ (o2 ++ i2))
      by (rewrite Hi; lst).
    pose proof (scan_ok _ _ _ _ _ _ Hm _ _ Hi') as Hok.
    pose proof (reads_shown _ (scan_reads _ _ _ _ _ _ Hm)) as Hnv.
    assert (Hsh : shown (R (RdIter q cc) :: R (RdName e nm) :: o1 ++ o2) = shown o2).
    { unfold shown in *. simpl. rewrite filter_app, Hnv. reflexivity. }
    rewrite Hsh. destruct y as [v|[|]]; [contradiction| |].
    - left. destruct Hy as [-> ->]. split; [exact Hdr|]. split; [reflexivity|].
      destruct Hok as (o0 & r & o3 & p & e' & m' & Hp & ->).
      assert (Hi2 : its = (i1 ++ [ORd (RdIter q cc)]) ++ ORd (RdName e nm) :: o0 ++ ORd r :: o3 ++ ORd (RdPair p (Some (e', m'))) :: [] ++
                ORd (RdName e' nm) :: [OLog ("Event [" ++ show_event nm ++ "] already in queue, will drop it")%string] ++ i2)
        by (rewrite Hi'; lst).
      destruct (rd4 _ _ _ _ _ _ _ _ _ Hi2) as (h2 & h1 & h3 & h4 & D2 & D1 & D3 & D4 & U1 & U2 & U3 & [R2 _] & [_ R1] & [_ R3] & [R4 _]).
      simpl in R2, R3, R4. destruct (sees_waiting _ _ _ _ Hp R1) as (c & Hin).
      exists h1, h2, h3, h4, p, c, e', m'. repeat (split; [assumption|]). split.
      + destruct D1 as (c1 & c2 & Hb & Hh1). destruct U2 as [u ->].
        destruct (reach_prefix E w0 w (im_tr _ _ H0) Hr h1 (c2 ++ (t, z) :: d)) as (w1 & Hr1 & Hw1).
        { destruct Hs as (HT & _). rewrite HT, Hb, Hh1. lst. }
        rewrite <- Hw1 in *. destruct (waiting_pair E w0 w1 _ p c H0 Hr1 Hin) as [Hc Hcn].
        symmetry. apply R3. right. apply pair_stays. congruence.
      + rewrite <- R2, <- R4. split; reflexivity.
    - right. apply (default_ok m e x (i1 ++ R (RdIter q cc) :: R (RdName e nm) :: o1) o2 i2); [|exact Hy].
      rewrite Hi'. lst.
  Qed.
  Lemma fire_ok m e x i1 out i2 : its = i1 ++ out ++ i2 -> fireL E m e x out -> fired E w0 m e t a op b x (shown out).
  Proof.
    intros Hi [->|[->|(o & Ho & Hl)]].
    - left. destruct (rd1 _ _ _ Hi) as (h & Hd & [Hrd _] & _). split; [exists h; simpl in Hrd; auto|reflexivity].
    - right. left. simpl in Hi. change (its = i1 ++ R (RdStarted m true) :: [R (RdStarted m true)] ++ R (RdEnded m true) :: called (KUflAfterEnd (ufl_of E m) e m) x ++ i2) in Hi.
      destruct (rd2 _ _ _ _ _ Hi) as (h1 & h2 & D1 & D2 & [u ->] & [R1 _] & [R2 _]). simpl in R1, R2.
      split; [|reflexivity]. exists (h1 ++ u). split; [exact D2|]. split; [|auto]. apply started_app. auto.
    - right. right. destruct Ho as [->| ->].
      + change (its = i1 ++ R (RdStarted m true) :: [R (RdStarted m true)] ++ R (RdEnded m false) :: o ++ i2) in Hi.
        destruct (rd2 _ _ _ _ _ Hi) as (h1 & h2 & D1 & D2 & [u ->] & [R1 _] & [R2 _]). simpl in R1, R2.
        split.
        * exists (h1 ++ u). split; [exact D2|]. split; [|auto]. apply started_app. auto.
        * apply (process_ok m e x (i1 ++ [R (RdStarted m true); R (RdStarted m true); R (RdEnded m false)]) o i2); [|exact Hl].
          rewrite Hi. lst.
      + exfalso. change (its = i1 ++ R (RdStarted m true) :: [] ++ R (RdStarted m false) :: o ++ i2) in Hi.
        destruct (rd2 _ _ _ _ _ Hi) as (h1 & h2 & D1 & D2 & [u ->] & [R1 _] & [R2 _]). simpl in R1, R2.
        rewrite (started_app _ _ _ (eq_sym R1)) in R2. discriminate.
  Qed.
  End Bracket.

  (** ** C08 *)
  Lemma fire_routing m e t a b its v d : span t T a (OInv (AFire m e)) b its (ORet (AFire m e) v) d ->
    exists x, v = outcome x /\ fired E w0 m e t a (OInv (AFire m e)) b x (shown its).
  Proof.
    intro Hs. pose proof (span_node E w0 w H0 Hr _ _ _ _ _ _ _ (FApi (AFire m e)) Hs eq_refl) as [_ (x & Hv & Hl)].
    exists x. split; [exact Hv|]. eapply (fire_ok _ _ _ _ _ _ _ Hs m e x [] its []); [rewrite app_nil_r; reflexivity|exact Hl].
  Qed.
  (** the three outcomes exclude each other *)
  Lemma fire_before m e t a b its v d : span t T a (OInv (AFire m e)) b its (ORet (AFire m e) v) d ->
    started_at m (a ++ (t, OInv (AFire m e)) :: b) = false ->
    exists x, v = outcome x /\ shown its = called (KUflBeforeStart (flow_of E m) e m) x.
  Proof.
    intros Hs Hn. destruct (fire_routing _ _ _ _ _ _ _ _ Hs) as (x & Hv & [[_ Hf]|[[(h & (b1 & b2 & -> & ->) & Hst & _) _]|[(h & (b1 & b2 & -> & ->) & Hst & _) _]]]);
      [eauto| |]; exfalso; pose proof (started_app m _ b2 Hst) as Hx; rewrite <- app_assoc in Hx; simpl in Hx; congruence.
  Qed.
  Lemma fire_live m e t a b its v d : span t T a (OInv (AFire m e)) b its (ORet (AFire m e) v) d ->
    started_at m a = true -> (forall h, during t a (OInv (AFire m e)) b h -> ended_at m h = false) ->
    exists x, v = outcome x /\ processed E w0 m e t a (OInv (AFire m e)) b x (shown its).
  Proof.
    intros Hs Hst Hen. destruct (fire_routing _ _ _ _ _ _ _ _ Hs) as (x & Hv & [[(h & (b1 & b2 & -> & ->) & Hf) _]|[[(h & Hd & _ & Hf) _]|Hf]]); [| |eauto].
    - rewrite (started_app m _ _ Hst) in Hf. discriminate.
    - rewrite (Hen _ Hd) in Hf. discriminate.
  Qed.
  (** C21: fire() on an ended machine *)
  Lemma fire_ended m e t a b its v d : span t T a (OInv (AFire m e)) b its (ORet (AFire m e) v) d ->
    start_over m a -> ended_at m a = true ->
    exists x, v = outcome x /\ shown its = called (KUflAfterEnd (flow_of E m) e m) x.
  Proof.
    intros Hs Hov Hen. destruct (fire_routing _ _ _ _ _ _ _ _ Hs) as (x & Hv & Hf).
    assert (HT : T = a ++ (t, OInv (AFire m e)) :: b ++ (t, ORet (AFire m e) v) :: d) by apply Hs.
    assert (Hst : started_at m a = true).
    { exact (over_started E w0 w H0 Hr m _ _ HT Hov). }
    destruct Hf as [[(h & (b1 & b2 & -> & ->) & Hf) _]|[[_ Hf]|[(h & (b1 & b2 & -> & ->) & _ & Hf) _]]]; [|eauto|].
    - rewrite (started_app m _ _ Hst) in Hf. discriminate.
    - exfalso. assert (He : ended_at m (a ++ (t, OInv (AFire m e)) :: b1) = true); [|congruence].
      eapply (ended_stays E w0 w H0 Hr m a); eauto. rewrite HT. lst.
  Qed.

  (** ** C25 *)
  Lemma enqueue_of m e t a b its v d q p e0 m0 e' m' : span t T a (OInv (AFire m e)) b its (ORet (AFire m e) v) d ->
    In (OOffer q p e0 m0 e' m') its -> exists i1 o x, its = i1 ++ o /\ enqueueL E (strat_of E m) e m x o /\ v = rvx x /\ reads i1 /\
      q = queue_of E m /\ e0 = e /\ m0 = m /\ m' = m.
  Proof.
    intros Hs Hin.
    pose proof (span_node E w0 w H0 Hr _ _ _ _ _ _ _ (FApi (AFire m e)) Hs eq_refl) as [_ (x & Hv & Hl)].
    assert (Hd : forall i1 o, its = i1 ++ o -> reads i1 -> In (OOffer q p e0 m0 e' m') o -> defaultL E (strat_of E m) e m x o ->
      exists i1 o, its = i1 ++ o /\ enqueueL E (strat_of E m) e m x o /\ reads i1 /\ q = queue_of E m /\ e0 = e /\ m0 = m /\ m' = m).
    { intros i1 o Hi Hrd Ho (c & n & o' & -> & Hf). destruct Ho as [Ho|[Ho|Ho]]; [discriminate|discriminate|]. destruct (full E (strat_of E m) n).
      - rewrite Hf in Ho. simpl in Ho. intuition discriminate.
      - exists (i1 ++ [R (RdLook (s_queue (strat E (strat_of E m))) c); R (RdSize (s_queue (strat E (strat_of E m))) c n)]), o'. split; [rewrite Hi, <- app_assoc; reflexivity|].
        split; [exact Hf|]. split; [apply Forall_app; split; [exact Hrd|repeat constructor]|].
        destruct Hf as (p' & o2 & Hsub & Hf).
        assert (Hno : ~ In (OOffer q p e0 m0 e' m') o2).
        { destruct Hsub as [[_ ->]|[_ ->]]; simpl; intuition discriminate. }
        destruct Hf as [->|(y & nm & y' & e2 & ->)]; simpl in Ho;
          repeat (destruct Ho as [Ho|Ho]; [try discriminate|]); try contradiction; injection Ho; intros; subst; auto. }
    assert (Hp : forall i1 o, its = i1 ++ o -> reads i1 -> In (OOffer q p e0 m0 e' m') o -> processL E (strat_of E m) e m x o ->
      exists i1 o, its = i1 ++ o /\ enqueueL E (strat_of E m) e m x o /\ reads i1 /\ q = queue_of E m /\ e0 = e /\ m0 = m /\ m' = m).
    { intros i1 o Hi Hrd Ho Hp. unfold processL in Hp. destruct (s_drop (strat E (strat_of E m))); [|eapply Hd; eauto].
      destruct Hp as (ps & nm & y & o1 & o2 & -> & Hm & Hy).
      pose proof (scan_reads _ _ _ _ _ _ Hm) as Hmr.
      destruct Ho as [Ho|[Ho|Ho]]; try discriminate. apply in_app_or in Ho. destruct Ho as [Ho|Ho].
      - unfold reads in Hmr. rewrite Forall_forall in Hmr. discriminate (Hmr _ Ho).
      - destruct y as [y|[|]].
        + destruct Hy as [_ ->]. destruct Ho.
        + destruct Hy as [_ ->]. destruct Ho as [Ho|[]]. discriminate.
        + apply (Hd (i1 ++ R (RdIter (s_queue (strat E (strat_of E m))) ps) :: R (RdName e nm) :: o1) o2); auto.
          * rewrite Hi. lst.
          * apply Forall_app. split; [exact Hrd|]. repeat constructor. exact Hmr. }
    destruct Hl as [->|[->|(o & Ho & Hl)]].
    - simpl in Hin. intuition discriminate.
    - simpl in Hin. intuition discriminate.
    - assert (Hx : exists i1, its = i1 ++ o /\ reads i1).
      { destruct Ho as [->| ->]; eexists; (split; [reflexivity|repeat constructor]). }
      destruct Hx as (i1 & Hi & Hrd). 
      assert (Hio : In (OOffer q p e0 m0 e' m') o).
      { rewrite Hi in Hin. apply in_app_or in Hin. destruct Hin as [Hin|Hin]; [|exact Hin].
        unfold reads in Hrd. rewrite Forall_forall in Hrd. discriminate (Hrd _ Hin). }
      destruct (Hp _ _ Hi Hrd Hio Hl) as (i1' & o' & H1 & H2 & H3 & H4). exists i1', o', x. auto.
  Qed.
  Lemma delivers m e t a b its v d q p e0 m0 e' m' : span t T a (OInv (AFire m e)) b its (ORet (AFire m e) v) d ->
    In (OOffer q p e0 m0 e' m') its ->
    (e' = e /\ sometime t a (OInv (AFire m e)) b (fun h => pay_at w0 e h = None)) \/
    (exists hc, during t a (OInv (AFire m e)) b hc /\ copy_of E w0 e e' t a (OInv (AFire m e)) b hc).
  Proof.
    intros Hs Hin. destruct (enqueue_of _ _ _ _ _ _ _ _ _ _ _ _ _ _ Hs Hin) as (i1 & o & x & Hi & (p' & o2 & Hsub & Ho) & _ & Hrd & -> & -> & -> & ->).
    assert (Hno : ~ In (OOffer (queue_of E m) p e m e' m) o2).
    { destruct Hsub as [[_ ->]|[_ ->]]; simpl; intuition discriminate. }
    destruct Ho as [Ho|(y & nm & y' & e2 & Ho)].
    - left. assert (e' = e) as ->.
      { rewrite Hi, Ho in Hin. apply in_app_or in Hin. destruct Hin as [Hin|Hin].
        - unfold reads in Hrd. rewrite Forall_forall in Hrd. discriminate (Hrd _ Hin).
        - simpl in Hin. repeat (destruct Hin as [Hin|Hin]; [try discriminate|]); [|contradiction]. injection Hin; auto. }
      split; [reflexivity|].
      assert (Hi2 : its = (i1 ++ [OWr (WrGot p')]) ++ R (RdPay e None) :: [OWr (WrPair p' e m); OOffer (s_queue (strat E (strat_of E m))) p' e m e m] ++ o2)
        by (rewrite Hi, Ho; lst).
      destruct (rd1 _ _ _ _ _ _ _ Hs _ _ _ Hi2) as (h & Hd & [Hrd1 _] & _). exists h. split; [exact Hd|]. symmetry. exact Hrd1.
    - right. assert (e2 = e') as ->.
      { rewrite Hi, Ho in Hin. apply in_app_or in Hin. destruct Hin as [Hin|Hin].
        - unfold reads in Hrd. rewrite Forall_forall in Hrd. discriminate (Hrd _ Hin).
        - simpl in Hin. repeat (destruct Hin as [Hin|Hin]; [try discriminate|]); [|contradiction]. injection Hin; auto. }
      assert (Hi2 : its = (i1 ++ [OWr (WrGot p'); R (RdPay e (Some y)); R (RdName e nm); R (RdPay e y')]) ++ OWr (WrCopy e' nm y') ::
                     [OWr (WrPair p' e' m); OOffer (s_queue (strat E (strat_of E m))) p' e m e' m] ++ o2)
        by (rewrite Hi, Ho; lst).
      destruct (item_moment w _ _ _ _ _ _ _ _ _ _ Hs Hi2 eq_refl) as (b4 & b5 & -> & S4 & HT).
      assert (Hi3 : i1 ++ [OWr (WrGot p'); R (RdPay e (Some y)); R (RdName e nm); R (RdPay e y')] = (i1 ++ [OWr (WrGot p'); R (RdPay e (Some y)); R (RdName e nm)]) ++ [R (RdPay e y')]) by lst.
      rewrite Hi3 in S4. destruct (item_inv t b4 [] _ _ _ S4 eq_refl) as (b3 & b4' & -> & S3).
      assert (Hi4 : i1 ++ [OWr (WrGot p'); R (RdPay e (Some y)); R (RdName e nm)] = (i1 ++ [OWr (WrGot p'); R (RdPay e (Some y))]) ++ [R (RdName e nm)]) by lst.
      rewrite Hi4 in S3. destruct (item_inv t b3 [] _ _ _ S3 eq_refl) as (b2 & b3' & -> & S2).
      assert (Hi5 : i1 ++ [OWr (WrGot p'); R (RdPay e (Some y))] = (i1 ++ [OWr (WrGot p')]) ++ [R (RdPay e (Some y))]) by lst.
      rewrite Hi5 in S2. destruct (item_inv t b2 [] _ _ _ S2 eq_refl) as (b1 & b2' & -> & S1).
      (* the three reads *)
      set (op := OInv (AFire m e)) in *.
      set (h1 := a ++ (t, op) :: b1) in *. set (h2 := h1 ++ (t, R (RdPay e (Some y))) :: b2'). set (h3 := h2 ++ (t, R (RdName e nm)) :: b3').
      set (h4 := h3 ++ (t, R (RdPay e y')) :: b4').
      assert (T4 : T = h4 ++ (t, OWr (WrCopy e' nm y')) :: b5 ++ (t, ORet (AFire m e) v) :: d)
        by (rewrite HT; unfold h4, h3, h2, h1; lst).
      assert (T3 : T = h3 ++ (t, R (RdPay e y')) :: b4' ++ (t, OWr (WrCopy e' nm y')) :: b5 ++ (t, ORet (AFire m e) v) :: d)
        by (rewrite HT; unfold h3, h2, h1; lst).
      assert (T2 : T = h2 ++ (t, R (RdName e nm)) :: b3' ++ (t, R (RdPay e y')) :: b4' ++ (t, OWr (WrCopy e' nm y')) :: b5 ++ (t, ORet (AFire m e) v) :: d)
        by (rewrite HT; unfold h2, h1; lst).
      assert (T1 : T = h1 ++ (t, R (RdPay e (Some y))) :: b2' ++ (t, R (RdName e nm)) :: b3' ++ (t, R (RdPay e y')) :: b4' ++ (t, OWr (WrCopy e' nm y')) :: b5 ++ (t, ORet (AFire m e) v) :: d)
        by (rewrite HT; unfold h1; lst).
      pose proof (read_true E w0 w H0 Hr _ _ _ _ T1) as R1. pose proof (read_true E w0 w H0 Hr _ _ _ _ T2) as R2.
      pose proof (read_true E w0 w H0 Hr _ _ _ _ T3) as R3. simpl in R1, R2, R3.
      destruct (copy_fresh E w0 w H0 Hr _ _ _ _ _ _ T4) as (k & Hk & Hfr).
      exists (h4 ++ [(t, OWr (WrCopy e' nm y'))]). split.
      { exists (b1 ++ (t, R (RdPay e (Some y))) :: b2' ++ (t, R (RdName e nm)) :: b3' ++ (t, R (RdPay e y')) :: b4' ++ [(t, OWr (WrCopy e' nm y'))]), b5.
        split; [lst|unfold h4, h3, h2, h1; lst]. }
      exists h1, h2, h3. split; [eexists b1, _; split; [lst|reflexivity]|]. split.
      { eexists (b1 ++ (t, R (RdPay e (Some y))) :: b2'), _. split; [lst|unfold h2, h1; lst]. }
      split. { eexists (b1 ++ (t, R (RdPay e (Some y))) :: b2' ++ (t, R (RdName e nm)) :: b3'), _. split; [lst|unfold h3, h2, h1; lst]. }
      split; [eexists; reflexivity|]. split; [eexists; reflexivity|]. split; [eexists; unfold h4; lst|].
      split; [congruence|]. subst e'. split.
      { intros (t' & nm' & z' & Hc). apply (Hfr t' nm' z'). unfold h4. apply in_or_app. left. exact Hc. }
      split. { exists t, nm, y'. apply in_or_app. right. left. reflexivity. }
      split.
      + unfold pay_at at 1, pay_of. rewrite replay_snoc. unfold eid_eqb. destruct (eid_eq_dec (ECopy k) (ECopy k)); [exact R3|congruence].
      + unfold name_at at 1, names_of. rewrite replay_snoc. unfold eid_eqb. destruct (eid_eq_dec (ECopy k) (ECopy k)); [exact R2|congruence].
  Qed.
  Lemma pay_kept e h r : payload_kept e r -> made e h -> (forall t nm y, ~ In (t, OWr (WrCopy e nm y)) r) -> pay_at w0 e (h ++ r) = pay_at w0 e h.
  Proof.
    intros Hk Hm Hc. unfold pay_at, pay_of. rewrite replay_app. induction r as [|[t o] r IH] using rev_ind; [reflexivity|].
    rewrite replay_snoc, IH.
    - destruct o; auto. destruct w1; auto; unfold eid_eqb.
      + destruct (eid_eq_dec e e0) as [<-|]; [|reflexivity]. destruct (Hk t p). apply in_or_app. right. left. reflexivity.
      + destruct (eid_eq_dec e e0) as [<-|]; [|reflexivity]. destruct (Hc t nm p). apply in_or_app. right. left. reflexivity.
    - intros t' y Hi. apply (Hk t' y). apply in_or_app. auto.
    - intros t' nm y Hi. apply (Hc t' nm y). apply in_or_app. auto.
  Qed.
  (** once made, an event object's payload changes only by setPayload on it *)
  Lemma pay_changes_by_set e h r r' : T = (h ++ r) ++ r' -> made e h -> payload_kept e r -> pay_at w0 e (h ++ r) = pay_at w0 e h.
  Proof.
    intros HT Hm Hk. apply pay_kept; auto. intros t nm y Hi. apply in_split in Hi. destruct Hi as (r1 & r2 & ->).
    assert (HT2 : T = (h ++ r1) ++ (t, OWr (WrCopy e nm y)) :: r2 ++ r') by (rewrite HT; lst).
    destruct (copy_fresh E w0 w H0 Hr _ _ _ _ _ _ HT2) as (k & -> & Hf). destruct Hm as (t' & nm' & y' & Hm).
    apply (Hf t' nm' y'). apply in_or_app. auto.
  Qed.
  (** a snapshot: the event carries a payload during the whole call *)
  Lemma snapshot m e t a b its v d q p e0 m0 e' m' : span t T a (OInv (AFire m e)) b its (ORet (AFire m e) v) d ->
    In (OOffer q p e0 m0 e' m') its -> made e a -> pay_at w0 e a <> None -> payload_kept e b ->
    exists hc r, upto (a ++ [(t, OInv (AFire m e))]) hc /\ T = hc ++ r /\ made e' hc /\ ~ made e' a /\ e' <> e /\ name_at E w0 e' hc = name_at E w0 e a /\
      forall r1 r2, r = r1 ++ r2 -> payload_kept e' r1 -> pay_at w0 e' (hc ++ r1) = pay_at w0 e a.
  Proof.
    intros Hs Hin Hm Hp Hk. pose proof (proj1 Hs) as HT.
    assert (Hpd : forall h, during t a (OInv (AFire m e)) b h -> pay_at w0 e h = pay_at w0 e a).
    { intros h (b1 & b2 & -> & ->). apply (pay_changes_by_set e a ((t, OInv (AFire m e)) :: b1) (b2 ++ (t, ORet (AFire m e) v) :: d)); [|exact Hm|].
      - rewrite HT. lst.
      - intros t' y [Hi|Hi]; [discriminate|]. apply (Hk t' y). apply in_or_app. auto. }
    destruct (delivers _ _ _ _ _ _ _ _ _ _ _ _ _ _ Hs Hin) as [[_ (h & Hd & Hf)]|(hc & Hdc & h1 & hn & h2 & D1 & Dn & D2 & U1 & Un & U2 & P1 & M1 & M2 & P2 & N2)].
    - rewrite (Hpd _ Hd) in Hf. contradiction.
    - destruct Hdc as (c1 & c2 & Hb & Hhc). exists hc, (c2 ++ (t, ORet (AFire m e) v) :: d).
      assert (HTc : T = hc ++ c2 ++ (t, ORet (AFire m e) v) :: d) by (rewrite HT, Hb, Hhc; lst).
      assert (Hna : ~ made e' a).
      { intro Hx. apply M1. destruct e' as [n|n| |]; try exact I. destruct D2 as (g1 & g2 & _ & ->). destruct Hx as (t' & nm & y & Hx).
        exists t', nm, y. apply in_or_app. auto. }
      split; [exists c1; rewrite Hhc, <- app_assoc; reflexivity|]. split; [exact HTc|]. split; [exact M2|]. split; [exact Hna|].
      split; [intros ->; contradiction|]. split.
      + rewrite N2. eapply (name_during E w0 w H0 Hr); eauto.
      + intros r1 r2 Hrr Hkr. rewrite <- (Hpd _ D2), <- P2. apply (pay_changes_by_set e' hc r1 r2); [|exact M2|exact Hkr].
        rewrite HTc, Hrr, app_assoc. reflexivity.
  Qed.
  (** an event without payload is delivered as the same object *)
  Lemma same_object m e t a b its v d q p e0 m0 e' m' : span t T a (OInv (AFire m e)) b its (ORet (AFire m e) v) d ->
    In (OOffer q p e0 m0 e' m') its -> (forall h, during t a (OInv (AFire m e)) b h -> pay_at w0 e h = None) -> e' = e.
  Proof.
    intros Hs Hin Hn. destruct (delivers _ _ _ _ _ _ _ _ _ _ _ _ _ _ Hs Hin) as [[-> _]|(hc & Hdc & h1 & hn & h2 & D1 & Dn & D2 & U1 & Un & U2 & P1 & _)]; [reflexivity|].
    destruct P1. auto.
  Qed.

  (** ** C42 *)
  Lemma shut_of_in x h : shut_at x h <-> shut_of x false h = true.
  Proof.
    unfold shut_at, shut_of. induction h as [|[t o] h IH] using rev_ind; [split; [intros [? []]|discriminate]|].
    rewrite replay_snoc. split.
    - intros [t' Hi]. apply in_app_or in Hi. destruct Hi as [Hi|[Hi|[]]].
      + assert (Hx : replay (fun b o => match o with OWr (WrShut x') => if Nat.eqb x' x then true else b | _ => b end) false h = true) by (apply IH; eauto).
        rewrite Hx. destruct o; auto. destruct w1; auto. destruct (Nat.eqb x0 x); auto.
      + injection Hi as -> ->. rewrite Nat.eqb_refl. reflexivity.
    - intro Hx. assert (Hc : replay (fun b o => match o with OWr (WrShut x') => if Nat.eqb x' x then true else b | _ => b end) false h = true \/ o = OWr (WrShut x)).
      { destruct o; auto. destruct w1; auto. destruct (Nat.eqb_spec x0 x); [subst; auto|auto]. }
      destruct Hc as [Hc| ->]; [|exists t; apply in_or_app; right; left; reflexivity].
      apply IH in Hc. destruct Hc as [t' Hc]. exists t'. apply in_or_app. auto.
  Qed.
  Lemma waiting_kept q p c h1 t o r : accepted q [(t, o)] = [(p, c)] -> (exists rest, T = h1 ++ (t, o) :: r ++ rest) ->
    taken q ((t, o) :: r) = [] -> In (p, c) (waiting q (h1 ++ (t, o) :: r)).
  Proof.
    intros Ha [rest HT] Ht. destruct (reach_prefix E w0 w (im_tr _ _ H0) Hr _ _ HT) as (w1 & Hr1 & Hw1).
    pose proof (fifo E w0 w1 q H0 Hr1) as Hf. rewrite Hw1 in Hf. unfold waiting.
    change ((t, o) :: r) with ([(t, o)] ++ r) in *. unfold taken, accepted in *. rewrite !flat_map_app in *.
    rewrite Ha. apply app_eq_nil in Ht. destruct Ht as [-> ->]. simpl. rewrite app_nil_r.
    rewrite Hf. rewrite <- app_assoc, skipn_app, skipn_all, Nat.sub_diag. simpl. apply in_or_app. right. left. reflexivity.
  Qed.
  Lemma rejected m e t a b its v d x tk : span t T a (OInv (AFire m e)) b its (ORet (AFire m e) v) d ->
    In (OWr (WrReject x tk)) its ->
    v = RvErr XRejected /\ x = exec_of E m /\ shut_at (exec_of E m) (a ++ (t, OInv (AFire m e)) :: b) /\
    exists p e', shown its = [OOffer (queue_of E m) p e m e' m] /\
      (taken (queue_of E m) b = [] -> In (p, Some (e', m)) (waiting (queue_of E m) (a ++ (t, OInv (AFire m e)) :: b ++ [(t, ORet (AFire m e) v)]))).
  Proof.
    intros Hs Hin.
    assert (Hof : exists p0 e0, In (OOffer (queue_of E m) p0 e m e0 m) its).
    { pose proof (span_node E w0 w H0 Hr _ _ _ _ _ _ _ (FApi (AFire m e)) Hs eq_refl) as [_ (y & Hv & Hl)].
      assert (Hd : forall o, In (OWr (WrReject x tk)) o -> defaultL E (strat_of E m) e m y o -> exists p0 e0, In (OOffer (queue_of E m) p0 e m e0 m) o).
      { intros o Ho (c & n & o' & -> & Hf). destruct Ho as [Ho|[Ho|Ho]]; [discriminate|discriminate|]. destruct (full E (strat_of E m) n).
        - rewrite Hf in Ho. simpl in Ho. intuition discriminate.
        - destruct Hf as (p' & o2 & _ & [->|(y0 & nm & y' & e2 & ->)]); exists p'; eexists; right; right; apply in_or_app; left; simpl; eauto 10. }
      destruct Hl as [->|[->|(o & Ho & Hl)]]; [simpl in Hin; intuition discriminate|simpl in Hin; intuition discriminate|].
      assert (Hio : In (OWr (WrReject x tk)) o) by (destruct Ho as [->| ->]; simpl in Hin; intuition discriminate).
      assert (Hx : exists p0 e0, In (OOffer (queue_of E m) p0 e m e0 m) o).
      { unfold processL in Hl. destruct (s_drop (strat E (strat_of E m))); [|eapply Hd; eauto].
        destruct Hl as (ps & nm & yy & o1 & o2 & -> & Hm & Hy).
        pose proof (scan_reads _ _ _ _ _ _ Hm) as Hmr.
        destruct Hio as [Hio|[Hio|Hio]]; try discriminate. apply in_app_or in Hio. destruct Hio as [Hio|Hio].
        { unfold reads in Hmr. rewrite Forall_forall in Hmr. discriminate (Hmr _ Hio). }
        destruct yy as [yy|[|]].
        - destruct Hy as [_ ->]. destruct Hio.
        - destruct Hy as [_ ->]. destruct Hio as [Hio|[]]. discriminate.
        - destruct (Hd _ Hio Hy) as (p0 & e0 & Hx). exists p0, e0. right. right. apply in_or_app. auto. }
      destruct Hx as (p0 & e0 & Hx). exists p0, e0. destruct Ho as [->| ->]; apply in_or_app; auto. }
    destruct Hof as (p0 & e0 & Hof).
    destruct (enqueue_of _ _ _ _ _ _ _ _ _ _ _ _ _ _ Hs Hof) as (i1 & o & y & Hi & (p' & o2 & Hsub & Ho) & Hv & Hrd & _).
    assert (Hi1 : In (OWr (WrReject x tk)) o).
    { rewrite Hi in Hin. apply in_app_or in Hin. destruct Hin as [Hin|]; [|assumption].
      unfold reads in Hrd. rewrite Forall_forall in Hrd. discriminate (Hrd _ Hin). }
    assert (Hi2 : In (OWr (WrReject x tk)) o2).
    { destruct Ho as [->|(y0 & nm & y' & e2 & ->)]; apply in_app_or in Hi1; destruct Hi1 as [Hi1|]; auto; simpl in Hi1; intuition discriminate. }
    destruct Hsub as [[_ ->]|[-> ->]]; [destruct Hi2 as [Hi2|[]]; discriminate|]. destruct Hi2 as [Hi2|[]]. injection Hi2 as <- <-.
    split; [exact Hv|]. split; [reflexivity|]. split.
    { apply in_split in Hin. destruct Hin as (j1 & j2 & Hj). destruct (item_moment w _ _ _ _ _ _ _ _ _ _ Hs Hj eq_refl) as (c1 & c2 & -> & _ & HT).
      destruct (truth E w0 w (im_tr _ _ H0) Hr) as [_ Ht]. destruct (Ht _ _ _ _ HT) as [Hw _]. simpl in Hw. rewrite (im_shut _ _ H0) in Hw.
      apply shut_of_in in Hw. destruct Hw as [t' Hw]. exists t'. apply in_app_or in Hw. apply in_or_app. destruct Hw as [Hw|[Hw|Hw]]; auto; [discriminate|].
      right. right. apply in_or_app. auto. }
    assert (Hsh : exists e', In (OOffer (queue_of E m) p' e m e' m) o /\ shown its = [OOffer (queue_of E m) p' e m e' m]).
    { assert (Hi0 : shown i1 = []).
      { clear -Hrd. induction Hrd as [|o l Ho _ IH]; [reflexivity|]. destruct o; try discriminate. exact IH. }
      rewrite Hi. unfold shown in *. rewrite filter_app, Hi0. 
      destruct Ho as [->|(y0 & nm & y' & e2 & ->)]; eexists; (split; [simpl; eauto 10|reflexivity]). }
    destruct Hsh as (e' & Hino & Hsh). exists p', e'. split; [exact Hsh|]. intro Htk.
    assert (Hio : In (OOffer (queue_of E m) p' e m e' m) its) by (rewrite Hi; apply in_or_app; auto).
    apply in_split in Hio. destruct Hio as (j1 & j2 & Hj). destruct (item_moment w _ _ _ _ _ _ _ _ _ _ Hs Hj eq_refl) as (c1 & c2 & Hb & _ & HT).
    assert (Hg : a ++ (t, OInv (AFire m e)) :: b ++ [(t, ORet (AFire m e) v)] =
      (a ++ (t, OInv (AFire m e)) :: c1) ++ (t, OOffer (queue_of E m) p' e m e' m) :: (c2 ++ [(t, ORet (AFire m e) v)])) by (rewrite Hb; lst).
    rewrite Hg. apply waiting_kept.
    - simpl. rewrite Nat.eqb_refl. reflexivity.
    - exists d. rewrite HT. lst.
    - rewrite Hb in Htk. unfold taken in *. rewrite flat_map_app in Htk. apply app_eq_nil in Htk. destruct Htk as [_ Htk].
      simpl in *. rewrite flat_map_app, Htk. reflexivity.
  Qed.
  Lemma shut_fire m e t a b its v d p e' : span t T a (OInv (AFire m e)) b its (ORet (AFire m e) v) d ->
    shut_at (exec_of E m) a -> In (OOffer (queue_of E m) p e m e' m) its -> In (OWr (WrReject (exec_of E m) {| tk_strat := strat_of E m; tk_mach := m |})) its.
  Proof.
    intros Hs Hsh Hof.
    destruct (enqueue_of _ _ _ _ _ _ _ _ _ _ _ _ _ _ Hs Hof) as (i1 & o & y & Hi & (p' & o2 & Hsub & Ho) & Hv & Hrd & _).
    destruct Hsub as [[_ ->]|[_ ->]].
    - exfalso. assert (Hin : In (OSubmit (exec_of E m) {| tk_strat := strat_of E m; tk_mach := m |}) its).
      { rewrite Hi. apply in_or_app. right. destruct Ho as [->|(y0 & nm & y' & e2 & ->)]; apply in_or_app; right; left; reflexivity. }
      apply in_split in Hin. destruct Hin as (j1 & j2 & Hj). destruct (item_moment w _ _ _ _ _ _ _ _ _ _ Hs Hj eq_refl) as (c1 & c2 & -> & _ & HT).
      destruct (truth E w0 w (im_tr _ _ H0) Hr) as [_ Ht]. destruct (Ht _ _ _ _ HT) as [Hw _]. simpl in Hw. rewrite (im_shut _ _ H0) in Hw.
      assert (Hx : shut_at (exec_of E m) (a ++ (t, OInv (AFire m e)) :: c1)).
      { destruct Hsh as [t' Hsh]. exists t'. apply in_or_app. auto. }
      apply shut_of_in in Hx. congruence.
    - rewrite Hi. apply in_or_app. right. destruct Ho as [->|(y0 & nm & y' & e2 & ->)]; apply in_or_app; right; left; reflexivity.
  Qed.
End Fire.
