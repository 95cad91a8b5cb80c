(** * AppLive5.v: the life of an app service, event by event (proofs) *)
From Verif Require Import Sched MemInv Logic LiveSpec Lang Tree Nodes Marks Place Moments Truth Copies QueueProofs CallProofs FireProofs StartProofs
  TokenProofs ExactProofs FlowProofs2 Live LiveProofs LiveProofs2 AppLive1 AppLive2 AppLive3 AppLive4.
From Verif Require Import AppLiveSpec.
From Verif Require Import ConfigSpec.

(** ** Facts about the plan *)
Lemma fate_mono E p f h r : subs_fate E p f (h ++ r) -> subs_fate E p f h.
Proof.
  intros [H1 H2]. assert (Hin : forall x, In x h -> In x (h ++ r)) by (intros; apply in_or_app; auto).
  split; [intros t b i y Hi; eapply H1; eauto|]. destruct f.
  - intros t b i y Hi. eapply H2; eauto.
  - destruct H2 as (i & Hi & H2). exists i. split; [exact Hi|]. intros t Hx. eapply H2; eauto.
  - destruct H2 as (H2 & i & Hi & H3). split; [intros t j y Hx; eapply H2; eauto|]. exists i. split; [exact Hi|]. intros t Hx. eapply H3; eauto.
  - intros t b i y Hi. eapply H2; eauto.
Qed.
Lemma stop_mono E p f h r : stop_plan E p f (h ++ r) -> stop_plan E p f h.
Proof. unfold stop_plan. rewrite asked_app. destruct f; try lia; try tauto. intros [H|H]; [left; exact H|right; lia]. Qed.
Lemma start_mono E p f h r : start_plan E p f (h ++ r) -> start_plan E p f h.
Proof.
  unfold start_plan. rewrite asked_app. destruct f; try (intros [H|H]; [left; exact H|right; lia]).
  intros H a t o r' ->. apply (H a t o (r' ++ r)). rewrite <- app_assoc. reflexivity.
Qed.
Lemma stop_once E p f h : f <> NoStart -> f <> Again -> stop_plan E p f h -> asked (stops_p p) h <= 1.
Proof. unfold stop_plan. destruct f; auto; congruence. Qed.
Lemma stop_never E p f h : f = NoStart -> ap_exit (apps E p) = false -> stop_plan E p f h -> asked (stops_p p) h = 0.
Proof. unfold stop_plan. intros -> -> [?|?]; [discriminate|assumption]. Qed.
Lemma start_once E p f h : f <> Again -> ap_exit (apps E p) = false -> start_plan E p f h -> asked (starts_p p) h <= 1.
Proof. unfold start_plan. intros Hf -> H. destruct f; try (destruct H as [?|?]; [discriminate|assumption]). congruence. Qed.
Lemma last_4 f : f <> NoStart -> lastk f = 4.
Proof. destruct f; [reflexivity|congruence|reflexivity..]. Qed.
Lemma last_ge f : 2 <= lastk f.
Proof. destruct f; simpl; lia. Qed.
Lemma upto_le f i : (f <> Again -> i <= lastk f) -> inplan f i.
Proof. unfold inplan. destruct f; auto; intro H; apply H; discriminate. Qed.
Lemma le_upto f i : f <> Again -> inplan f i -> i <= lastk f.
Proof. unfold inplan. destruct f; auto; congruence. Qed.
(** has the last of the events been processed *)
Definition past (f : fate) (i : nat) : bool := match f with Again => false | _ => Nat.eqb i (S (lastk f)) end.
Lemma past_upto f i : inplan f i -> past f i = false.
Proof. unfold inplan, past. destruct f; intro; try reflexivity; apply Nat.eqb_neq; lia. Qed.
Lemma past_0 f : past f 0 = false.
Proof. destruct f; reflexivity. Qed.
Lemma past_S f i : past f (S i) = isend f i.
Proof. destruct f; reflexivity. Qed.
Lemma tostop_last f i : f <> Again -> tostop f i = true -> S i = lastk f.
Proof. unfold tostop. destruct f; intros Hf H; try congruence; apply Nat.eqb_eq; exact H. Qed.
Lemma named_2 E p f k : f <> Again -> is_name E (Some (lst E p f k)) "STARTED" = true -> f <> NoStart /\ k = 2.
Proof. intros Hf. unfold lst. destruct f; try congruence; destruct k as [|[|[|[|[|k]]]]]; try discriminate; (split; [discriminate|reflexivity]). Qed.
Lemma named_4 E p f k : f <> Again -> is_name E (Some (lst E p f k)) "STOPPED" = true -> k = lastk f.
Proof. intro Hf. unfold lst, lastk. destruct f; try congruence; destruct k as [|[|[|[|[|k]]]]]; try discriminate; reflexivity. Qed.
Lemma again_2 E p k : is_name E (Some (lst E p Again k)) "STARTED" = true -> exists c, k = 4 * c + 2.
Proof.
  pattern k. apply per_cases; try (intro; discriminate); [intros _; exists 0; reflexivity|].
  intros i IH H. destruct (IH H) as [c Hc]. exists (S c). lia.
Qed.
Lemma again_4 E p k : is_name E (Some (lst E p Again k)) "STOPPED" = true -> exists c, k = 4 * c + 4.
Proof.
  pattern k. apply per_cases; try (intro; discriminate); [intros _; exists 0; reflexivity|].
  intros i IH H. destruct (IH H) as [c Hc]. exists (S c). lia.
Qed.
Lemma per_add {A : Type} (a b c d : A) n i : per a b c d (4 * n + i) = per a b c d i.
Proof. induction n as [|n IH]; [reflexivity|]. replace (4 * S n + i) with (S (S (S (S (4 * n + i))))) by lia. exact IH. Qed.
(** two calls of the same number are one *)
Lemma same_call P T a1 t1 o1 r1 a2 t2 o2 r2 : T = a1 ++ (t1, o1) :: r1 -> T = a2 ++ (t2, o2) :: r2 -> P o1 = true -> P o2 = true -> asked P a1 = asked P a2 ->
  a1 = a2 /\ t1 = t2 /\ o1 = o2.
Proof.
  intros H1 H2 F1 F2 Ha. rewrite H1 in H2. apply app_eq_app in H2. destruct H2 as (l & [[L1 L2]|[L1 L2]]); destruct l as [|y l].
  - rewrite app_nil_r in L1. injection L2; intros; subst; auto.
  - injection L2 as <- L2. exfalso. rewrite L1, asked_app, asked_cons in Ha. simpl in Ha. rewrite F2 in Ha. lia.
  - rewrite app_nil_r in L1. simpl in L2. injection L2; intros; subst; auto.
  - injection L2 as <- L2. exfalso. rewrite L1, asked_app, asked_cons in Ha. simpl in Ha. rewrite F1 in Ha. lia.
Qed.
Lemma last_asked P h : 0 < asked P h -> exists a t o r, h = a ++ (t, o) :: r /\ P o = true /\ asked P r = 0.
Proof.
  induction h as [|[t o] h IH]; [unfold asked; simpl; lia|]. intro H. destruct (Nat.eq_dec (asked P h) 0) as [Hz|Hz].
  - rewrite asked_cons in H. simpl in H. exists [], t, o, h. destruct (P o) eqn:Eo; [auto|lia].
  - destruct IH as (a & t' & o' & r & -> & Ho & Hr); [lia|]. exists ((t, o) :: a), t', o', r. auto.
Qed.
Lemma asks_start p : asks_p p (OInv (AAppStart p)) = true.
Proof. unfold asks_p. simpl. rewrite Nat.eqb_refl. reflexivity. Qed.
Lemma asks_stop p : asks_p p (OInv (AAppStop p)) = true.
Proof. unfold asks_p. simpl. apply Nat.eqb_refl. Qed.
Lemma fate_again f : {f = Again} + {f <> Again}.
Proof. destruct f; (left; reflexivity) || (right; discriminate). Qed.
Lemma not_asked P h t (o : obs) : asked P h = 0 -> In (t, o) h -> P o = true -> False.
Proof.
  unfold asked. intros H Hi Ho. assert (Hf : In o (filter P (map snd h))); [apply filter_In; split; [apply (in_map snd _ _ Hi)|exact Ho]|].
  destruct (filter P (map snd h)); [destruct Hf|discriminate].
Qed.

Section Life.
  Context (E : env) (w0 : mem) (s : nat -> tid) (p : apid).
  Notation T := (LiveSpec.history E w0 s).
  Notation W := (moment E w0 s).
  Notation m := (ap_mach (apps E p)).
  Notation q := (queue_of E m).
  Notation wkr := (worker_of E m).
  Context (H0 : init_mem E w0) (Hb : app_built E w0 p) {f : fate} (HL : left_to_fate E w0 s p f) (Hsv : served E w0 s q).

  Lemma quiet n : app_quiet E p f (T n).
  Proof.
    constructor; intros.
    - eapply lf_none; eauto.
    - eapply lf_own; eauto.
    - eapply lf_subs; eauto.
    - eapply lf_listen; eauto.
    - eapply lf_await; eauto.
    - eapply lf_stop; eauto.
    - pose proof (lf_start _ _ _ _ _ HL) as H. clear - H. unfold start_plan. revert H. case f; try (intros [H|H]; auto). intro H. apply H.
    - apply (sv_open _ _ _ _ Hsv). exists m. auto.
  Qed.
  Definition part (h : trace) : Prop := exists n r, T n = h ++ r.
  Lemma part_pre h r : part (h ++ r) -> part h.
  Proof. intros (n & r' & H). exists n, (r ++ r'). rewrite app_assoc. exact H. Qed.
  Lemma part_both h1 h2 : part h1 -> part h2 -> exists n r1 r2, T n = h1 ++ r1 /\ T n = h2 ++ r2.
  Proof.
    intros (n1 & r1 & P1) (n2 & r2 & P2). destruct (history_le E w0 s n1 (n1 + n2)) as [x1 X1]; [lia|].
    destruct (history_le E w0 s n2 (n1 + n2)) as [x2 X2]; [lia|]. exists (n1 + n2), (r1 ++ x1), (r2 ++ x2).
    split; [rewrite X1, P1|rewrite X2, P2]; rewrite <- app_assoc; reflexivity.
  Qed.
  Lemma part_reach h : part h -> exists w, reach E w0 w /\ tr (wm w) = h.
  Proof.
    intros (n & r & H). destruct (reach_prefix E w0 (W n) (im_tr _ _ H0) (moment_reach E w0 s n) h r H) as (w1 & H1 & H2). eauto.
  Qed.
  Lemma part_quiet h : part h -> app_quiet E p f h.
  Proof.
    intros (n & r & H). pose proof (quiet n) as Q. rewrite H in Q.
    assert (Hin : forall x, In x h -> In x (h ++ r)) by (intros; apply in_or_app; auto).
    constructor; intros.
    - eapply aq_none; eauto.
    - eapply aq_own; eauto.
    - eapply fate_mono. exact (aq_subs _ _ _ _ Q).
    - intro Hi. eapply aq_listen; eauto.
    - intro Hi. eapply aq_await; eauto.
    - eapply stop_mono. exact (aq_stop _ _ _ _ Q).
    - eapply start_mono. exact (aq_start _ _ _ _ Q).
    - intro Hs. apply (aq_open _ _ _ _ Q). destruct Hs as [t Hs]. exists t. apply Hin. exact Hs.
  Qed.

  (** ** Takes are processed by the worker, one after the other, to their end *)
  Lemma take_thread a t pr c : part (a ++ [(t, OTake q pr c)]) -> t = wkr /\ exists e, c = Some (e, m).
  Proof.
    intro Hp. destruct (part_reach _ Hp) as (w & Hr & Hw).
    apply (take_worker E w0 w H0 Hr m (ab_queue _ _ _ Hb) (ab_thread _ _ _ Hb) (a ++ [(t, OTake q pr c)]) [] t pr c []); [rewrite app_nil_r; exact Hw|].
    unfold opened. rewrite (stack_at t a (OTake q pr c) [] (FTake q pr c) [] [] eq_refl eq_refl). left. reflexivity.
  Qed.
  Lemma goes : goes_on E w0 s wkr.
  Proof.
    assert (Hx : serves E (exec_of E m) q) by (exists m; auto).
    apply (sv_go _ _ _ _ Hsv _ 0 Hx). apply (sv_some _ _ _ _ Hsv _ Hx).
  Qed.
  Lemma take_span a pr c h : part (a ++ [(wkr, OTake q pr c)]) -> part h ->
    exists n b its z d r, span wkr (T n) a (OTake q pr c) b its z d /\ T n = h ++ r.
  Proof.
    intros H1 H2. destruct (part_both _ _ H1 H2) as (n & r1 & r2 & E1 & E2). rewrite <- app_assoc in E1.
    destruct (finished E w0 s H0 wkr n a (OTake q pr c) (FTake q pr c) r1 goes E1 eq_refl) as (n' & b & its & z & d & Hn & Hs).
    destruct (history_le E w0 s n n' Hn) as [x X]. exists n', b, its, z, d, (r2 ++ x). split; [exact Hs|]. rewrite X, E2, <- app_assoc. reflexivity.
  Qed.
  Lemma take_root a pr c : part (a ++ [(wkr, OTake q pr c)]) -> exists i, fst (scan wkr a) = [(FRoot, i)].
  Proof.
    intro Hp. destruct (part_reach _ Hp) as (w & Hr & Hw).
    destruct (placed_at E w0 w H0 Hr wkr a (OTake q pr c) [] Hw eq_refl) as (k & its & u & Hs & Hm). apply may_take in Hm. subst k.
    assert (Hst : fst (scan wkr (a ++ [(wkr, OTake q pr c)])) = [] ++ (FTake q pr c, []) :: add_item (OTake q pr c) (fst (scan wkr a))).
    { exact (stack_at wkr a (OTake q pr c) [] (FTake q pr c) [] [] eq_refl eq_refl). }
    assert (Hw' : tr (wm w) = (a ++ [(wkr, OTake q pr c)]) ++ []) by (rewrite app_nil_r; exact Hw).
    destruct (take_on_root E w0 w H0 Hr _ _ _ _ _ _ _ _ _ Hw' Hst) as (i & Hi). rewrite Hs in Hi. simpl in Hi. injection Hi as _ ->.
    exists its. exact Hs.
  Qed.
  Lemma root_rests a i : fst (scan wkr a) = [(FRoot, i)] -> rests q wkr a.
  Proof. intros H pr c its Ho. unfold opened in Ho. rewrite H in Ho. destruct Ho as [Ho|[]]. discriminate. Qed.
  Lemma after_span a op b its z i : fst (scan wkr a) = [(FRoot, i)] -> (exists k, opens op = Some k) -> fst (scan wkr b) = [(FRoot, its)] -> closes z = true ->
    exists j, fst (scan wkr (a ++ (wkr, op) :: b ++ [(wkr, z)])) = [(FRoot, j)].
  Proof.
    intros Ha [k Hk] Hs Hz. replace (a ++ (wkr, op) :: b ++ [(wkr, z)]) with ((a ++ (wkr, op) :: b) ++ [(wkr, z)]) by (rewrite <- app_assoc; reflexivity).
    rewrite Place.scan_snoc, (stack_at wkr a op b k [] its Hk Hs), Ha. unfold scan1. rewrite Hz. simpl. eauto.
  Qed.
  Lemma rests_on h r : rests q wkr h -> taken q r = [] -> rests q wkr (h ++ r).
  Proof.
    intros Hr Ht pr c its Ho. destruct (opened_earlier _ _ _ _ _ Ho ltac:(discriminate)) as [[i Hi]|(op & Hop & Hi)]; [exact (Hr _ _ _ Hi)|].
    destruct op; try discriminate. injection Hop as -> -> ->. exact (taken_nil E p r wkr pr c Ht Hi).
  Qed.
  Lemma taken_one t pr c : taken q [(t, OTake q pr c)] = [(pr, c)].
  Proof. unfold taken. simpl. rewrite Nat.eqb_refl. reflexivity. Qed.
  Lemma taken_cons t pr c b : taken q ((t, OTake q pr c) :: b) = (pr, c) :: taken q b.
  Proof. unfold taken. simpl. rewrite Nat.eqb_refl. reflexivity. Qed.
  Lemma last_take h : taken q h <> [] -> exists a t pr c b, h = a ++ (t, OTake q pr c) :: b /\ taken q b = [].
  Proof.
    induction h as [|[t o] h IH] using rev_ind; [intro Hn; exfalso; apply Hn; reflexivity|]. intro Hn. rewrite taken_app in Hn.
    assert (Hd : taken q [(t, o)] = [] \/ exists pr c, o = OTake q pr c).
    { destruct o; auto. unfold taken. simpl. match goal with |- context [Nat.eqb ?a ?b] => destruct (Nat.eqb_spec a b) as [->|] end; eauto. }
    destruct Hd as [Hd|(pr & c & ->)]; [|exists h, t, pr, c, []; auto].
    rewrite Hd, app_nil_r in Hn. destruct (IH Hn) as (a & t' & pr & c & b & -> & Hb'). exists a, t', pr, c, (b ++ [(t, o)]).
    split; [rewrite <- app_assoc; reflexivity|]. rewrite taken_app, Hb', Hd. reflexivity.
  Qed.

  (** ** What is offered *)
  Definition cont (i : nat) : option (eid * mid) := Some (ELife (lev f i), m).
  Definition NS : nat := if ap_exit (apps E p) then S (lastk f) else lastk f.
  Definition in_act (i : nat) (t : tid) (h : trace) : Prop :=
    t = wkr /\ exists a pr b1 u i0 c its v e m', h = a ++ (wkr, OTake q pr (cont i)) :: b1 /\ List.length (taken q a) = i /\
      fst (scan wkr b1) = u ++ [(FRoot, i0)] /\ fst (scan wkr h) = (FCall c, its) :: v /\ ours p c e m'.
  (** inside the call of start() or stop() with n of them before it *)
  Definition by_call (n : nat) (t : tid) (h : trace) : Prop := exists a x b its,
    h = a ++ (t, OInv x) :: b /\ fst (scan t b) = [(FRoot, its)] /\ asked (asks_p p) a = n /\ asks_p p (OInv x) = true.
  Definition origin (j : nat) (t : tid) (h : trace) : Prop :=
    match j with
    | 0 => (exists its v, fst (scan t h) = (FApi (AAppStart p), its) :: v /\ In (OStarted m) its /\ In (OUnended m) its) /\ (f = Again -> by_call 0 t h)
    | S i => if stays f i then match f with Again => exists n, j = 2 * n /\ by_call n t h | _ => exists its v, fst (scan t h) = (FApi (AAppStop p), its) :: v end
             else in_act i t h
    end.
  Definition Claim (h : trace) (t : tid) (e1 : eid) (m1 : mid) (e2 : eid) (m2 : mid) : Prop :=
    let j := List.length (accepted q h) in
    (f <> Again -> j < NS) /\ e1 = ELife (lev f j) /\ e2 = ELife (lev f j) /\ m1 = m /\ m2 = m /\ origin j t h.
  Definition Good (N : nat) : Prop := forall h t pr e1 m1 e2 m2, List.length h < N -> part (h ++ [(t, OOffer q pr e1 m1 e2 m2)]) -> Claim h t e1 m1 e2 m2.

  Lemma span_cmp t n a op b' its z d b r : span t (T n) a op b' its z d -> T n = (a ++ (t, op) :: b) ++ r ->
    (exists b2, b' = b ++ b2) \/ exists d', b = b' ++ (t, z) :: d'.
  Proof.
    intros (HT1 & _ & _) HT2. rewrite HT1 in HT2. rewrite <- app_assoc in HT2. apply app_inv_head in HT2. simpl in HT2. injection HT2 as HT2.
    apply app_eq_app in HT2. destruct HT2 as (l & [[L1 L2]|[L1 L2]]); [left; eauto|].
    destruct l as [|y l]; [|injection L2 as <- _; right; exists l; exact L1]. left. exists []. rewrite app_nil_r in *. symmetry. exact L1.
  Qed.

  Lemma same_take T0 a1 t1 pr1 c1 r1 a2 t2 pr2 c2 r2 : T0 = a1 ++ (t1, OTake q pr1 c1) :: r1 -> T0 = a2 ++ (t2, OTake q pr2 c2) :: r2 ->
    List.length (taken q a1) = List.length (taken q a2) -> a1 = a2 /\ pr1 = pr2.
  Proof.
    intros -> H2 HL'. apply app_eq_app in H2. destruct H2 as (l & [[L1 L2]|[L1 L2]]); destruct l as [|y l].
    - rewrite app_nil_r in L1. injection L2; intros; subst; auto.
    - injection L2 as <- L2. exfalso. rewrite L1, taken_app, taken_cons, app_length in HL'. simpl in HL'. lia.
    - rewrite app_nil_r in L1. simpl in L2. injection L2; intros; subst; auto.
    - injection L2 as <- L2. exfalso. rewrite L1, taken_app, taken_cons, app_length in HL'. simpl in HL'. lia.
  Qed.

  Lemma earlier_item t a op b its b4 its4 o4 h h4 r : h = a ++ (t, op) :: b -> fst (scan t b) = [(FRoot, its)] -> h4 = a ++ (t, op) :: b4 ->
    fst (scan t b4) = [(FRoot, its4)] -> h = h4 ++ (t, o4) :: r -> closes o4 = false -> exists j, its = its4 ++ o4 :: j.
  Proof.
    intros -> Hb1 -> Hb4 Heq Hc. rewrite <- app_assoc in Heq. apply app_inv_head in Heq. injection Heq as ->.
    exact (two_items t b4 o4 r its4 Hb4 [] its Hb1 Hc).
  Qed.
  Lemma may_started t k : may E t k (OStarted m) -> exists x, k = FApi x /\ starts E m x.
  Proof.
    intro Hm. destruct k as [|a|c|q' pr c]; simpl in Hm.
    - exfalso. destruct t; simpl in Hm; [dmay; discriminate|contradiction].
    - exists a. split; [reflexivity|]. destruct a; simpl in Hm |- *; try contradiction; dmay; try discriminate; congruence.
    - exfalso. assert (Ha : forall a e0 m0, mact E a e0 m0 (OStarted m) -> False).
      { intros a e0 m0 Ha. destruct a; simpl in Ha; dmay; try discriminate; auto. }
      destruct c; simpl in Hm; try (eapply Ha; exact Hm);
        try (destruct h; dmay; discriminate); try (destruct u; dmay; try discriminate; contradiction).
      + destruct l as [[n|n nm]|n]; dmay; discriminate.
      + dmay; discriminate.
    - exfalso. dmay; discriminate.
  Qed.

  Section Step.
  Context (N : nat) (HG : Good N).

  Lemma contents h : part h -> List.length h <= N ->
    map snd (accepted q h) = map cont (List.seq 0 (List.length (accepted q h))) /\ (f <> Again -> List.length (accepted q h) <= NS).
  Proof.
    induction h as [|[t o] h IH] using rev_ind; intros Hp Hl; [split; [reflexivity|simpl; lia]|].
    rewrite app_length in Hl. simpl in Hl. destruct IH as [I1 I2]; [eapply part_pre; eauto|lia|].
    assert (Hd : accepted q [(t, o)] = [] \/ exists pr e1 m1 e2 m2, o = OOffer q pr e1 m1 e2 m2).
    { destruct o; auto. unfold accepted. simpl. match goal with |- context [Nat.eqb ?a ?b] => destruct (Nat.eqb_spec a b) as [->|] end; eauto 10. }
    rewrite accepted_app. destruct Hd as [Hd|(pr & e1 & m1 & e2 & m2 & ->)]; [rewrite Hd, app_nil_r; auto|].
    destruct (HG h t pr e1 m1 e2 m2 ltac:(lia) Hp) as (C1 & C2 & C3 & C4 & C5 & _).
    assert (Ho : accepted q [(t, OOffer q pr e1 m1 e2 m2)] = [(pr, Some (e2, m2))]) by (unfold accepted; simpl; rewrite Nat.eqb_refl; reflexivity).
    rewrite Ho, app_length. simpl. split; [|intro Hfa; specialize (C1 Hfa); lia].
    rewrite map_app, I1, Nat.add_1_r, seq_S, map_app. simpl. rewrite C3, C5. reflexivity.
  Qed.
  Lemma fifo_part h : part h -> exists l, accepted q h = taken q h ++ l.
  Proof. intro Hp. destruct (part_reach _ Hp) as (w & Hr & <-). eexists. apply (fifo E w0 w q H0 Hr). Qed.
  Lemma taken_content a pr c : part (a ++ [(wkr, OTake q pr c)]) -> List.length a <= N ->
    c = cont (List.length (taken q a)) /\ List.length (taken q a) < List.length (accepted q a) /\ inplan f (List.length (taken q a)).
  Proof.
    intros Hp Hl. destruct (fifo_part _ Hp) as [l Hf]. rewrite accepted_app, taken_app, taken_one in Hf.
    change (accepted q [(wkr, OTake q pr c)]) with (@nil (pid * option (eid * mid))) in Hf. rewrite app_nil_r, <- app_assoc in Hf. simpl in Hf.
    destruct (contents a (part_pre _ _ Hp) Hl) as [C1 C2].
    assert (Hlt : List.length (taken q a) < List.length (accepted q a)) by (rewrite Hf, app_length; simpl; lia).
    split; [|split; [exact Hlt|apply upto_le; intro Hfa; specialize (C2 Hfa); unfold NS in C2; destruct (ap_exit _); lia]].
    assert (Hn : nth_error (map snd (accepted q a)) (List.length (taken q a)) = Some c).
    { rewrite Hf, map_app, nth_error_app2 by (rewrite map_length; lia). rewrite map_length, Nat.sub_diag. reflexivity. }
    rewrite C1, nth_error_map in Hn.
    rewrite (nth_error_nth' (List.seq 0 (List.length (accepted q a))) 0) in Hn by (rewrite seq_length; exact Hlt).
    rewrite seq_nth in Hn by exact Hlt. simpl in Hn. congruence.
  Qed.
  Lemma was_started h : part h -> List.length h <= N -> accepted q h <> [] -> exists t, In (t, OUnended m) h.
  Proof.
    intros Hp Hl Ha. destruct (offered_at q 0 h) as (a & t & pr & e1 & m1 & e2 & m2 & r & Hh & Hz); [destruct (accepted q h); [congruence|simpl; lia]|].
    assert (Hp' : part (a ++ [(t, OOffer q pr e1 m1 e2 m2)])) by (apply (part_pre _ r); rewrite <- app_assoc; simpl; rewrite <- Hh; exact Hp).
    destruct (HG a t pr e1 m1 e2 m2) as (_ & _ & _ & _ & _ & Ho); [rewrite Hh, app_length in Hl; simpl in Hl; lia|exact Hp'|].
    rewrite Hz in Ho. destruct Ho as ((its & v & Hs & _ & Hi) & _). exists t. rewrite Hh. apply in_or_app. left. eapply (its_in t a []); eauto.
  Qed.
  Lemma take_ready a pr c : part (a ++ [(wkr, OTake q pr c)]) -> List.length a <= N ->
    start_over m a /\ rests q wkr a.
  Proof.
    intros Hp Hl. destruct (taken_content _ _ _ Hp Hl) as (_ & Hlt & _). split.
    - left. apply was_started; [eapply part_pre; eauto|exact Hl|]. intro Hn. rewrite Hn in Hlt. simpl in Hlt. lia.
    - destruct (take_root _ _ _ Hp) as [i Hi]. eapply root_rests; eauto.
  Qed.
  (** the state after K events *)
  Lemma state_at n : forall h, List.length h <= n -> List.length h <= N -> part h -> rests q wkr h -> (exists t, In (t, OUnended m) h) ->
    mstate_at m h = (Some (lst E p f (List.length (taken q h))), past f (List.length (taken q h))).
  Proof.
    induction n as [|n IH]; intros h Hn Hl Hp Hre [t0 Hu]; [destruct h; [destruct Hu|simpl in Hn; lia]|].
    destruct (part_reach _ Hp) as (w & Hr & Hw). pose proof (part_quiet _ Hp) as HQ. rewrite <- Hw in HQ.
    assert (Hw' : tr (wm w) = h ++ []) by (rewrite app_nil_r; exact Hw).
    destruct (taken q h) eqn:Et.
    - destruct (unended_state E w0 p H0 Hb w Hr HQ h [] t0 Hw' Et Hu) as (t1 & st & Hi).
      destruct (early_state E w0 p H0 Hb w Hr HQ h [] Hw' Et) as (_ & E2 & E3). unfold mstate_at. rewrite E2, E3 by eauto. simpl. rewrite past_0. reflexivity.
    - rewrite <- Et. destruct (last_take h) as (a & t & pr & c & b & Hh & Hb0); [rewrite Et; discriminate|]. clear Et p0 l.
      assert (Hpt : part (a ++ [(t, OTake q pr c)])) by (apply (part_pre _ b); rewrite <- app_assoc; simpl; rewrite <- Hh; exact Hp).
      destruct (take_thread _ _ _ _ Hpt) as [-> _].
      assert (Hla : List.length a < List.length h) by (rewrite Hh, app_length; simpl; lia).
      destruct (taken_content _ _ _ Hpt) as (-> & Hlt & H5); [lia|]. destruct (take_ready _ _ _ Hpt) as [Ho Hra]; [lia|].
      set (K := List.length (taken q a)) in *.
      assert (HK : List.length (taken q h) = S K).
      { rewrite Hh, taken_app, app_length, taken_cons, Hb0. simpl. fold K. lia. }
      assert (Hua : exists t, In (t, OUnended m) a) by (apply was_started; [eapply part_pre; eauto|lia|intro X; rewrite X in Hlt; simpl in Hlt; lia]).
      pose proof (IH a ltac:(lia) ltac:(lia) (part_pre _ _ Hpt) Hra Hua) as Hst. fold K in Hst.
      rewrite (past_upto f K H5) in Hst.
      destruct (take_span a pr (cont K) h Hpt Hp) as (n' & b' & its & z & d & r & Hs & HT).
      assert (HT2 : T n' = (a ++ (wkr, OTake q pr (cont K)) :: b) ++ r) by (rewrite <- Hh; exact HT).
      destruct (take_life E w0 p H0 Hb (W n') (moment_reach E w0 s n') (quiet n') wkr a pr b' its z d K H5 Hs Ho Hst) as (Hz & Hst2 & _).
      (* closed within h *)
      assert (Hcl : exists d', b = b' ++ (wkr, z) :: d').
      { destruct Hs as (HT1 & Hcz & Hsc). rewrite HT1 in HT2. rewrite <- app_assoc in HT2. apply app_inv_head in HT2. simpl in HT2. injection HT2 as HT2.
        apply app_eq_app in HT2. destruct HT2 as (l & [[L1 L2]|[L1 L2]]).
        - exfalso. subst b'. destruct (root_kept_t wkr b l [] its Hsc) as (u1 & i1 & i2 & Hsb & _).
          apply (Hre pr (cont K) i1). unfold opened. rewrite Hh, (stack_at wkr a (OTake q pr (cont K)) b (FTake q pr (cont K)) u1 i1 eq_refl Hsb).
          apply in_or_app. right. left. reflexivity.
        - destruct l as [|y l]; [|injection L2 as <- _; exists l; exact L1]. exfalso. rewrite app_nil_r in L1. subst b'.
          apply (Hre pr (cont K) its). unfold opened. rewrite Hh, (stack_at wkr a (OTake q pr (cont K)) b (FTake q pr (cont K)) [] its eq_refl Hsc). left. reflexivity. }
      destruct Hcl as [d' Hd']. rewrite Hd' in Hb0. change ((wkr, z) :: d') with ([(wkr, z)] ++ d') in Hb0. rewrite !taken_app in Hb0.
      apply app_eq_nil in Hb0. destruct Hb0 as [_ Hb0]. apply app_eq_nil in Hb0. destruct Hb0 as [_ Hb0].
      set (h2 := a ++ (wkr, OTake q pr (cont K)) :: b' ++ [(wkr, z)]) in *.
      assert (Hh2 : h = h2 ++ d') by (unfold h2; rewrite Hh, Hd'; repeat (rewrite <- !app_assoc; simpl); reflexivity).
      destruct (take_root _ _ _ Hpt) as [ia Hia].
      destruct (after_span a (OTake q pr (cont K)) b' its z ia Hia) as [j Hj]; [eexists; reflexivity|apply Hs|apply Hs|]. fold h2 in Hj.
      assert (Hg : mstate_at m (h2 ++ d') = mstate_at m h2).
      { apply (gap E w0 p H0 Hb w Hr HQ h2 d' []); [rewrite app_nil_r, <- Hh2; exact Hw| |eapply root_rests; exact Hj|rewrite <- Hh2; exact Hre|exact Hb0].
        unfold h2. apply over_later. exact Ho. }
      rewrite HK, Hh2, Hg. change (mstate_at m h2 = (Some (lst E p f (S K)), isend f K)) in Hst2. rewrite past_S. exact Hst2.
  Qed.
  (** a take, and the whole processing of it *)
  Lemma take_all a pr c h : part (a ++ [(wkr, OTake q pr c)]) -> List.length a <= N -> part h ->
    let K := List.length (taken q a) in
    c = cont K /\ inplan f K /\ start_over m a /\ mstate_at m a = (Some (lst E p f K), false) /\
    exists n b its z d r, span wkr (T n) a (OTake q pr (cont K)) b its z d /\ T n = h ++ r.
  Proof.
    intros Hp Hl Hh K. destruct (taken_content _ _ _ Hp Hl) as (-> & Hlt & H5). destruct (take_ready _ _ _ Hp Hl) as [Ho Hra].
    split; [reflexivity|]. split; [exact H5|]. split; [exact Ho|]. split.
    - pose proof (state_at (List.length a) a (le_n _) Hl (part_pre _ _ Hp) Hra) as Hst. fold K in Hst.
      rewrite (past_upto f K H5) in Hst. apply Hst.
      apply was_started; [eapply part_pre; eauto|exact Hl|intro X; rewrite X in Hlt; simpl in Hlt; lia].
    - apply take_span; assumption.
  Qed.
  (** the state at any moment *)
  Lemma cur_known h : part h -> List.length h <= N ->
    (taken q h = [] /\ (cur_at m h = None \/ cur_at m h = Some (lst E p f 0))) \/
    exists k, cur_at m h = Some (lst E p f k) /\ k <= List.length (taken q h) <= S k.
  Proof.
    intros Hp Hl. destruct (part_reach _ Hp) as (w & Hr & Hw). pose proof (part_quiet _ Hp) as HQ. rewrite <- Hw in HQ.
    assert (Hw' : tr (wm w) = h ++ []) by (rewrite app_nil_r; exact Hw).
    destruct (taken q h) eqn:Et.
    - left. split; [reflexivity|]. exact (proj1 (early_state E w0 p H0 Hb w Hr HQ h [] Hw' Et)).
    - right. rewrite <- Et. destruct (last_take h) as (a & t & pr & c & b & Hh & Hb0); [rewrite Et; discriminate|]. clear Et p0 l.
      assert (Hpt : part (a ++ [(t, OTake q pr c)])) by (apply (part_pre _ b); rewrite <- app_assoc; simpl; rewrite <- Hh; exact Hp).
      destruct (take_thread _ _ _ _ Hpt) as [-> _].
      assert (Hla : List.length a < List.length h) by (rewrite Hh, app_length; simpl; lia).
      destruct (take_all a pr c h Hpt ltac:(lia) Hp) as (-> & H5 & Ho & Hst & n & b' & its & z & d & r & Hs & HT).
      set (K := List.length (taken q a)) in *.
      assert (HK : List.length (taken q h) = S K) by (rewrite Hh, taken_app, app_length, taken_cons, Hb0; simpl; fold K; lia).
      assert (HT2 : T n = (a ++ (wkr, OTake q pr (cont K)) :: b) ++ r) by (rewrite <- Hh; exact HT).
      destruct (span_cmp _ _ _ _ _ _ _ _ _ _ Hs HT2) as [[b2 Hb2]|[d' Hd']].
      + destruct (take_cur E w0 p H0 Hb (W n) (moment_reach E w0 s n) (quiet n) wkr a pr b' its z d K H5 Hs Ho Hst h) as [Hc|Hc];
          [exists b, b2; auto|exists K|exists (S K)]; (split; [exact Hc|lia]).
      + exists (S K). assert (Hre : rests q wkr h).
        { destruct (take_root _ _ _ Hpt) as [ia Hia].
          destruct (after_span a (OTake q pr (cont K)) b' its z ia Hia) as [j Hj]; [eexists; reflexivity|apply Hs|apply Hs|].
          replace h with ((a ++ (wkr, OTake q pr (cont K)) :: b' ++ [(wkr, z)]) ++ d') by (rewrite Hh, Hd'; repeat (rewrite <- !app_assoc; simpl); reflexivity).
          apply rests_on; [eapply root_rests; exact Hj|]. rewrite Hd' in Hb0. change ((wkr, z) :: d') with ([(wkr, z)] ++ d') in Hb0. rewrite !taken_app in Hb0.
          apply app_eq_nil in Hb0. destruct Hb0 as [_ Hb0]. apply app_eq_nil in Hb0. apply Hb0. }
        destruct (taken_content _ _ _ Hpt) as (_ & Hlt & _); [lia|].
        destruct (was_started a) as [t0 Hu]; [eapply part_pre; eauto|lia|intro X; rewrite X in Hlt; simpl in Hlt; lia|].
        assert (Hst2 : mstate_at m h = (Some (lst E p f (S K)), past f (S K))).
        { rewrite <- HK. apply (state_at (List.length h)); auto. exists t0. rewrite Hh. apply in_or_app. auto. }
        injection Hst2 as Hc _. split; [exact Hc|lia].
  Qed.
  Lemma named_started h : f <> Again -> part h -> List.length h <= N -> is_name E (cur_at m h) "STARTED" = true -> f <> NoStart /\ 2 <= List.length (taken q h) <= 3.
  Proof.
    intros Hfa Hp Hl Hc. destruct (cur_known h Hp Hl) as [[_ [H|H]]|(k & H & Hlen)]; rewrite H in Hc; try discriminate.
    - rewrite lst_0 in Hc. discriminate.
    - apply named_2 in Hc; [|exact Hfa]. destruct Hc as [Hf ->]. split; [exact Hf|lia].
  Qed.
  Lemma named_stopped h : f <> Again -> part h -> List.length h <= N -> is_name E (cur_at m h) "STOPPED" = true -> lastk f <= List.length (taken q h).
  Proof.
    intros Hfa Hp Hl Hc. destruct (cur_known h Hp Hl) as [[_ [H|H]]|(k & H & Hlen)]; rewrite H in Hc; try discriminate.
    - rewrite lst_0 in Hc. discriminate.
    - apply named_4 in Hc; [|exact Hfa]. lia.
  Qed.
  Lemma stop_named h c : f <> Again -> part h -> List.length h <= N -> cur_at m h = c ->
    (is_name E c "STARTED" = true \/ (ap_exit (apps E p) = false /\ is_name E c "STOPPED" = true)) ->
    (f <> NoStart /\ 2 <= List.length (taken q h) /\ (List.length (taken q h) <= 3 \/ ap_exit (apps E p) = false)) \/ (f = NoStart /\ ap_exit (apps E p) = false).
  Proof.
    intros Hfa Hp Hl <- [Hc|[He Hc]]; [apply named_started in Hc; auto; left; destruct Hc; split; [assumption|lia]|]. apply named_stopped in Hc; auto.
    assert (Hd : f = NoStart \/ f <> NoStart) by (clear; destruct f; [right|left|right|right]; congruence).
    destruct Hd as [Hf|Hf]; [right; auto|]. left. rewrite (last_4 f Hf) in Hc. split; [exact Hf|]. split; [lia|auto].
  Qed.
  (** ** The actions of the app service run while its events are processed *)
  Lemma act_take0 h t c its v a' e m' : part h -> List.length h <= N -> fst (scan t h) = (FCall c, its) :: v -> performs c a' e m' -> mentions p a' ->
    m' = m /\ t = wkr /\ exists a pr b1 u i0, let K := List.length (taken q a) in
      h = a ++ (wkr, OTake q pr (cont K)) :: b1 /\ fst (scan wkr b1) = u ++ [(FRoot, i0)] /\ e = ELife (lev f K) /\ part (a ++ [(wkr, OTake q pr (cont K))]) /\
      List.length a < List.length h.
  Proof.
    intros Hp Hl Hs Hpf Hm. destruct (part_reach _ Hp) as (w & Hr & Hw). pose proof (part_quiet _ Hp) as HQ. rewrite <- Hw in HQ.
    assert (Hw' : tr (wm w) = h ++ []) by (rewrite app_nil_r; exact Hw).
    destruct (act_in_take E w0 p H0 Hb w Hr HQ t h [] c its v a' e m' Hw' Hs Hpf Hm) as (-> & -> & pr & en & ac & st & h0 & b0 & b1 & u & i0 & i1 & Hh & Hb0 & Hb1 & _).
    split; [reflexivity|]. split; [reflexivity|].
    assert (Hpt : part (h0 ++ [(wkr, OTake q pr (Some (e, m)))])).
    { eapply (part_pre _ (b0 ++ (wkr, OCall (KAct en ac st e m)) :: b1)). rewrite <- app_assoc. simpl. rewrite <- Hh. exact Hp. }
    assert (Hlt : List.length h0 < List.length h) by (rewrite Hh, app_length; simpl; lia).
    destruct (taken_content _ _ _ Hpt) as (Hc & _); [lia|]. injection Hc as ->.
    exists h0, pr, (b0 ++ (wkr, OCall (KAct en ac st (ELife (lev f (List.length (taken q h0)))) m)) :: b1), (u ++ [(FCall (KAct en ac st (ELife (lev f (List.length (taken q h0)))) m), i0)]),
      (i1 ++ [OCall (KAct en ac st (ELife (lev f (List.length (taken q h0)))) m)]).
    split; [exact Hh|]. split; [|split; [reflexivity|split; [exact Hpt|exact Hlt]]].
    rewrite (stack_at wkr b0 (OCall (KAct en ac st (ELife (lev f (List.length (taken q h0)))) m)) b1 _ u i0 eq_refl Hb1), Hb0, <- app_assoc. reflexivity.
  Qed.
  Lemma act_take h t c its v e m' : part h -> List.length h <= N -> fst (scan t h) = (FCall c, its) :: v -> ours p c e m' ->
    m' = m /\ t = wkr /\ exists a pr b1 u i0, let K := List.length (taken q a) in
      h = a ++ (wkr, OTake q pr (cont K)) :: b1 /\ fst (scan wkr b1) = u ++ [(FRoot, i0)] /\ e = ELife (lev f K) /\ part (a ++ [(wkr, OTake q pr (cont K))]) /\
      List.length a < List.length h.
  Proof.
    intros Hp Hl Hs [(a' & Hpf & Hm)|(y & ->)]; [eapply act_take0; eauto|].
    destruct (top_bracket _ _ _ _ _ Hs ltac:(discriminate)) as (a0 & op & b0 & Hh & Hop & Hb0 & _).
    destruct op; try discriminate. injection Hop as ->.
    destruct (part_reach _ Hp) as (w & Hr & Hw). rewrite Hh in Hw. destruct (placed_at E w0 w H0 Hr _ _ _ _ Hw eq_refl) as (k & its1 & u1 & Hs1 & Hm).
    apply may_handler in Hm. destruct Hm as (c & a' & -> & Hpf).
    assert (Hp0 : part a0) by (eapply part_pre; rewrite <- Hh; exact Hp). assert (Hl0 : List.length a0 < List.length h) by (rewrite Hh, app_length; simpl; lia).
    destruct (act_take0 a0 t c its1 u1 _ e m' Hp0 ltac:(lia) Hs1 Hpf) as (-> & -> & a & pr & b1 & u & i0 & Ha0 & Hb1 & He & Hpt & Hla); [right; reflexivity|].
    split; [reflexivity|]. split; [reflexivity|].
    exists a, pr, (b1 ++ (wkr, OCall (KHandler (HApp p) e m y)) :: b0).
    destruct u as [|[k1 j1] u].
    - exists ([(FCall (KHandler (HApp p) e m y), its)]), (i0 ++ [OCall (KHandler (HApp p) e m y)]).
      split; [rewrite Hh, Ha0; repeat (rewrite <- !app_assoc; simpl); reflexivity|]. split; [|split; [exact He|split; [exact Hpt|lia]]].
      rewrite (stack_at wkr b1 (OCall (KHandler (HApp p) e m y)) b0 (FCall (KHandler (HApp p) e m y)) [] its eq_refl Hb0), Hb1. reflexivity.
    - exists ((FCall (KHandler (HApp p) e m y), its) :: (k1, j1 ++ [OCall (KHandler (HApp p) e m y)]) :: u), i0.
      split; [rewrite Hh, Ha0; repeat (rewrite <- !app_assoc; simpl); reflexivity|]. split; [|split; [exact He|split; [exact Hpt|lia]]].
      rewrite (stack_at wkr b1 (OCall (KHandler (HApp p) e m y)) b0 (FCall (KHandler (HApp p) e m y)) [] its eq_refl Hb0), Hb1. reflexivity.
  Qed.
  Lemma act_unique i t h pr1 e1 m1 e2 m2 t' h' pr1' e1' m1' e2' m2' :
    part (h ++ [(t, OOffer q pr1 e1 m1 e2 m2)]) -> part (h' ++ [(t', OOffer q pr1' e1' m1' e2' m2')]) -> List.length h <= N -> List.length h' <= N ->
    in_act i t h -> in_act i t' h' ->
    h = h' /\ sends E p f i /\ e1 = ELife (lev f (S i)) /\ m1 = m /\ e2 = ELife (lev f (S i)) /\ m2 = m.
  Proof.
    intros P1 P2 L1 L2 (-> & a & pr & b1 & u & i0 & c & its & v & e & mm & -> & Ha & Hb1 & Hs & Hpf)
      (-> & a' & pr' & b1' & u' & i0' & c' & its' & v' & e' & mm' & -> & Ha' & Hb1' & Hs' & Hpf').
    destruct (part_both _ _ P1 P2) as (n & r1 & r2 & E1 & E2).
    assert (X1 : T n = a ++ (wkr, OTake q pr (cont i)) :: b1 ++ (wkr, OOffer q pr1 e1 m1 e2 m2) :: r1) by (rewrite E1; repeat (rewrite <- !app_assoc; simpl); reflexivity).
    assert (X2 : T n = a' ++ (wkr, OTake q pr' (cont i)) :: b1' ++ (wkr, OOffer q pr1' e1' m1' e2' m2') :: r2) by (rewrite E2; repeat (rewrite <- !app_assoc; simpl); reflexivity).
    destruct (same_take _ _ _ _ _ _ _ _ _ _ _ X1 X2 (eq_trans Ha (eq_sym Ha'))) as [<- <-].
    assert (Hpt : part (a ++ [(wkr, OTake q pr (cont i))])) by (exists n; eexists; rewrite <- app_assoc; exact X1).
    assert (HLa : List.length a <= N) by (rewrite app_length in L1; lia).
    destruct (take_all a pr (cont i) (T n) Hpt HLa) as (_ & H5 & Ho & Hst & n' & b & itsb & z & d & r & Hsp & HT); [exists n, []; rewrite app_nil_r; reflexivity|].
    rewrite Ha in *.
    destruct (take_offers E w0 p H0 Hb (W n') (moment_reach E w0 s n') (quiet n') wkr a pr b itsb z d i H5 Hsp Ho Hst) as (X0 & _ & HX).
    assert (Hin : forall bb uu ii pp f1 g1 f2 g2 rr, T n = a ++ (wkr, OTake q pr (cont i)) :: bb ++ (wkr, OOffer q pp f1 g1 f2 g2) :: rr -> fst (scan wkr bb) = uu ++ [(FRoot, ii)] ->
      exists b2, b = bb ++ (wkr, OOffer q pp f1 g1 f2 g2) :: b2).
    { intros bb uu ii pp f1 g1 f2 g2 rr Hx Hsc.
      destruct (inside_prefix wkr (T n') a _ b itsb z d bb ((wkr, OOffer q pp f1 g1 f2 g2) :: rr ++ r) uu ii Hsp) as (b2 & -> & Hr2); [rewrite HT, Hx; repeat (rewrite <- !app_assoc; simpl); reflexivity|exact Hsc|].
      destruct b2 as [|y b2]; [|injection Hr2 as <- _; eauto]. injection Hr2 as <- _. destruct Hsp as (_ & Hz & _). discriminate. }
    destruct (Hin _ _ _ _ _ _ _ _ _ X1 Hb1) as [b2 B2]. destruct (Hin _ _ _ _ _ _ _ _ _ X2 Hb1') as [b2' B2'].
    destruct (HX _ _ _ _ _ _ _ _ _ _ _ _ _ B2 Hs Hpf) as (S1 & -> & S2). destruct (HX _ _ _ _ _ _ _ _ _ _ _ _ _ B2' Hs' Hpf') as (_ & -> & _).
    split; [reflexivity|]. split; [exact S1|exact S2].
  Qed.
  (** the latch is released while the last event but one is processed *)
  Lemma latch_taken h t : part h -> List.length h <= N -> In (t, OWr (WrLatch p)) h -> lastk f <= List.length (taken q h) /\ ap_exit (apps E p) = true.
  Proof.
    intros Hp Hl Hi. apply in_split in Hi. destruct Hi as (a0 & b0 & Hh).
    destruct (part_reach _ Hp) as (w & Hr & Hw). rewrite Hh in Hw. destruct (placed_at E w0 w H0 Hr _ _ _ _ Hw eq_refl) as (k & its1 & u1 & Hs1 & Hm).
    apply may_latch in Hm. destruct Hm as (c & e & m' & -> & Hpf).
    assert (Hp0 : part a0) by (eapply part_pre; rewrite <- Hh; exact Hp). assert (Hl0 : List.length a0 < List.length h) by (rewrite Hh, app_length; simpl; lia).
    destruct (act_take0 a0 t c its1 u1 _ e m' Hp0 ltac:(lia) Hs1 Hpf) as (-> & -> & a & pr & b1 & u & i0 & Ha0 & Hb1 & -> & Hpt & Hla); [reflexivity|].
    destruct (take_all a pr _ h Hpt ltac:(lia) Hp) as (_ & H5 & Ho & Hst & n' & b & itsb & z & d & r & Hsp & HT).
    destruct (inside_prefix wkr (T n') a _ b itsb z d b1 ((wkr, OWr (WrLatch p)) :: b0 ++ r) u i0 Hsp) as (b2 & Hbb & Hr2).
    { rewrite HT, Hh. rewrite <- Ha0. repeat (rewrite <- !app_assoc; simpl). reflexivity. }
    { exact Hb1. }
    destruct b2 as [|y2 b2]; injection Hr2; [intros _ <-; destruct Hsp as (_ & Hz & _); discriminate|intros _ <-].
    destruct (take_latch E w0 p H0 Hb (W n') (moment_reach E w0 s n') (quiet n') wkr a pr b itsb z d _ H5 Hsp Ho Hst _ _ _ Hbb) as [K3 He].
    split; [|exact He]. assert (Hfa : f <> Again) by (intro Hfa; pose proof (aq_stop _ _ _ _ (part_quiet _ Hp)) as Hpl; unfold stop_plan in Hpl; rewrite Hfa in Hpl; congruence).
    apply (tostop_last f _ Hfa) in K3. rewrite Hh, Ha0, taken_app, taken_app, taken_cons, !app_length. simpl. lia.
  Qed.
  (** *** calls in turn *)
  Lemma started_late h0 : f = Again -> part h0 -> List.length h0 <= N -> is_name E (cur_at m h0) "STARTED" = true -> exists c, 4 * c + 2 <= List.length (taken q h0) <= 4 * c + 3.
  Proof.
    intros Hfa Hp0 Hl0 Hc. destruct (cur_known h0 Hp0 Hl0) as [[_ [H|H]]|(k & H & Hlen)]; rewrite H in Hc; try discriminate.
    - rewrite lst_0 in Hc. discriminate.
    - rewrite Hfa in Hc. apply again_2 in Hc. destruct Hc as [c ->]. exists c. lia.
  Qed.
  Lemma stopped_late h0 : f = Again -> part h0 -> List.length h0 <= N -> is_name E (cur_at m h0) "STOPPED" = true -> exists c, 4 * c + 4 <= List.length (taken q h0) <= 4 * c + 5.
  Proof.
    intros Hfa Hp0 Hl0 Hc. destruct (cur_known h0 Hp0 Hl0) as [[_ [H|H]]|(k & H & Hlen)]; rewrite H in Hc; try discriminate.
    - rewrite lst_0 in Hc. discriminate.
    - rewrite Hfa in Hc. apply again_4 in Hc. destruct Hc as [c ->]. exists c. lia.
  Qed.
  Lemma offered_part h0 k : part h0 -> List.length h0 <= N -> k < List.length (accepted q h0) -> exists a t4 pr4 f1 g1 f2 g2 r,
    h0 = a ++ (t4, OOffer q pr4 f1 g1 f2 g2) :: r /\ origin k t4 a.
  Proof.
    intros Hp0 Hl0 Hk. destruct (offered_at q k h0 Hk) as (a & t4 & pr4 & f1 & g1 & f2 & g2 & r & Hh & Hz).
    assert (Hlt : List.length a < List.length h0) by (rewrite Hh, app_length; simpl; lia).
    assert (Hpa : part (a ++ [(t4, OOffer q pr4 f1 g1 f2 g2)])) by (apply (part_pre _ r); rewrite <- app_assoc; simpl; rewrite <- Hh; exact Hp0).
    destruct (HG a t4 pr4 f1 g1 f2 g2 ltac:(lia) Hpa) as (_ & _ & _ & _ & _ & Ho). rewrite Hz in Ho. eauto 12.
  Qed.
  Lemma even_call n t4 a4 : f = Again -> origin (2 * n) t4 a4 -> by_call n t4 a4.
  Proof.
    intros Hfa Ho. destruct n as [|n]; [apply (proj2 Ho Hfa)|]. replace (2 * S n) with (S (2 * n + 1)) in Ho by lia. cbn [origin] in Ho.
    assert (Hst : stays f (2 * n + 1) = true).
    { rewrite Hfa. clear. unfold stays. induction n as [n IH] using lt_wf_ind. destruct n as [|[|n]]; [reflexivity|reflexivity|].
      replace (2 * S (S n) + 1) with (S (S (S (S (2 * n + 1))))) by lia. apply IH. lia. }
    rewrite Hst in Ho. assert (Hx : exists n0, S (2 * n + 1) = 2 * n0 /\ by_call n0 t4 a4) by (clear - Hfa Ho; revert Ho; rewrite Hfa; auto).
    destruct Hx as (n0 & Hn & Hx). replace (S n) with n0 by lia. exact Hx.
  Qed.
  (** no more than two events for a call *)
  Lemma calls_bound h0 : f = Again -> part h0 -> List.length h0 <= N -> List.length (accepted q h0) <= 2 * asked (asks_p p) h0.
  Proof.
    intros Hfa Hp0 Hl0. destruct (Nat.le_gt_cases (List.length (accepted q h0)) (2 * asked (asks_p p) h0)) as [Hle|Hgt]; [exact Hle|exfalso].
    destruct (offered_part h0 _ Hp0 Hl0 Hgt) as (a4 & t4 & pr4 & f1 & g1 & f2 & g2 & r & Hh & Ho).
    apply (even_call _ _ _ Hfa) in Ho. destruct Ho as (a5 & x & b5 & its5 & Ha & _ & Hn & Hx).
    rewrite Hh, Ha, !asked_app, asked_cons in Hn. cbn [snd] in Hn. rewrite Hx in Hn. lia.
  Qed.
  (** when one is made, the events of those before it have been taken *)
  Lemma calls_seen n : forall a0 t0 o0, f = Again -> asked (asks_p p) a0 = n -> 0 < n -> asks_p p o0 = true -> part (a0 ++ [(t0, o0)]) -> List.length a0 <= N ->
    exists k b c, a0 = b ++ c /\ cur_at m b = Some (SApp p k) /\ 2 * n <= List.length (taken q b) /\ ((k = STOPPED /\ Nat.Even n) \/ (k = STARTED /\ Nat.Odd n)).
  Proof.
    induction n as [|n IH]; intros a0 t0 o0 Hfa Ha Hn Ho Hp0 Hl0; [lia|].
    pose proof (aq_start _ _ _ _ (part_quiet _ Hp0)) as Hpl. unfold start_plan in Hpl. rewrite Hfa in Hpl. destruct (Hpl _ _ _ _ eq_refl) as [P1 P2].
    assert (Hex : exists k b c, a0 = b ++ c /\ asked (asks_p p) c = 0 /\ cur_at m b = Some (SApp p k) /\ ((k = STOPPED /\ Nat.Even (S n)) \/ (k = STARTED /\ Nat.Odd (S n)))).
    { unfold asks_p in Ho. apply orb_prop in Ho. destruct Ho as [Ho|Ho].
      - destruct (P1 Ho) as [Hz|(Hev & b & c & Hbc)]; [lia|]. rewrite Ha in Hev. exists STOPPED, b, c. tauto.
      - destruct (P2 Ho) as (Hev & b & c & Hbc). rewrite Ha in Hev. exists STARTED, b, c. tauto. }
    destruct Hex as (k & b & c & Hbc & Hc & Hcur & Hk). exists k, b, c. split; [exact Hbc|]. split; [exact Hcur|]. split; [|exact Hk].
    assert (Hpb : part b) by (apply (part_pre b (c ++ [(t0, o0)])); rewrite app_assoc, <- Hbc; exact Hp0).
    assert (Hlb : List.length b <= N) by (rewrite Hbc, app_length in Hl0; lia).
    rewrite Hbc, asked_app, Hc, Nat.add_0_r in Ha. destruct (last_asked (asks_p p) b) as (a' & t' & o' & r & Hb' & Ho' & Hr'); [lia|].
    assert (Ha' : asked (asks_p p) a' = n) by (rewrite Hb', asked_app, asked_cons, Hr' in Ha; cbn [snd] in Ha; rewrite Ho' in Ha; lia).
    assert (HK : 2 * n <= List.length (taken q b)).
    { destruct (Nat.eq_dec n 0) as [->|Hn0]; [lia|].
      destruct (IH a' t' o' Hfa Ha') as (_ & b' & c' & Hx & _ & HK & _); [lia|exact Ho'|apply (part_pre _ r); rewrite <- app_assoc; simpl; rewrite <- Hb'; exact Hpb| |].
      - rewrite Hb', app_length in Hlb. lia.
      - rewrite Hb', Hx, !taken_app, !app_length. lia. }
    destruct Hk as [[-> [e He]]|[-> [e He]]].
    - destruct (stopped_late b Hfa Hpb Hlb) as [c0 Hc0]; [rewrite Hcur; reflexivity|]. lia.
    - destruct (started_late b Hfa Hpb Hlb) as [c0 Hc0]; [rewrite Hcur; reflexivity|]. lia.
  Qed.
  Lemma calls_done n a0 t0 o0 : f = Again -> asked (asks_p p) a0 = n -> 0 < n -> asks_p p o0 = true -> part (a0 ++ [(t0, o0)]) -> List.length a0 <= N ->
    2 * n <= List.length (taken q a0).
  Proof.
    intros Hfa Ha Hn Ho Hp0 Hl0. destruct (calls_seen n a0 t0 o0 Hfa Ha Hn Ho Hp0 Hl0) as (_ & b & c & -> & _ & H & _). rewrite taken_app, app_length. lia.
  Qed.
  (** the number of the event a call offers *)
  Lemma call_index h t : part h -> List.length h <= N -> f = Again -> forall a x b its, h = a ++ (t, OInv x) :: b -> fst (scan t b) = [(FRoot, its)] -> asks_p p (OInv x) = true ->
    2 * asked (asks_p p) a <= List.length (accepted q h) /\ (AppLive4.no_offer its -> List.length (accepted q h) = 2 * asked (asks_p p) a).
  Proof.
    intros Hph Hl Hfa a x b its Hh Hsb Hx.
    assert (Hpa : part (a ++ [(t, OInv x)])) by (apply (part_pre _ b); rewrite <- app_assoc; simpl; rewrite <- Hh; exact Hph).
    assert (Hla : List.length a <= N) by (rewrite Hh, app_length in Hl; lia).
    assert (Hge : 2 * asked (asks_p p) a <= List.length (accepted q h)).
    { destruct (Nat.eq_dec (asked (asks_p p) a) 0) as [->|Hn0]; [lia|].
      pose proof (calls_done _ a t (OInv x) Hfa eq_refl ltac:(lia) Hx Hpa Hla) as Hk.
      destruct (fifo_part _ (part_pre _ _ Hpa)) as [l Hf]. rewrite Hh, accepted_app, Hf, !app_length. lia. }
    split; [exact Hge|]. intro Hno. destruct (Nat.eq_dec (List.length (accepted q h)) (2 * asked (asks_p p) a)) as [|Hne]; [assumption|exfalso].
    destruct (offered_part h (2 * asked (asks_p p) a) Hph Hl ltac:(lia)) as (a4 & t4 & pr4 & f1 & g1 & f2 & g2 & r4 & Hh4 & Ho4).
    apply (even_call _ _ _ Hfa) in Ho4. destruct Ho4 as (a5 & x5 & b5 & its5 & Ha5 & Hsb5 & Hn5 & Hx5).
    assert (X2 : h = a5 ++ (t4, OInv x5) :: b5 ++ (t4, OOffer q pr4 f1 g1 f2 g2) :: r4) by (rewrite Hh4, Ha5; repeat (rewrite <- !app_assoc; simpl); reflexivity).
    destruct (same_call _ _ _ _ _ _ _ _ _ _ Hh X2 Hx Hx5 (eq_sym Hn5)) as (<- & <- & [= <-]).
    destruct (earlier_item _ _ _ _ _ _ _ _ _ _ _ Hh Hsb Ha5 Hsb5 Hh4 eq_refl) as (jj & Hjj).
    rewrite Forall_forall in Hno. specialize (Hno (OOffer q pr4 f1 g1 f2 g2)). rewrite Hjj in Hno.
    specialize (Hno ltac:(apply in_or_app; right; left; reflexivity)). discriminate.
  Qed.
  (** ** Who offers what *)
  Section Offer.
  Context (h : trace) (t : tid) (pr : pid) (e1 : eid) (m1 : mid) (e2 : eid) (m2 : mid) (w : world).
  Notation off := (OOffer q pr e1 m1 e2 m2).
  Context (Hl : List.length h <= N) (Hp : part (h ++ [(t, off)])) (Hr : reach E w0 w) (Hw : tr (wm w) = h ++ [(t, off)]).
  Lemma HQw : app_quiet E p f (tr (wm w)). Proof. rewrite Hw. apply part_quiet. exact Hp. Qed.
  Lemma no_pay_read its v k l y : fst (scan t h) = (k, its) :: v -> ~ In (R (RdPay (ELife l) (Some y))) its.
  Proof.
    intros Hs Hi. destruct (read_in E w0 H0 w Hr _ _ (frame_in w _ _ _ _ _ _ _ Hw Hs Hi)) as (h2 & rest & HT2 & Hx). simpl in Hx.
    pose proof HQw as HQ. rewrite (pay_fixed E w0 p H0 Hb w Hr HQ h2 _ l HT2) in Hx. discriminate.
  Qed.
  Lemma part_h : part h. Proof. eapply part_pre; eauto. Qed.
  Lemma offered_before k : k < List.length (accepted q h) -> exists a t4 pr4 f1 g1 f2 g2 r, h = a ++ (t4, OOffer q pr4 f1 g1 f2 g2) :: r /\
    List.length (accepted q a) = k /\ origin k t4 a /\ List.length a < List.length h /\ part (a ++ [(t4, OOffer q pr4 f1 g1 f2 g2)]).
  Proof.
    intro Hk. destruct (offered_at q k h Hk) as (a & t4 & pr4 & f1 & g1 & f2 & g2 & r & Hh & Hz).
    assert (Hlt : List.length a < List.length h) by (rewrite Hh, app_length; simpl; lia).
    assert (Hpa : part (a ++ [(t4, OOffer q pr4 f1 g1 f2 g2)])) by (apply (part_pre _ r); rewrite <- app_assoc; simpl; rewrite <- Hh; exact part_h).
    destruct (HG a t4 pr4 f1 g1 f2 g2 ltac:(lia) Hpa) as (_ & _ & _ & _ & _ & Ho). rewrite Hz in Ho.
    exists a, t4, pr4, f1, g1, f2, g2, r. auto.
  Qed.
  Lemma moment_in its u op i1 x i2 : forall a b, h = a ++ (t, op) :: b -> fst (scan t b) = u ++ [(FRoot, its)] -> its = i1 ++ x :: i2 -> closes x = false ->
    exists c d, b = c ++ (t, x) :: d /\ fst (scan t c) = [(FRoot, i1)] /\ tr (wm w) = (a ++ (t, op) :: c) ++ (t, x) :: d ++ [(t, off)] /\
      part (a ++ (t, op) :: c) /\ List.length (a ++ (t, op) :: c) <= N /\ h = (a ++ (t, op) :: c) ++ (t, x) :: d.
  Proof.
    intros a b Hh Hsb Hi Hx. destruct (item_inv t b u i1 x i2) as (c & d & -> & Hc); [rewrite Hsb, Hi; reflexivity|exact Hx|].
    exists c, d. split; [reflexivity|]. split; [exact Hc|].
    assert (Hh' : h = (a ++ (t, op) :: c) ++ (t, x) :: d) by (rewrite Hh, <- app_assoc; reflexivity).
    split; [rewrite Hw, Hh', <- app_assoc; reflexivity|]. split; [eapply part_pre; rewrite <- Hh'; exact part_h|]. split; [|exact Hh'].
    rewrite Hh', app_length in Hl. simpl in Hl. lia.
  Qed.

  Lemma call_claim : f = Again -> forall n l, lev f (2 * n) = l -> 0 < n -> List.length (accepted q h) = 2 * n -> e1 = ELife l -> e2 = ELife l -> m1 = m -> m2 = m -> by_call n t h ->
    Claim h t e1 m1 e2 m2.
  Proof.
    intros Hfa n l Hlev Hn HJ -> -> -> -> Hbc. unfold Claim. rewrite HJ, Hlev. split; [congruence|]. repeat split.
    destruct n as [|n]; [lia|]. replace (2 * S n) with (S (2 * n + 1)) by lia. cbn [origin].
    assert (Hst : stays f (2 * n + 1) = true).
    { rewrite Hfa. clear. unfold stays. induction n as [n IH] using lt_wf_ind. destruct n as [|[|n]]; [reflexivity|reflexivity|].
      replace (2 * S (S n) + 1) with (S (S (S (S (2 * n + 1))))) by lia. apply IH. lia. }
    rewrite Hst. clear - Hfa Hbc. assert (Hx : exists n0, S (2 * n + 1) = 2 * n0 /\ by_call n0 t h) by (exists (S n); split; [lia|exact Hbc]).
    revert Hx. rewrite Hfa. auto.
  Qed.
  Lemma stop_origin : f <> Again -> forall i t4 a4, stays f i = true -> origin (S i) t4 a4 <-> exists its v, fst (scan t4 a4) = (FApi (AAppStop p), its) :: v.
  Proof. intros Hfa i t4 a4 Hst. cbn [origin]. rewrite Hst. clear - Hfa. revert Hfa. case f; intro; try tauto. Qed.

  Lemma offer_start its v : fst (scan t h) = (FApi (AAppStart p), its) :: v -> Claim h t e1 m1 e2 m2.
  Proof.
    intro Hs. pose proof HQw as HQ. destruct (app_frame E w0 p H0 w Hr _ _ _ _ _ _ Hw Hs eq_refl) as (y & ext & Hlang).
    destruct (top_bracket _ _ _ _ _ Hs ltac:(discriminate)) as (a & op & b & Hh & Hop & Hsb & _). destruct op; try discriminate. injection Hop as ->.
    destruct (app_start_offer _ _ _ _ _ _ _ Hlang eq_refl eq_refl (ab_keep _ _ _ Hb)) as [(pr' & e' & Hst & Hun & Hno & Heq & Hpay)|[(He & c & j & Hj & Hc & Hno & pr' & e' & Heq & Hpay)|(bb & i1 & i2 & c & i3 & Hj & Hc)]].
    - injection Heq as Q1 Q2 Q3 Q4 Q5.
      assert (Q6 : e' = ELife LStart) by (destruct Hpay as [->|[y' Hy]]; [reflexivity|destruct (no_pay_read _ _ _ _ _ Hs Hy)]).
      assert (Hz : List.length (accepted q h) = 0).
      { destruct (Nat.eq_dec (List.length (accepted q h)) 0) as [|Hne]; [assumption|exfalso].
        destruct (offered_before 0 ltac:(lia)) as (a4 & t4 & pr4 & f1 & g1 & f2 & g2 & r4 & Hh4 & _ & ((its4 & v4 & Hs4 & Hst4 & _) & _) & _ & _).
        destruct (top_bracket _ _ _ _ _ Hs4 ltac:(discriminate)) as (a5 & op5 & b5 & Ha5 & Hop5 & Hsb5 & _).
        apply in_split in Hst. destruct Hst as (k1 & k2 & ->). apply in_split in Hst4. destruct Hst4 as (l1 & l2 & ->).
        assert (X1 : tr (wm w) = a ++ (t, OInv (AAppStart p)) :: b ++ [(t, off)]) by (rewrite Hw, Hh, <- app_assoc; reflexivity).
        assert (X2 : tr (wm w) = a5 ++ (t4, op5) :: b5 ++ (t4, OOffer q pr4 f1 g1 f2 g2) :: r4 ++ [(t, off)])
          by (rewrite Hw, Hh4, Ha5; repeat (rewrite <- !app_assoc; simpl); reflexivity).
        destruct (starter_unique E w0 w H0 Hr m _ _ _ _ _ _ _ _ _ _ _ _ _ _ _ _ X1 eq_refl Hsb X2 Hop5 Hsb5) as (<- & <- & <-).
        destruct (earlier_item _ _ _ _ _ _ _ _ _ _ _ Hh Hsb Ha5 Hsb5 Hh4 eq_refl) as (jj & Hjj).
        rewrite Forall_forall in Hno. specialize (Hno (OOffer q pr4 f1 g1 f2 g2)). rewrite Hjj in Hno. specialize (Hno ltac:(apply in_or_app; right; left; reflexivity)). discriminate. }
      assert (Hlev : lev f 0 = LStart) by (clear; destruct f; reflexivity). pose proof (last_ge f) as Hge2.
      unfold Claim. rewrite Hz, Hlev. split; [intros _; unfold NS; destruct (ap_exit _); lia|]. repeat split; try (simpl; congruence); [simpl; eauto 8|].
      intro Hfa. destruct (call_index h t part_h Hl Hfa a (AAppStart p) b its Hh Hsb (asks_start p)) as (Hi1 & _).
      exists a, (AAppStart p), b, its. split; [exact Hh|]. split; [exact Hsb|]. split; [lia|]. apply asks_start.
    - destruct (fate_again f) as [Hfa|Hfa].
      { destruct (call_index h t part_h Hl Hfa a (AAppStart p) b its Hh Hsb (asks_start p)) as (_ & Hi2). specialize (Hi2 Hno).
        injection Heq as Q1 Q2 Q3 Q4 Q5.
        assert (Q6 : e' = ELife LStart) by (destruct Hpay as [->|[y' Hy]]; [reflexivity|destruct (no_pay_read _ _ _ _ _ Hs Hy)]).
        destruct (moment_in its [] _ [] _ _ a b Hh Hsb Hj eq_refl) as (c2 & d2 & Hbc & Hsc & HT & Hpc & Hlc & Hhh).
        pose proof (read_true E w0 w H0 Hr _ _ _ _ HT) as Hrd. simpl in Hrd. rewrite Hrd in Hc.
        assert (Hne : List.length (accepted q h) <> 0).
        { intro Hz. destruct (stopped_late _ Hfa Hpc Hlc Hc) as [cc Hcc]. destruct (fifo_part _ Hpc) as [l Hf]. rewrite Hhh, accepted_app, Hf, !app_length in Hz. lia. }
        assert (HT0 : tr (wm w) = a ++ (t, OInv (AAppStart p)) :: b ++ [(t, off)]) by (rewrite Hw, Hh, <- app_assoc; reflexivity).
        pose proof (aq_start _ _ _ _ HQ) as Hpl. unfold start_plan in Hpl. rewrite Hfa in Hpl.
        destruct (Hpl _ _ _ _ HT0) as [Hpl1 _]. destruct Hpl1 as [Hz|[[e He2] _]]; [simpl; apply Nat.eqb_refl|lia|].
        apply (call_claim Hfa (asked (asks_p p) a) LStart); try congruence; [rewrite Hfa, He2; replace (2 * (2 * e)) with (4 * e + 0) by lia; unfold lev; apply per_add|lia|].
        exists a, (AAppStart p), b, its. repeat split; auto. apply asks_start. }
      exfalso. clear pr' e' Heq Hpay Hno. subst its. destruct (moment_in (R (RdCur m c) :: R (RdStarted m true) :: j) [] (OInv (AAppStart p)) [R (RdCur m c)] (R (RdStarted m true)) j a b Hh Hsb eq_refl eq_refl) as (c1 & d1 & Hbc & Hsc & HT & _ & _ & Hhh).
      pose proof (read_true E w0 w H0 Hr _ _ _ _ HT) as Hrd. simpl in Hrd. symmetry in Hrd. destruct (started_witness _ _ Hrd) as [t5 Hi5].
      apply in_split in Hi5. destruct Hi5 as (h5 & r5 & Hh5).
      assert (X5 : tr (wm w) = h5 ++ (t5, OStarted m) :: r5 ++ (t, R (RdStarted m true)) :: d1 ++ [(t, off)]) by (rewrite HT, Hh5, <- app_assoc; reflexivity).
      destruct (placed_at E w0 w H0 Hr _ _ _ _ X5 eq_refl) as (k5 & its5 & u5 & Hs5 & Hm5). apply may_started in Hm5. destruct Hm5 as (x5 & -> & Hx5).
      assert (Ho5 : opened t5 h5 (FApi x5) its5) by (unfold opened; rewrite Hs5; left; reflexivity).
      pose proof (aq_none _ _ _ _ HQ _ _ (open_call w _ _ _ _ _ X5 Ho5)) as Hno.
      assert (x5 = AAppStart p) as ->.
      { destruct x5; simpl in Hx5; try contradiction; try (exfalso; apply Hno; exact Hx5). apply (ab_alone _ _ _ Hb) in Hx5. congruence. }
      destruct (top_bracket _ _ _ _ _ Hs5 ltac:(discriminate)) as (a6 & op6 & b6 & Ha6 & Hop6 & Hsb6 & _). destruct op6; try discriminate. injection Hop6 as ->.
      pose proof (start_once _ _ _ _ Hfa He (aq_start _ _ _ _ HQ)) as Hask.
      assert (X6 : tr (wm w) = a6 ++ (t5, OInv (AAppStart p)) :: b6 ++ (t5, OStarted m) :: r5 ++ (t, R (RdStarted m true)) :: d1 ++ [(t, off)]) by (rewrite X5, Ha6, <- app_assoc; reflexivity).
      assert (X7 : tr (wm w) = a ++ (t, OInv (AAppStart p)) :: b ++ [(t, off)]) by (rewrite Hw, Hh, <- app_assoc; reflexivity).
      destruct (asked_once _ _ _ _ _ _ _ _ _ _ Hask X6 X7) as (-> & -> & _); [simpl; apply Nat.eqb_refl|simpl; apply Nat.eqb_refl|].
      destruct (earlier_item _ _ _ _ _ _ _ _ _ _ _ (eq_refl : a ++ (t, OInv (AAppStart p)) :: c1 = _) Hsc Ha6 Hsb6 Hh5 eq_refl) as (jj & Hjj).
      destruct its5 as [|x [|x' its5]]; discriminate.
    - exfalso. assert (Hj' : its = (i1 ++ OWr (WrAwait p bb) :: i2) ++ R (RdCur m c) :: i3) by (rewrite Hj; repeat (rewrite <- !app_assoc; simpl); reflexivity).
      destruct (moment_in its [] _ _ _ _ a b Hh Hsb Hj' eq_refl) as (c2 & d2 & Hbc & Hsc & HT & Hpc & Hlc & Hhh).
      pose proof (read_true E w0 w H0 Hr _ _ _ _ HT) as Hrd. simpl in Hrd.
      destruct (item_inv t c2 [] i1 (OWr (WrAwait p bb)) i2 Hsc eq_refl) as (c1 & d1 & Hc2 & Hsc1).
      assert (HT1 : tr (wm w) = (a ++ (t, OInv (AAppStart p)) :: c1) ++ (t, OWr (WrAwait p bb)) :: d1 ++ (t, R (RdCur m c)) :: d2 ++ [(t, off)])
        by (rewrite HT, Hc2; repeat (rewrite <- !app_assoc; simpl); reflexivity).
      destruct bb; [apply (aq_await _ _ _ _ HQ t); rewrite HT1; apply in_or_app; right; left; reflexivity|].
      destruct (truth E w0 w (im_tr _ _ H0) Hr) as [_ Ht]. destruct (Ht _ _ _ _ HT1) as [Htw _]. simpl in Htw.
      rewrite (im_latches _ _ H0) in Htw. apply latch_of_in in Htw. destruct Htw as [t' Htw].
      destruct (latch_taken (a ++ (t, OInv (AAppStart p)) :: c2) t' Hpc Hlc) as [H4 Hex].
      { rewrite Hc2. change (a ++ (t, OInv (AAppStart p)) :: c1 ++ (t, OWr (WrAwait p false)) :: d1) with (a ++ ((t, OInv (AAppStart p)) :: c1) ++ (t, OWr (WrAwait p false)) :: d1).
        rewrite app_assoc. apply in_or_app. left. exact Htw. }
      destruct (fate_again f) as [Hfa|Hfa]; [pose proof (aq_stop _ _ _ _ HQ) as Hpl; unfold stop_plan in Hpl; rewrite Hfa in Hpl; congruence|].
      destruct (stop_named _ c Hfa Hpc Hlc (eq_sym Hrd) Hc) as [(Hf & _ & [Hle|Hf'])|[_ Hf]]; [|congruence..]. rewrite (last_4 f Hf) in H4. lia.
  Qed.
  Lemma offer_stop its v : fst (scan t h) = (FApi (AAppStop p), its) :: v -> Claim h t e1 m1 e2 m2.
  Proof.
    intro Hs. pose proof HQw as HQ. destruct (stop_frame E w0 p H0 w Hr _ _ _ _ _ _ Hw Hs eq_refl) as (y & ext & Hlang).
    destruct (top_bracket _ _ _ _ _ Hs ltac:(discriminate)) as (a & op & b & Hh & Hop & Hsb & _). destruct op; try discriminate. injection Hop as ->.
    destruct (app_stop_offer _ _ _ _ _ _ _ Hlang eq_refl eq_refl (ab_keep _ _ _ Hb)) as (c & j & pr' & e' & Hj & Hc & Hno & _ & Heq & Hpay).
    injection Heq as Q1 Q2 Q3 Q4 Q5.
    assert (Q6 : e' = ELife LStop) by (destruct Hpay as [->|[y' Hy]]; [reflexivity|destruct (no_pay_read _ _ _ _ _ Hs Hy)]).
    destruct (moment_in its [] _ [] _ _ a b Hh Hsb Hj eq_refl) as (c2 & d2 & Hbc & Hsc & HT & Hpc & Hlc & Hhh).
    pose proof (read_true E w0 w H0 Hr _ _ _ _ HT) as Hrd. simpl in Hrd.
    destruct (fate_again f) as [Hfa|Hfa].
    { destruct (call_index h t part_h Hl Hfa a (AAppStop p) b its Hh Hsb (asks_stop p)) as (_ & Hi2). specialize (Hi2 Hno).
      assert (HT0 : tr (wm w) = a ++ (t, OInv (AAppStop p)) :: b ++ [(t, off)]) by (rewrite Hw, Hh, <- app_assoc; reflexivity).
      pose proof (aq_start _ _ _ _ HQ) as Hpl. unfold start_plan in Hpl. rewrite Hfa in Hpl.
      destruct (Hpl _ _ _ _ HT0) as [_ Hpl1]. destruct Hpl1 as [[e He2] _]; [simpl; apply Nat.eqb_refl|].
      apply (call_claim Hfa (asked (asks_p p) a) LStop); try congruence; [rewrite Hfa, He2; replace (2 * (2 * e + 1)) with (4 * e + 2) by lia; unfold lev; apply per_add|lia|].
      exists a, (AAppStop p), b, its. repeat split; auto. apply asks_stop. }
    destruct (stop_named _ c Hfa Hpc Hlc (eq_sym Hrd) Hc) as [(Hfate & H2 & _)|[Hf Hex]].
    2:{ exfalso. pose proof (stop_never _ _ _ _ Hf Hex (aq_stop _ _ _ _ HQ)) as Hn.
        eapply (not_asked _ _ t (OInv (AAppStop p)) Hn); [|simpl; apply Nat.eqb_refl]. rewrite Hw, Hh. apply in_or_app. left. apply in_or_app. right. left. reflexivity. }
    assert (Hstay : stays f 1 = true) by (clear - Hfate; destruct f; [reflexivity|congruence|reflexivity..]).
    pose proof (stop_once _ _ _ _ Hfate Hfa (aq_stop _ _ _ _ HQ)) as Honce.
    assert (Hge : 2 <= List.length (accepted q h)).
    { destruct (fifo_part _ Hpc) as [l Hf]. rewrite Hhh, accepted_app, Hf, !app_length. lia. }
    assert (Hz : List.length (accepted q h) = 2).
    { destruct (Nat.eq_dec (List.length (accepted q h)) 2) as [|Hne]; [assumption|exfalso].
      destruct (offered_before 2 ltac:(lia)) as (a4 & t4 & pr4 & f1 & g1 & f2 & g2 & r4 & Hh4 & _ & Ho4 & _ & _).
      apply (stop_origin Hfa) in Ho4; [|exact Hstay]. destruct Ho4 as (its4 & v4 & Hs4).
      destruct (top_bracket _ _ _ _ _ Hs4 ltac:(discriminate)) as (a5 & op5 & b5 & Ha5 & Hop5 & Hsb5 & _). destruct op5; try discriminate. injection Hop5 as ->.
      assert (X1 : tr (wm w) = a ++ (t, OInv (AAppStop p)) :: b ++ [(t, off)]) by (rewrite Hw, Hh, <- app_assoc; reflexivity).
      assert (X2 : tr (wm w) = a5 ++ (t4, OInv (AAppStop p)) :: b5 ++ (t4, OOffer q pr4 f1 g1 f2 g2) :: r4 ++ [(t, off)])
        by (rewrite Hw, Hh4, Ha5; repeat (rewrite <- !app_assoc; simpl); reflexivity).
      destruct (asked_once _ _ _ _ _ _ _ _ _ _ Honce X1 X2) as (<- & <- & _); [simpl; apply Nat.eqb_refl|simpl; apply Nat.eqb_refl|].
      destruct (earlier_item _ _ _ _ _ _ _ _ _ _ _ Hh Hsb Ha5 Hsb5 Hh4 eq_refl) as (jj & Hjj).
      rewrite Forall_forall in Hno. specialize (Hno (OOffer q pr4 f1 g1 f2 g2)). rewrite Hjj in Hno. specialize (Hno ltac:(apply in_or_app; right; left; reflexivity)). discriminate. }
    assert (Hlev : lev f 2 = LStop) by (clear - Hfate; destruct f; [reflexivity|congruence|reflexivity..]).
    unfold Claim. rewrite Hz, Hlev. split; [intros _; unfold NS; rewrite (last_4 f Hfate); destruct (ap_exit _); lia|]. repeat split; try (simpl; congruence). apply (stop_origin Hfa); [exact Hstay|]. eauto 8.
  Qed.
  Lemma offer_act c its v e m' : fst (scan t h) = (FCall c, its) :: v -> ours p c e m' -> Claim h t e1 m1 e2 m2.
  Proof.
    intros Hs Hpf. destruct (act_take h t c its v e m' part_h Hl Hs Hpf) as (-> & Et & a & pr0 & b1 & u & i0 & Hh & Hb1 & -> & Hpt & Hla).
    set (K := List.length (taken q a)) in *.
    assert (Hin : in_act K t h).
    { split; [exact Et|]. exists a, pr0, b1, u, i0, c, its, v, (ELife (lev f K)), m. rewrite <- Et. rewrite <- Et in Hb1, Hh. auto 10. }
    destruct (act_unique K t h pr e1 m1 e2 m2 t h pr e1 m1 e2 m2 Hp Hp Hl Hl Hin Hin) as (_ & (K1 & K4 & K3) & Q1 & Q2 & Q3 & Q4).
    assert (HJ : List.length (accepted q h) = S K).
    { assert (Hge : S K <= List.length (accepted q h)).
      { destruct (fifo_part _ part_h) as [l ->]. rewrite Hh, taken_app, taken_cons, !app_length. simpl. fold K. lia. }
      destruct (Nat.eq_dec (List.length (accepted q h)) (S K)) as [|Hne]; [assumption|exfalso].
      destruct (offered_before (S K) ltac:(lia)) as (a4 & t4 & pr4 & f1 & g1 & f2 & g2 & r4 & Hh4 & _ & Ho & Hlt & Hp4).
      assert (Hin4 : in_act K t4 a4) by (simpl in Ho; rewrite K1 in Ho; exact Ho).
      destruct (act_unique K _ _ _ _ _ _ _ _ _ _ _ _ _ _ Hp Hp4 Hl ltac:(lia) Hin Hin4) as (Heq & _). rewrite <- Heq in Hlt. lia. }
    unfold Claim. rewrite HJ. split; [intro Hfa; pose proof (le_upto f _ Hfa K4) as K5; unfold NS; destruct (ap_exit _) eqn:Hex; [lia|]|].
    { destruct (Nat.eq_dec (S K) (lastk f)) as [E3|]; [|lia]. assert (Hts : tostop f K = true) by (clear - E3 Hfa; unfold tostop; revert E3 Hfa; case f; intros E3 Hfa; try congruence; apply Nat.eqb_eq; exact E3).
      specialize (K3 Hts). congruence. }
    repeat split; auto. simpl. rewrite K1. exact Hin.
  Qed.
  Lemma claim_at : Claim h t e1 m1 e2 m2.
  Proof.
    pose proof HQw as HQ. destruct (placed_at E w0 w H0 Hr _ _ _ _ Hw eq_refl) as (k & its & v & Hs & Hm). apply may_offer in Hm.
    assert (Hin : In (t, off) (tr (wm w))) by (rewrite Hw; apply in_or_app; right; left; reflexivity).
    destruct (accepted_fired E w0 w _ _ _ _ _ _ _ H0 Hr Hin) as (_ & Hq & _). symmetry in Hq. apply (ab_queue _ _ _ Hb) in Hq.
    assert (Hno : forall x, k = FApi x -> ~ meddles E p x).
    { intros x ->. apply (aq_none _ _ _ _ HQ t). apply (open_call w _ _ _ _ its Hw). unfold opened. rewrite Hs. left. reflexivity. }
    assert (Hact : forall c a' e m', k = FCall c -> performs c a' e m' -> (exists p0, m1 = ap_mach (apps E p0) /\ (a' = AAppStarting p0 \/ a' = AAppStopping p0 \/ a' = AAppStopped p0)) -> Claim h t e1 m1 e2 m2).
    { intros c a' e m' -> Hpf (p0 & Hm1 & Ha). rewrite Hq in Hm1. symmetry in Hm1. apply (ab_alone _ _ _ Hb) in Hm1. subst p0.
      eapply offer_act; [exact Hs|]. left. exists a'. split; [exact Hpf|]. destruct Ha as [->|[->| ->]]; reflexivity. }
    destruct k as [|x|c|q' pr' c']; simpl in Hm; try contradiction.
    - destruct x; try contradiction; destruct Hm as [Hm _].
      + exfalso. apply (Hno _ eq_refl). simpl. congruence.
      + rewrite Hq in Hm. symmetry in Hm. apply (ab_alone _ _ _ Hb) in Hm. subst p0. eapply offer_start; exact Hs.
      + rewrite Hq in Hm. symmetry in Hm. apply (ab_alone _ _ _ Hb) in Hm. subst p0. eapply offer_stop; exact Hs.
      + exfalso. apply (Hno _ eq_refl). simpl. rewrite Hq in Hm. symmetry in Hm. apply (ab_alone _ _ _ Hb) in Hm. exact Hm.
    - destruct c as [en ac st e0 m0|ac e0 m0|hh e0 m0 y0|fin ll m0 ff e0 st|uu e0 m0|uu e0 m0 y0|uu e0 m0|uu e0 m0|up0 p0 j0]; try contradiction.
      + apply (Hact _ ac e0 m0 eq_refl); [left; eauto|]. destruct ac; try contradiction; destruct Hm as [Hm _]; eauto.
      + apply (Hact _ ac e0 m0 eq_refl); [right; eauto|]. destruct ac; try contradiction; destruct Hm as [Hm _]; eauto.
      + destruct hh; try contradiction. destruct Hm as [Hm _]. rewrite Hq in Hm. symmetry in Hm. apply (ab_alone _ _ _ Hb) in Hm. subst p0.
        eapply offer_act; [exact Hs|]. right. eauto.
  Qed.
  End Offer.
  Lemma good_step : Good (S N).
  Proof.
    intros h t pr e1 m1 e2 m2 Hl Hp. destruct (part_reach _ Hp) as (w & Hr & Hw). eapply (claim_at h t pr e1 m1 e2 m2 w); eauto. lia.
  Qed.
  End Step.
  Theorem good N : Good N.
  Proof. induction N as [|N IH]; [intros h t pr e1 m1 e2 m2 Hl; lia|apply good_step; exact IH]. Qed.
End Life.
