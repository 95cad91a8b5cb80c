(** * Demo17.v: executions with data races, and one without (C62, C63) *)
From Verif Require Export HbSpec ExactSpec Demo Demo2 Demo3 Witness.

(** ** What does not happen before what: the positions after position i reached
    from it, computed *)
Definition syncobj_eqb (a b : syncobj) : bool :=
  match a, b with
  | SoStarted m, SoStarted m' | SoEnded m, SoEnded m' | SoQueue m, SoQueue m' | SoExec m, SoExec m'
  | SoLatch m, SoLatch m' | SoSubs m, SoSubs m' | SoMulti m, SoMulti m' => Nat.eqb m m'
  | SoPools, SoPools | SoIntr, SoIntr | SoLog, SoLog => true
  | _, _ => false
  end.
Definition linked (x y : tid * obs) : bool :=
  tid_eqb (fst x) (fst y) ||
  existsb (fun s => existsb (syncobj_eqb s) (sync_of (fst y) (snd y))) (sync_of (fst x) (snd x)).
Fixpoint reached (seen : trace) (rest : trace) : list bool :=
  match rest with
  | [] => []
  | y :: r => let b := existsb (fun x => linked x y) seen in b :: reached (if b then y :: seen else seen) r
  end.

Lemma syncobj_eqb_refl s : syncobj_eqb s s = true.
Proof. destruct s; simpl; auto; apply Nat.eqb_refl. Qed.
Lemma linked_po t o o' : linked (t, o) (t, o') = true.
Proof. unfold linked. simpl. unfold tid_eqb. destruct (tid_eq_dec t t); [reflexivity|congruence]. Qed.
Lemma linked_sw x y s : In s (sync_of (fst x) (snd x)) -> In s (sync_of (fst y) (snd y)) -> linked x y = true.
Proof.
  intros H1 H2. unfold linked. apply orb_true_iff. right. apply existsb_exists. exists s. split; [exact H1|].
  apply existsb_exists. exists s. split; [exact H2|apply syncobj_eqb_refl].
Qed.
Lemma reached_seen rest : forall seen n x y, In x seen -> nth_error rest n = Some y -> linked x y = true ->
  nth_error (reached seen rest) n = Some true.
Proof.
  induction rest as [|z r IH]; intros seen n x y Hx Hn Hl; [destruct n; discriminate|].
  destruct n as [|n]; simpl in *.
  - injection Hn as ->. f_equal. apply existsb_exists. eauto.
  - eapply IH; [|exact Hn|exact Hl]. destruct (existsb _ seen); [right|]; exact Hx.
Qed.
Lemma reached_more rest : forall seen n k x y, nth_error (reached seen rest) n = Some true -> nth_error rest n = Some x ->
  n < k -> nth_error rest k = Some y -> linked x y = true -> nth_error (reached seen rest) k = Some true.
Proof.
  induction rest as [|z r IH]; intros seen n k x y Hr Hn Hlt Hk Hl; [destruct n; discriminate|].
  destruct k as [|k]; [lia|]. destruct n as [|n]; simpl in *.
  - injection Hn as ->. injection Hr as ->. eapply reached_seen; [left; reflexivity|exact Hk|exact Hl].
  - eapply IH; eauto. lia.
Qed.
Lemma nth_skip {A} (l : list A) : forall i j, i <= j -> nth_error (skipn i l) (j - i) = nth_error l j.
Proof.
  induction l as [|x l IH]; intros [|i] j Hle; simpl.
  - rewrite Nat.sub_0_r. reflexivity.
  - destruct (j - S i), j; reflexivity.
  - rewrite Nat.sub_0_r. reflexivity.
  - destruct j as [|j]; [lia|]. simpl. apply IH. lia.
Qed.
Lemma reached_sound h i x j : nth_error h i = Some x -> hb sw_max h i j ->
  nth_error (reached [x] (skipn (S i) h)) (j - S i) = Some true.
Proof.
  intros Hx Hh. set (f := reached [x] (skipn (S i) h)).
  assert (Hlk : forall a b y z, a < b -> nth_error h a = Some y -> nth_error h b = Some z -> linked y z = true ->
            a = i \/ (i < a /\ nth_error f (a - S i) = Some true) -> i < b /\ nth_error f (b - S i) = Some true).
  { intros a b y z Hab Ha Hb Hl [->|[Hia Hf]].
    - split; [exact Hab|]. assert (y = x) as -> by congruence. eapply reached_seen; [left; reflexivity| |exact Hl].
      rewrite nth_skip by lia. exact Hb.
    - split; [lia|]. eapply reached_more; [exact Hf| | | |exact Hl].
      + rewrite nth_skip by lia. exact Ha.
      + lia.
      + rewrite nth_skip by lia. exact Hb. }
  assert (Hall : forall a b, hb sw_max h a b -> a = i \/ (i < a /\ nth_error f (a - S i) = Some true) ->
            i < b /\ nth_error f (b - S i) = Some true).
  { intros a b Hab. induction Hab as [a b t o o' Hlt Ha Hb|a b Hlt (t & o & t' & o' & s & Ha & Hb & Hs1 & Hs2)|a b c H1 IH1 H2 IH2].
    - apply (Hlk a b (t, o) (t, o') Hlt Ha Hb). apply linked_po.
    - apply (Hlk a b (t, o) (t', o') Hlt Ha Hb). eapply linked_sw; eauto.
    - intro Hi. apply IH2. right. apply IH1, Hi. }
  apply (Hall i j Hh). left. reflexivity.
Qed.
Lemma no_hb h i j x : nth_error h i = Some x -> nth_error (reached [x] (skipn (S i) h)) (j - S i) = Some false -> ~ hb sw_max h i j.
Proof. intros Hx Hf Hh. rewrite (reached_sound _ _ _ _ Hx Hh) in Hf. discriminate. Qed.

(** the certain edges are among the possible ones *)
Lemma sw_min_max h i j : sw_min h i j -> sw_max h i j.
Proof.
  intros [m t t' b H1 H2|m t o t' b H1 Ho H2|q p t e m e' m' t' c H1 H2 _|l p t t' H1 H2 _|p t t' H1 _ H2|p t l t' l' H1 H2].
  - exists t, (OStarted m), t', (ORd (RdStarted m b)), (SoStarted m). simpl. auto 10.
  - exists t, o, t', (ORd (RdEnded m b)), (SoEnded m). destruct Ho as [->| ->]; simpl; auto 10.
  - exists t, (OOffer q p e m e' m'), t', (OTake q p c), (SoQueue q). simpl. auto 10.
  - exists t, (OWr (WrGive l p)), t', (OWr (WrGot p)), SoPools. simpl. auto 10.
  - exists t, (OWr (WrLatch p)), t', (OWr (WrAwait p false)), (SoLatch p). simpl. auto 10.
  - exists t, (OWr (WrSubs p l)), t', (ORd (RdSubs p l')), (SoSubs p). simpl. auto 10.
Qed.
Lemma hb_mono h i j : hb sw_min h i j -> hb sw_max h i j.
Proof.
  induction 1 as [i j t o o' H1 H2 H3|i j H1 H2|i j k H1 IH1 H2 IH2]; [eapply hb_po; eauto| |eapply hb_trans; eauto].
  apply hb_sw; [exact H1|apply sw_min_max, H2].
Qed.

(** ** Executions *)
(** getCurrentState() of another client after the transition *)
Definition E36 : env :=
  demo own_strat (fun m => m) demo_app quiet [[AStart 0; AFire 0 (EUser 0); AFire 0 (EUser 1)]; [AGetCur 0]] (fun _ => 1).
Definition w36 : mem := demo_mem E36 (fun _ => abc) (fun _ => None) one_act (fun _ => None).
Definition run36 : world := after E36 w36 [(c0, 200); (wk 0, 300); (c1, 200)].
(** the same without that client *)
Definition E37 : env :=
  demo own_strat (fun m => m) demo_app quiet [[AStart 0; AFire 0 (EUser 0); AFire 0 (EUser 1)]] (fun _ => 1).
Definition w37 : mem := demo_mem E37 (fun _ => abc) (fun _ => None) one_act (fun _ => None).
Definition run37 : world := after E37 w37 [(c0, 200); (wk 0, 300)].
(** stop() of an app service, by another client *)
Definition E38 : env := demo own_strat (fun m => m) app6 quiet [[AAppStart 1]; [AAppStop 1]] (fun _ => 1).
Definition w38 : mem := demo_mem E38 (fun m => lifecycle_calls m) (fun _ => None) acts6 (fun _ => None).
Definition run38 : world := after E38 w38 [(c0, 60); (wk 1, 100); (c1, 50); (wk 1, 300); (c0, 50)].
(** an event fired and processed while start() runs: client 0 has set the
    started flag, client 1 fires, client 0 sets the state, the worker reads it *)
Definition E39 : env :=
  demo own_strat (fun m => m) demo_app quiet [[AStart 0]; [AFire 0 (EUser 0)]] (fun _ => 1).
Definition w39 : mem := demo_mem E39 (fun _ => abc) (fun _ => None) one_act (fun _ => None).
Definition run39 : world := after E39 w39 [(c0, 5); (c1, 200); (c0, 1); (wk 0, 300); (c0, 200)].
(** an executor with two threads *)
Definition run40 : world := after E13 w13 [(c0, 200); (wk 0, 12); (wk2 0, 4); (wk 0, 5); (wk2 0, 1); (wk 0, 1); (wk2 0, 8)].
(** machine 1 drops duplicates: client 1 fires e0, which waits, client 2 begins
    to look for e0, the worker takes the pair and gives it back, client 3 gets
    it from the pool and writes it, client 2 reads it *)
Definition E41 : env :=
  demo bounded_strat (fun m => m) demo_app quiet
    [[AStart 1; AFire 1 (EUser 0)]; []; [AFire 1 (EUser 0)]; [AFire 1 (EUser 1)]] (fun _ => 1).
Definition w41 : mem := demo_mem E41 (fun _ => abc) (fun _ => None) (fun _ _ => []) (fun _ => None).
Definition run41 : world := after E41 w41 [(c0, 100); (c2, 7); (wk 1, 100); (TClient 3, 12); (c2, 1)].

(** ** The hypotheses of C63, checked on a given history *)
Fixpoint num {A} (n : nat) (l : list A) : list (nat * A) :=
  match l with [] => [] | x :: r => (n, x) :: num (S n) r end.
Lemma num_nth {A} (l : list A) : forall n i x, nth_error l i = Some x -> In (n + i, x) (num n l).
Proof.
  induction l as [|y l IH]; intros n [|i] x Hx; try discriminate.
  - injection Hx as ->. left. f_equal. lia.
  - right. replace (n + S i) with (S n + i) by lia. apply IH, Hx.
Qed.

Definition before_b (h : trace) (t : tid) (i0 : nat) : bool :=
  existsb (fun ix => tid_eqb (fst (snd ix)) t && Nat.leb (fst ix) i0) (num 0 h).
Definition fired_after_b (h : trace) (m : mid) (t0 : tid) (i0 : nat) : bool :=
  forallb (fun ix => match snd (snd ix) with
                     | OOffer _ _ _ m' _ _ => negb (Nat.eqb m' m) || (tid_eqb (fst (snd ix)) t0 && Nat.ltb i0 (fst ix)) ||
                                              negb (before_b h (fst (snd ix)) i0)
                     | _ => true end) (num 0 h).
Lemma fired_after_ok E h m t0 i0 : fired_after_b h m t0 i0 = true -> fired_after E h m t0 i0.
Proof.
  intros Hb t a op b kd its q p e e' m' r Hh _ _.
  assert (Hn : nth_error h (List.length (a ++ (t, op) :: b)) = Some (t, OOffer q p e m e' m')).
  { rewrite Hh. replace (a ++ (t, op) :: b ++ (t, OOffer q p e m e' m') :: r) with
      ((a ++ (t, op) :: b) ++ (t, OOffer q p e m e' m') :: r) by (rewrite <- app_assoc; reflexivity).
    rewrite nth_error_app2 by lia. rewrite Nat.sub_diag. reflexivity. }
  assert (Hop : nth_error h (List.length a) = Some (t, op)).
  { rewrite Hh, nth_error_app2 by lia. rewrite Nat.sub_diag. reflexivity. }
  apply (num_nth h 0) in Hn. unfold fired_after_b in Hb. rewrite forallb_forall in Hb. apply Hb in Hn.
  cbn [fst snd] in Hn. rewrite Nat.eqb_refl in Hn. simpl negb in Hn. rewrite orb_false_l in Hn. apply orb_true_iff in Hn as [Hn|Hn].
  - right. apply andb_true_iff in Hn as [H1 H2].
    apply Nat.ltb_lt in H2. unfold tid_eqb in H1. destruct (tid_eq_dec t t0); [|discriminate]. split; [assumption|exact H2].
  - left. apply Nat.nle_gt. intro Hle. apply negb_true_iff in Hn.
    assert (before_b h t i0 = true); [|congruence]. apply existsb_exists. exists (List.length a, (t, op)).
    split; [exact (num_nth h 0 _ _ Hop)|]. cbn [fst snd]. apply andb_true_iff. split; [|apply Nat.leb_le, Hle].
    unfold tid_eqb. destruct (tid_eq_dec t t); congruence.
Qed.

Definition in_take (q m : nat) (fr : fkind * list obs) : bool :=
  match fst fr with FTake q' _ (Some (_, m')) => Nat.eqb q' q && Nat.eqb m' m | _ => false end.
Definition touches_b (m : mid) (o : obs) : bool :=
  match o with OState m' _ | ORd (RdCur m' _) => Nat.eqb m' m | _ => false end.
Definition confined_b (E : env) (h : trace) (m : mid) (t0 : tid) (i0 : nat) : bool :=
  forallb (fun ix => negb (touches_b m (snd (snd ix))) || (tid_eqb (fst (snd ix)) t0 && Nat.leb (fst ix) i0) ||
                     existsb (in_take (queue_of E m) m) (fst (scan (fst (snd ix)) (firstn (fst ix) h)))) (num 0 h).
Lemma confined_ok E h m t0 i0 : confined_b E h m t0 i0 = true -> confined E (touches_state m) h m t0 i0.
Proof.
  intros Hb i t o Ho Ht. apply (num_nth h 0) in Ho. unfold confined_b in Hb. rewrite forallb_forall in Hb. apply Hb in Ho.
  cbn [fst snd] in Ho. apply orb_true_iff in Ho as [Ho|Ho]; [apply orb_true_iff in Ho as [Ho|Ho]|].
  - assert (touches_b m o = true) as Hx; [|rewrite Hx in Ho; discriminate].
    destruct o as [| | | | | | | | | |m' s| | | |r|]; try (destruct Ht; fail); simpl in *.
    + subst. apply Nat.eqb_refl.
    + destruct r; try (destruct Ht; fail). subst. apply Nat.eqb_refl.
  - apply andb_true_iff in Ho as [H1 H2]. left. apply Nat.leb_le in H2. unfold tid_eqb in H1.
    destruct (tid_eq_dec t t0); [|discriminate]. split; [assumption|exact H2].
  - right. apply existsb_exists in Ho as ([k its] & Hin & Hk). simpl in Hin, Hk. unfold in_take in Hk. cbn [fst] in Hk.
    destruct k as [| | |q' p [[e m']|]]; try discriminate.
    apply andb_true_iff in Hk as [H1 H2]. apply Nat.eqb_eq in H1. apply Nat.eqb_eq in H2. subst. exists p, e, its. exact Hin.
Qed.

Definition moves_b (q p : nat) (o : obs) : bool :=
  match o with OOffer q' p' _ _ _ _ | OTake q' p' _ => Nat.eqb q' q && Nat.eqb p' p | _ => false end.
Definition none_moves_b (h : trace) (q p i j : nat) : bool :=
  forallb (fun ix => negb (Nat.ltb i (fst ix) && Nat.ltb (fst ix) j && moves_b q p (snd (snd ix)))) (num 0 h).
Lemma none_moves_ok h q p i j : none_moves_b h q p i j = true -> none_between h (moves_in_queue q p) i j.
Proof.
  intros Hb k t o H1 H2 Ho Hm. apply (num_nth h 0) in Ho. unfold none_moves_b in Hb. rewrite forallb_forall in Hb. apply Hb in Ho.
  cbn [fst snd] in Ho. apply Nat.ltb_lt in H1. apply Nat.ltb_lt in H2. cbn [Nat.add] in Ho. rewrite H1, H2 in Ho.
  assert (moves_b q p o = true) as Hx; [|rewrite Hx in Ho; discriminate].
  destruct o; try (destruct Hm; fail); simpl in Hm |- *; destruct Hm as [-> ->]; rewrite !Nat.eqb_refl; reflexivity.
Qed.

Lemma not_in_log s l : forallb (fun o => match o with OLog s' => negb (String.eqb s' s) | _ => true end) l = true -> ~ In (OLog s) l.
Proof. intros Hb Hi. rewrite forallb_forall in Hb. apply Hb in Hi. rewrite String.eqb_refl in Hi. discriminate. Qed.
(** client 1 fires after client 0 started the machine *)
Definition run42 : world := after E39 w39 [(c0, 200); (c1, 200); (wk 0, 300)].

(** ** The calls on a machine, checked on a given history *)
Definition handles_b (E : env) (m : mid) (x : api) : bool :=
  match x with
  | AGetCur m' | AStart m' | AStartIn m' _ | AStop m' | ASetListener m' _ | ACfg m' _ => Nat.eqb m' m
  | AAppStart p | AAppStop p => Nat.eqb (ap_mach (apps E p)) m
  | _ => false
  end.
Definition handled_b (E : env) (h : trace) (m : mid) (t0 : tid) (i0 : nat) : bool :=
  forallb (fun ix => match snd (snd ix) with
                     | OInv x => negb (handles_b E m x) ||
                         (tid_eqb (fst (snd ix)) t0 && Nat.ltb (fst ix) i0 && match x with AAppStart _ | AAppStop _ => false | _ => true end) ||
                         existsb (in_take (queue_of E m) m) (fst (scan (fst (snd ix)) (firstn (fst ix) h)))
                     | _ => true end) (num 0 h).
Lemma firstn_pre {A} (a b : list A) : firstn (List.length a) (a ++ b) = a.
Proof. induction a as [|x a IH]; simpl; [reflexivity|]. rewrite IH. reflexivity. Qed.
Lemma handled_ok E h m t0 i0 : handled_b E h m t0 i0 = true -> handled E h m t0 i0.
Proof.
  intros Hb t a x r Hh Hx.
  assert (Hn : nth_error h (List.length a) = Some (t, OInv x)).
  { rewrite Hh, nth_error_app2 by lia. rewrite Nat.sub_diag. reflexivity. }
  apply (num_nth h 0) in Hn. unfold handled_b in Hb. rewrite forallb_forall in Hb. apply Hb in Hn. cbn [fst snd] in Hn.
  assert (Hxb : handles_b E m x = true) by (destruct x; simpl in *; try contradiction; subst; apply Nat.eqb_refl).
  rewrite Hxb in Hn. simpl negb in Hn. rewrite orb_false_l in Hn. apply orb_true_iff in Hn as [Hn|Hn].
  - right. apply andb_true_iff in Hn as [Hn H3]. apply andb_true_iff in Hn as [H1 H2]. apply Nat.ltb_lt in H2.
    unfold tid_eqb in H1. destruct (tid_eq_dec t t0); [|discriminate]. split; [assumption|]. split; [exact H2|].
    intro p. split; intros ->; discriminate.
  - left. rewrite Nat.add_0_l, Hh, firstn_pre in Hn. apply existsb_exists in Hn as ([k its] & Hin & Hk).
    unfold in_take in Hk. cbn [fst] in Hk. destruct k as [| | |q' p [[e m']|]]; try discriminate.
    apply andb_true_iff in Hk as [H1 H2]. apply Nat.eqb_eq in H1. apply Nat.eqb_eq in H2. subst. exists p, e, its. exact Hin.
Qed.

(** client 0 sets a listener, starts the machine and fires, client 1 fires too;
    an entry action asks for the current state *)
Definition asks : call -> trace -> uprog := fun c _ =>
  match c with KAct true (AUser 11) _ _ m => UDo (AGetCur m) (fun _ => URet) | _ => URet end.
Definition E43 : env :=
  demo own_strat (fun m => m) demo_app asks
    [[ASetListener 0 (Some (LLeaf (LfUser 0))); AStart 0; AFire 0 (EUser 0)]; [AIsStarted 0; AFire 0 (EUser 1); AQSize 0]] (fun _ => 1).
Definition w43 : mem := demo_mem E43 (fun _ => abc) (fun _ => None) one_act (fun _ => None).
Definition run43 : world := after E43 w43 [(c0, 200); (c1, 200); (wk 0, 300)].
(** a machine with a queue of one event and the default flow listener *)
Definition full_strat (k : nat) : strategy :=
  {| s_drop := false; s_exec := k; s_queue := k; s_pool := k; s_max := 1;
     s_unmapped := UUser 0; s_ufl := FDefault; s_states := k |}.
Definition E44 : env :=
  demo full_strat (fun m => m) demo_app quiet [[AStart 0; AFire 0 (EUser 0); AFire 0 (EUser 1)]; [AFire 0 (EUser 1)]] (fun _ => 1).
Definition w44 : mem := demo_mem E44 (fun _ => abc) (fun _ => None) one_act (fun _ => None).
Definition run44 : world := after E44 w44 [(c0, 30); (wk 0, 20); (c0, 100); (c1, 100)].
