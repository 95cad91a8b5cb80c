(** * StuckProofs.v: states a machine does not leave, the end of start() and
    stop() without a race (proofs for C19, C22, C23) *)
From Verif Require Import RaceSpec ApiSpec ExactSpec MemInv Lang Tree Nodes Marks QueueProofs Place Moments Truth FlowProofs ConfTruth ExactProofs FlowProofs2 StartProofs FireProofs Witness.

Definition smove (m : mid) (s : mstate) (o : obs) : mstate :=
  match o with
  | OState m' c => if Nat.eqb m' m then (Some c, snd s) else s
  | OEnded m' => if Nat.eqb m' m then (fst s, true) else s
  | OUnended m' => if Nat.eqb m' m then (fst s, false) else s
  | _ => s
  end.
Lemma mstate_snoc m h t o : mstate_at m (h ++ [(t, o)]) = smove m (mstate_at m h) o.
Proof.
  unfold mstate_at, cur_at, ended_at, cur_of, ended_of. rewrite !replay_snoc. unfold smove.
  destruct o; try reflexivity; destruct (Nat.eqb m0 m); reflexivity.
Qed.
Lemma mstate_app m h b : mstate_at m (h ++ b) = fold_left (smove m) (filter (moves m) (map snd b)) (mstate_at m h).
Proof.
  induction b as [|b [t o] IH] using snoc_ind; [rewrite app_nil_r; reflexivity|].
  rewrite app_assoc, mstate_snoc, IH, map_app, filter_app, fold_left_app. cbn [map snd filter].
  destruct (moves m o) eqn:Es; [reflexivity|]. cbn [fold_left].
  destruct o; try reflexivity; simpl in Es |- *; rewrite Es; reflexivity.
Qed.
(** no thread but t moves machine m during b *)
Lemma marks_own m t b : (forall t' o, In (t', o) b -> t' <> t -> moves m o = false) ->
  filter (moves m) (map snd b) = filter (moves m) (thread_obs t b).
Proof.
  induction b as [|[t' o] b IH]; intro H; [reflexivity|].
  change ((t', o) :: b) with ([(t', o)] ++ b). rewrite thread_obs_app, thread_obs_one, filter_app.
  simpl (map _ _). cbn [filter]. rewrite IH by (intros; eapply H; [right; eassumption|assumption]).
  destruct (tid_eq_dec t' t) as [->|N].
  - rewrite tid_eqb_refl. cbn [filter]. destruct (moves m o); reflexivity.
  - rewrite tid_eqb_neq by exact N. rewrite (H t' o (or_introl eq_refl) N). reflexivity.
Qed.
(** at the root, nothing more was done *)
Lemma root_same l1 : forall l2 i, fst (scan0 l1) = [(FRoot, i)] -> fst (scan0 (l1 ++ l2)) = [(FRoot, i)] -> l2 = [].
Proof.
  intros l2 i H1 H2. destruct l2 as [|x l2]; [reflexivity|exfalso].
  replace (l1 ++ x :: l2) with ((l1 ++ [x]) ++ l2) in H2 by lst.
  destruct (root_kept (l1 ++ [x]) l2 [] i H2) as (u1 & i1 & i2 & H3 & H4).
  rewrite scan_fst_snoc, H1 in H3. unfold scan1 in H3.
  assert (Hi : i1 = i ++ [x]).
  { destruct (closes x); [simpl in H3; destruct u1; discriminate|].
    destruct (opens x); simpl in H3.
    - destruct u1 as [|? u1]; [discriminate|]. injection H3 as _ H3. destruct u1 as [|? u1]; [injection H3 as ->; reflexivity|destruct u1; discriminate].
    - destruct u1 as [|? u1]; [injection H3 as ->; reflexivity|destruct u1; discriminate]. }
  subst i1. apply (f_equal (@List.length obs)) in H4. rewrite !app_length in H4. simpl in H4. lia.
Qed.
Lemma root_same_t t b1 b2 i : fst (scan t b1) = [(FRoot, i)] -> fst (scan t (b1 ++ b2)) = [(FRoot, i)] -> forall o, ~ In (t, o) b2.
Proof.
  rewrite !scan_eq, thread_obs_app. intros H1 H2 o Hi. apply thread_obs_in in Hi.
  rewrite (root_same _ _ _ H1 H2) in Hi. destruct Hi.
Qed.

Definition quiet_check (h : trace) : bool := forallb (fun to => match snd to with OBack _ (Some _) => false | _ => true end) h.
Section Stuck.
  Context (E : env) (w0 : mem) (w : world) (H0 : init_mem E w0) (Hr : reach E w0 w).
  Notation T := (tr (wm w)).

  Lemma event_stuck m l ac conf hd e n u s x out s' : event E m l ac conf hd e n u s x out s' ->
    (snd s = false -> forall t, reacts (sname E) conf (fst s) n <> Target t) -> s' = s.
  Proof.
    intros (y & P & Rep & _ & _ & H) Hn. destruct (snd s); [apply H|].
    specialize (Hn eq_refl). destruct (reacts (sname E) conf (fst s) n) as [| |t]; simpl in H; [apply H|apply H|].
    destruct (Hn t eq_refl).
  Qed.
  Lemma arun_stuck m l ac conf N s ns s' : arun E m l ac conf N s ns s' ->
    (forall p e n, In (p, Some (e, m)) (map event_of ns) -> N e n -> forall t, reacts (sname E) conf (fst s) n <> Target t) -> s' = s.
  Proof.
    induction 1 as [|s ns s1 p e its x n s2 Hr1 IH HN He]; intro H; [reflexivity|].
    assert (s1 = s) as ->.
    { apply IH. intros p' e' n' Hi. apply (H p'). rewrite map_app. apply in_or_app. left. exact Hi. }
    eapply event_stuck; [exact He|]. intros _. apply (H p e n); [|exact HN].
    rewrite map_app. apply in_or_app. right. left. reflexivity.
  Qed.
  (** events without a target do not move the machine *)
  Lemma stuck m h r conf : private_queue E m -> one_thread E m -> T = h ++ r -> calm E m h r ->
    conf_at E w0 (table_of E m) h conf ->
    rests (queue_of E m) (worker_of E m) h -> rests (queue_of E m) (worker_of E m) (h ++ r) ->
    (forall p e h', In (p, Some (e, m)) (taken (queue_of E m) r) -> upto h' (h ++ r) ->
       forall t, reacts (sname E) conf (cur_at m h) (name_at E w0 e h') <> Target t) ->
    mstate_at m (h ++ r) = mstate_at m h.
  Proof.
    intros Hp Ho HT Hc Hcf R1 R2 Hn.
    destruct (all_events E w0 w H0 Hr m h r conf Hp Ho HT Hc Hcf R1 R2) as (new & _ & Htk & Ha).
    eapply arun_stuck; [exact Ha|]. intros p e n Hi (h' & Hu & _ & ->). apply (Hn p); [|exact Hu].
    unfold taken in Htk. rewrite flat_map_app in Htk. apply app_inv_head in Htk. unfold taken. rewrite Htk. exact Hi.
  Qed.

  Lemma final_start_stuck m h r conf s : private_queue E m -> one_thread E m -> T = h ++ r -> calm E m h r ->
    conf_at E w0 (table_of E m) h conf ->
    rests (queue_of E m) (worker_of E m) h -> rests (queue_of E m) (worker_of E m) (h ++ r) ->
    cur_at m h = Some s -> (forall n t, reacts (sname E) conf (Some s) n = Target t -> n = "_immediate_") ->
    (forall p e h', In (p, Some (e, m)) (taken (queue_of E m) r) -> upto h' (h ++ r) -> name_at E w0 e h' <> "_immediate_") ->
    mstate_at m (h ++ r) = mstate_at m h.
  Proof.
    intros Hp Ho HT Hc Hcf R1 R2 Hcur Hs Hn. eapply stuck; eauto. rewrite Hcur.
    intros p e h' Hi Hu t Ht. exact (Hn _ _ _ Hi Hu (Hs _ _ Ht)).
  Qed.
  Lemma nowhere_stuck m h r conf : private_queue E m -> one_thread E m -> T = h ++ r -> calm E m h r ->
    conf_at E w0 (table_of E m) h conf ->
    rests (queue_of E m) (worker_of E m) h -> rests (queue_of E m) (worker_of E m) (h ++ r) ->
    (forall n t, reacts (sname E) conf (cur_at m h) n <> Target t) ->
    mstate_at m (h ++ r) = mstate_at m h.
  Proof. intros Hp Ho HT Hc Hcf R1 R2 Hn. eapply stuck; eauto. Qed.

  (** the machine ends in a state named _END_ *)
  Definition at_end (s : mstate) : Prop := snd s = true -> exists c, fst s = Some c /\ sname E c = "_END_".
  Lemma event_end m l ac conf hd e n u s x out s' : event E m l ac conf hd e n u s x out s' -> at_end s -> at_end s'.
  Proof.
    intros (y & P & Rep & _ & _ & H) Ha. destruct s as [c v]; simpl in H. destruct v; [destruct H as (_ & _ & ->); exact Ha|].
    destruct c as [c|]; [|destruct H as (-> & _); exact Ha].
    destruct (reacts (sname E) conf (Some c) n) as [| |t]; simpl in H; [destruct H as (-> & _); exact Ha|destruct H as (-> & _); exact Ha|].
    assert (Hm : at_end (Some t, String.eqb (sname E t) "_END_")).
    { intro He. simpl in He. exists t. split; [reflexivity|]. apply String.eqb_eq. exact He. }
    destruct (String.eqb (sname E t) "_NOOP_").
    - destruct H as [(w' & _ & [-> _])|(s2 & o1 & o2 & _ & [-> _] & [-> _])]; exact Ha.
    - apply transition_outcome in H. destruct H as [[_ H]|(v & cb & o' & _ & _ & H)].
      + destruct (String.eqb (sname E t) "_END_") eqn:En; [subst s'; exact Hm|].
        destruct H as [[_ ->]|[_ ->]]; [|intro; discriminate]. intros _. exists (SEnd m). auto.
      + destruct cb; try contradiction; [destruct entry|destruct fin]; try (subst s'; exact Ha); destruct H as [_ ->]; exact Hm.
  Qed.
  Lemma arun_end m l ac conf N s ns s' : arun E m l ac conf N s ns s' -> at_end s -> at_end s'.
  Proof. induction 1; [auto|]. intro. eapply event_end; eauto. Qed.
  Lemma calm_end m h r : private_queue E m -> one_thread E m -> T = h ++ r -> calm E m h r ->
    rests (queue_of E m) (worker_of E m) h -> rests (queue_of E m) (worker_of E m) (h ++ r) ->
    (ended_at m h = true -> exists c, cur_at m h = Some c /\ sname E c = "_END_") ->
    (ended_at m (h ++ r) = true -> exists c, cur_at m (h ++ r) = Some c /\ sname E c = "_END_").
  Proof.
    intros Hp Ho HT Hc R1 R2. destruct (conf_exists E w0 (table_of E m) h H0) as [conf Hcf].
    destruct (all_events E w0 w H0 Hr m h r conf Hp Ho HT Hc Hcf R1 R2) as (new & _ & _ & Ha).
    exact (arun_end _ _ _ _ _ _ _ _ Ha).
  Qed.

  (** stop() while no other thread moves the machine *)
  Lemma stop_alone m t a b its v d : span t T a (OInv (AStop m)) b its (ORet (AStop m) v) d ->
    (forall t' o, In (t', o) b -> t' <> t -> moves m o = false) ->
    v = RvUnit /\ mstate_at m (a ++ (t, OInv (AStop m)) :: b ++ [(t, ORet (AStop m) v)]) =
      if ended_at m a then mstate_at m a else (Some (SEnd m), true).
  Proof.
    intros Hs Ho. pose proof (span_node E w0 w H0 Hr _ _ _ _ _ _ _ (FApi (AStop m)) Hs eq_refl) as [_ (x & Hv & -> & Hl)].
    split; [exact Hv|].
    assert (Hf : Forall (fun o => opens o = None /\ closes o = false) its).
    { destruct Hl as [->| ->]; repeat constructor. }
    assert (Hits : thread_obs t b = its).
    { destruct Hs as (_ & _ & Hs). rewrite scan_eq in Hs. exact (flat _ _ Hs Hf). }
    replace (a ++ (t, OInv (AStop m)) :: b ++ [(t, ORet (AStop m) v)]) with (((a ++ [(t, OInv (AStop m))]) ++ b) ++ [(t, ORet (AStop m) v)]) by lst.
    rewrite mstate_snoc. cbn [smove]. rewrite mstate_app, mstate_snoc, (marks_own m t b Ho), Hits. cbn [smove].
    destruct Hl as [->| Hl].
    - cbn [filter moves fold_left].
      destruct (read_moment E w0 w H0 Hr _ _ _ _ _ _ _ [] _ [] Hs eq_refl) as (b1 & b2 & Hb & Hsc & He). simpl in He. try symmetry in He.
      assert (Ha : ended_at m a = true); [|rewrite Ha; reflexivity].
      change (snd (mstate_at m a) = true). change (snd (mstate_at m (a ++ (t, OInv (AStop m)) :: b1)) = true) in He.
      replace (a ++ (t, OInv (AStop m)) :: b1) with ((a ++ [(t, OInv (AStop m))]) ++ b1) in He by lst.
      rewrite mstate_app, mstate_snoc, (marks_own m t b1) in He.
      2:{ intros t' o Hi. apply Ho. rewrite Hb. apply in_or_app. left. exact Hi. }
      assert (Hb1 : thread_obs t b1 = []).
      { rewrite Hb in Hits. change ((t, R (RdEnded m true)) :: b2) with ([(t, R (RdEnded m true))] ++ b2) in Hits.
        rewrite !thread_obs_app, thread_obs_one, tid_eqb_refl in Hits. destruct (thread_obs t b1) as [|? [|]]; [reflexivity|discriminate|discriminate]. }
      rewrite Hb1 in He. exact He.
    - assert (Hl' : its = [OEnded m; OState m (SEnd m)]) by exact Hl. clear Hl. rewrite Hl' in Hits, Hs |- *. clear Hl'.
      destruct (item_moment w _ _ _ _ _ _ _ [] _ [OState m (SEnd m)] Hs eq_refl eq_refl) as (b1 & b2 & Hb & Hsc & HT1).
      destruct (truth E w0 w (im_tr _ _ H0) Hr) as [_ Ht]. destruct (Ht _ _ _ _ HT1) as [Hw _].
      assert (Ha : ended_at m a = false).
      { assert (He : ended_at m (a ++ (t, OInv (AStop m)) :: b1) = false).
        { cbn [wr_true] in Hw. rewrite (im_ended _ _ H0 m) in Hw. exact Hw. }
        change (snd (mstate_at m a) = false). change (snd (mstate_at m (a ++ (t, OInv (AStop m)) :: b1)) = false) in He.
        replace (a ++ (t, OInv (AStop m)) :: b1) with ((a ++ [(t, OInv (AStop m))]) ++ b1) in He by lst.
        rewrite mstate_app, mstate_snoc, (marks_own m t b1) in He.
        2:{ intros t' o Hi. apply Ho. rewrite Hb. apply in_or_app. left. exact Hi. }
        assert (Hb1 : thread_obs t b1 = []).
        { rewrite Hb in Hits. change ((t, OEnded m) :: b2) with ([(t, OEnded m)] ++ b2) in Hits.
          rewrite !thread_obs_app, thread_obs_one, tid_eqb_refl in Hits. simpl in Hits.
          destruct (thread_obs t b1) as [|? [|]]; [reflexivity| |].
          - simpl in Hits. injection Hits. discriminate.
          - simpl in Hits. injection Hits. intros. destruct l; discriminate. }
        rewrite Hb1 in He. exact He. }
      rewrite Ha. cbn [filter moves fold_left smove]. rewrite !Nat.eqb_refl. cbn [filter moves fold_left smove]. rewrite !Nat.eqb_refl. reflexivity.
  Qed.

  (** the last step of a start() that returns normally *)
  Lemma start_clears m x t a b its d : starting m x -> span t T a (OInv x) b its (ORet x RvUnit) d ->
    exists b1 b2, b = b1 ++ b2 /\ (forall o, ~ In (t, o) b2) /\ ended_at m (a ++ (t, OInv x) :: b1) = false.
  Proof.
    intros Hx Hs.
    assert (Hl : exists i1, its = i1 ++ [OUnended m]).
    { destruct Hx as [->|[s ->]].
      all: pose proof (span_node E w0 w H0 Hr _ _ _ _ _ _ _ (FApi _) Hs eq_refl) as [_ (y & Hv & Hl)];
        destruct y; try discriminate.
      - destruct Hl as (i & o1 & -> & Hl). destruct i as [init|]; [|destruct Hl; discriminate].
        destruct Hl as (bb & o2 & -> & Hl). destruct bb; [destruct Hl; discriminate|].
        destruct Hl as (dd & o3 & -> & Hl). destruct dd; [destruct Hl; discriminate|].
        destruct Hl as [[Hy _]|(o4 & -> & Hl)]; [discriminate|].
        destruct Hl as [(y & Hy & _)|(l1 & l2 & -> & _ & Hl)]; [discriminate|].
        destruct Hl as [(y & Hy & _)|(l3 & l4 & -> & _ & Hl)]; [discriminate|].
        destruct Hl as [(y & Hy & _)|(l5 & l6 & -> & _ & Hl)]; [discriminate|]. destruct Hl as [_ ->].
        eexists (_ :: _ :: _ :: _ :: _ :: l1 ++ l3 ++ l5). lst.
      - destruct Hl as [[Hy _]|[[Hy _]|[_ ->]]]; try discriminate. exists [R (RdHas m s true); OStarted m; OState m s]. reflexivity. }
    destruct Hl as [i1 ->]. destruct (item_moment w _ _ _ _ _ _ _ i1 _ [] Hs eq_refl eq_refl) as (b1 & b2 & -> & Hsc & HT).
    exists (b1 ++ [(t, OUnended m)]), b2. split; [lst|]. split.
    - destruct Hs as (_ & _ & Hs). apply (root_same_t t (b1 ++ [(t, OUnended m)]) b2 (i1 ++ [OUnended m])).
      + rewrite scan_eq, thread_obs_app, thread_obs_one, tid_eqb_refl, scan_fst_snoc, <- scan_eq, Hsc. reflexivity.
      + replace ((b1 ++ [(t, OUnended m)]) ++ b2) with (b1 ++ (t, OUnended m) :: b2) by lst. exact Hs.
    - replace (a ++ (t, OInv x) :: b1 ++ [(t, OUnended m)]) with ((a ++ (t, OInv x) :: b1) ++ [(t, OUnended m)]) by lst.
      change (snd (mstate_at m ((a ++ (t, OInv x) :: b1) ++ [(t, OUnended m)])) = false). rewrite mstate_snoc. simpl. rewrite Nat.eqb_refl. reflexivity.
  Qed.
End Stuck.

Lemma quiet_ok h : quiet_check h = true -> nothing_threw h.
Proof.
  intros H t c x Hi. unfold quiet_check in H. rewrite forallb_forall in H. specialize (H _ Hi). discriminate.
Qed.
Lemma during_upto t a op b h d : during t a op b h -> upto h ((a ++ (t, op) :: b) ++ d).
Proof. intros (b1 & b2 & -> & ->). exists (b2 ++ d). lst. Qed.
