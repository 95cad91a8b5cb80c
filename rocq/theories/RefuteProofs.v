(** * RefuteProofs.v: executions that refute expectations (proofs for
    PropsRefuted.v) *)
From Verif Require Import ApiSpec RaceSpec CallSpec ExactSpec Demo Demo2 Demo3 Demo10 Demo11 Witness StuckProofs.

(** the configuration is not changed during h *)
Lemma same_conf E w0 m os h : demo_conf E w0 m os h = spec_of (sname E) (ename0 E) m os ->
  demo_conf E w0 m os h = spec_of (sname E) (ename0 E) m os.
Proof. auto. Qed.

Lemma p_C19_starting_in_a_final_state_ends_refuted :
  ~ forall E w0 w, init_mem E w0 -> reach E w0 w ->
    forall m x t a b its d conf s, starting m x -> span t (tr (wm w)) a (OInv x) b its (ORet x RvUnit) d ->
      let h := a ++ (t, OInv x) :: b ++ [(t, ORet x RvUnit)] in
      conf_at E w0 (table_of E m) h conf -> cur_at m h = Some s -> final_state (sname E) (table_of E m) conf s ->
      ended_at m h = true.
Proof.
  intro H. pose (T := tr (wm run7)).
  assert (He : ended_at 0 (part 0 12 T) = true); [|vm_compute in He; discriminate].
  apply (H E7 w7 run7 (demo_init _ _ _ _ _) (after_reach _ _ _) 0 (AStart 0) c0 (part 0 0 T) (part 1 11 T)
    (items c0 (part 1 11 T)) (part 12 1000 T) (demo_conf E7 w7 0 ends_cfg (part 0 12 T)) (SUser 0)).
  - left. reflexivity.
  - sp.
  - exact (demo_conf_at E7 _ _ _ _ 0 (part 0 12 T)).
  - vm_compute. reflexivity.
  - right. vm_compute. reflexivity.
Qed.

Lemma p_C22_ended_means_end_state_refuted :
  ~ forall E w0 w, init_mem E w0 -> reach E w0 w ->
    forall m t1 a1 b1 i1 d1 t2 a2 b2 i2 d2 s, start_finished m a1 ->
      span t1 (tr (wm w)) a1 (OInv (AIsEnded m)) b1 i1 (ORet (AIsEnded m) (RvBool true)) d1 ->
      span t2 (tr (wm w)) a2 (OInv (AGetCur m)) b2 i2 (ORet (AGetCur m) (RvState s)) d2 ->
      upto (a1 ++ (t1, OInv (AIsEnded m)) :: b1 ++ [(t1, ORet (AIsEnded m) (RvBool true))]) a2 ->
      exists c, s = Some c /\ sname E c = "_END_"%string.
Proof.
  intro H. pose (T := tr (wm run8)).
  destruct (H E8 w8 run8 (demo_init _ _ _ _ _) (after_reach _ _ _) 0 c2 (part 0 49 T) (part 50 51 T) (items c2 (part 50 51 T)) (part 52 1000 T)
    c2 (part 0 52 T) (part 53 54 T) (items c2 (part 53 54 T)) (part 55 1000 T) (Some (SUser 1))) as (c & Hc & Hn).
  - exists c0, (FApi (AStart 0)), (items c0 (part 1 11 T)), (ORet (AStart 0) RvUnit). vm_compute. split; auto 10.
  - sp.
  - sp.
  - exists []. vm_compute. reflexivity.
  - injection Hc as <-. discriminate.
Qed.

Lemma p_C23_ended_during_start_stays_ended_refuted :
  ~ forall E w0 w, init_mem E w0 -> reach E w0 w ->
    forall m h1 h2 r, tr (wm w) = (h1 ++ h2) ++ r -> ended_at m h1 = true -> ended_at m (h1 ++ h2) = true.
Proof.
  intro H. pose (T := tr (wm run9)).
  assert (He : ended_at 0 (part 0 51 T ++ part 51 55 T) = true); [|vm_compute in He; discriminate].
  apply (H E9 w9 run9 (demo_init _ _ _ _ _) (after_reach _ _ _) 0 (part 0 51 T) (part 51 55 T) (part 55 1000 T)).
  - vm_compute. reflexivity.
  - vm_compute. reflexivity.
Qed.

Lemma p_C23_end_state_means_ended_refuted :
  ~ forall E w0 w, init_mem E w0 -> reach E w0 w ->
    forall m t1 a1 b1 i1 d1 t2 a2 b2 i2 d2 s v, start_finished m a1 ->
      span t1 (tr (wm w)) a1 (OInv (AGetCur m)) b1 i1 (ORet (AGetCur m) (RvState (Some s))) d1 -> sname E s = "_END_"%string ->
      span t2 (tr (wm w)) a2 (OInv (AIsEnded m)) b2 i2 (ORet (AIsEnded m) (RvBool v)) d2 ->
      upto (a1 ++ (t1, OInv (AGetCur m)) :: b1 ++ [(t1, ORet (AGetCur m) (RvState (Some s)))]) a2 -> v = true.
Proof.
  intro H. pose (T := tr (wm run9)).
  pose proof (H E9 w9 run9 (demo_init _ _ _ _ _) (after_reach _ _ _) 0 c0 (part 0 56 T) (part 57 58 T) (items c0 (part 57 58 T)) (part 59 1000 T)
    c0 (part 0 59 T) (part 60 61 T) (items c0 (part 60 61 T)) (part 62 1000 T) (SEnd 0) false) as Hx.
  discriminate Hx.
  - exists c0, (FApi (AStart 0)), (items c0 (part 1 55 T)), (ORet (AStart 0) RvUnit). vm_compute. split; auto 10.
  - sp.
  - reflexivity.
  - sp.
  - exists []. vm_compute. reflexivity.
Qed.

Lemma p_C28_other_machines_do_not_interfere_refuted :
  ~ forall E w0 w, init_mem E w0 -> reach E w0 w ->
    forall t a q p e m b its z d conf s, span t (tr (wm w)) a (OTake q p (Some (e, m))) b its z d -> one_thread E m ->
      calm E m a ((t, OTake q p (Some (e, m))) :: b) -> nothing_threw (tr (wm w)) -> start_finished m a -> ended_at m a = false ->
      conf_at E w0 (table_of E m) a conf ->
      reacts (sname E) conf (cur_at m a) (name_at E w0 e a) = Target s -> sname E s <> "_NOOP_"%string ->
      In (OState m s) its.
Proof.
  intro H. pose (T := tr (wm run10)).
  assert (Hi : In (OState 1 (SUser 0)) (items (wk 0) (part 70 77 T))).
  { apply (H E10 w10 run10 (demo_init _ _ _ _ _) (after_reach _ _ _) (wk 0) (part 0 69 T) 0 1 (EUser 0) 1 (part 70 77 T) (items (wk 0) (part 70 77 T))
      (ODone 0 1 None) (part 78 1000 T) (demo_conf E10 w10 1 [CInit (SUser 3); CReceives (EUser 0); CTo (SUser 0)] (part 0 69 T)) (SUser 0)).
    - sp.
    - vm_compute. repeat constructor.
    - apply calm_ok. vm_compute. reflexivity.
    - apply quiet_ok. vm_compute. reflexivity.
    - exists c0, (FApi (AStart 1)), (items c0 (part 13 23 T)), (ORet (AStart 1) RvUnit). vm_compute. split; auto 10.
    - vm_compute. reflexivity.
    - exact (demo_conf_at E10 _ _ _ _ 1 _).
    - vm_compute. reflexivity.
    - vm_compute. discriminate. }
  vm_compute in Hi. intuition discriminate.
Qed.

Lemma p_C28_discarded_only_after_own_end_refuted :
  ~ forall E w0 w, init_mem E w0 -> reach E w0 w ->
    forall t a q p e m b its z d, span t (tr (wm w)) a (OTake q p (Some (e, m))) b its z d -> shown its = [] ->
      sometime t a (OTake q p (Some (e, m))) b (fun h => ended_at m h = true).
Proof.
  intro H. pose (T := tr (wm run10')).
  destruct (H E10 w10 run10' (demo_init _ _ _ _ _) (after_reach _ _ _) (wk 0) (part 0 59 T) 0 1 (EUser 0) 1 (part 60 63 T) (items (wk 0) (part 60 63 T))
      (ODone 0 1 None) (part 64 1000 T)) as (h & Hd & He).
  - sp.
  - vm_compute. reflexivity.
  - assert (Hn : forall h, upto h T -> ended_at 1 h = false).
    { intros h0 [r Hr]. revert r Hr. induction h0 as [|[t o] h0 IH] using rev_ind; intros r Hr; [reflexivity|].
      rewrite <- app_assoc in Hr. change (snd (mstate_at 1 (h0 ++ [(t, o)])) = false). rewrite mstate_snoc.
      specialize (IH _ Hr). change (snd (mstate_at 1 h0) = false) in IH.
      assert (Ho : In (t, o) T) by (rewrite Hr; apply in_or_app; right; left; reflexivity).
      assert (Hb : forallb (fun to => match snd to with OEnded 1 => false | _ => true end) T = true) by (vm_compute; reflexivity).
      rewrite forallb_forall in Hb. specialize (Hb _ Ho). simpl in Hb.
      destruct o; try exact IH; cbn [smove]; destruct (Nat.eqb m 1) eqn:Em; try exact IH.
      - apply Nat.eqb_eq in Em. subst m. clear - Hb. discriminate Hb.
      - reflexivity. }
    assert (Hu : upto h T).
    { replace T with ((part 0 59 T ++ (wk 0, OTake 0 1 (Some (EUser 0, 1))) :: part 60 63 T) ++ part 63 1000 T) by (vm_compute; reflexivity).
      exact (during_upto _ _ _ _ _ _ Hd). }
    rewrite (Hn _ Hu) in He. discriminate.
Qed.

Lemma p_C38_start_returns_normally_refuted :
  ~ forall E w0 w, init_mem E w0 -> reach E w0 w ->
    forall t p a b its v d, span t (tr (wm w)) a (OInv (AAppStart p)) b its (ORet (AAppStart p) v) d ->
      ap_exit (apps E p) = true -> In (OStarted (ap_mach (apps E p))) its -> nothing_threw (tr (wm w)) ->
      ~ In (OWr (WrAwait p true)) its -> v = RvUnit.
Proof.
  intro H. pose (T := tr (wm run11)).
  assert (Hv : RvErr (XIllegalState (RAppStop (Some "_END_"%string))) = RvUnit); [|discriminate].
  apply (H E11 w11 run11 (demo_init _ _ _ _ _) (after_reach _ _ _) c0 1 (part 0 0 T) (part 1 206 T) (items c0 (part 1 206 T)) _ (part 207 1000 T)).
  - sp.
  - reflexivity.
  - find_in.
  - apply quiet_ok. vm_compute. reflexivity.
  - intro Hi. vm_compute in Hi. intuition discriminate.
Qed.

Lemma p_C39_zero_means_idle_refuted :
  ~ forall E w0 w, init_mem E w0 -> reach E w0 w ->
    forall t m a b its d, span t (tr (wm w)) a (OInv (AQSize m)) b its (ORet (AQSize m) (RvNat 0)) d ->
      exists h, during t a (OInv (AQSize m)) b h /\ forall t' en act s e i, ~ opened t' h (FCall (KAct en act s e m)) i.
Proof.
  intro H. pose (T := tr (wm run12)).
  destruct (H E12 w12 run12 (demo_init _ _ _ _ _) (after_reach _ _ _) c1 0 (part 0 47 T) (part 48 50 T) (items c1 (part 48 50 T)) (part 51 1000 T)) as (h & Hd & Hn).
  { sp. }
  apply (Hn (wk 0) true (AUser 11) (SUser 1) (EUser 0) []). destruct Hd as (b1 & b2 & Hb & ->).
  destruct b1 as [|x b1].
  - vm_compute. left. reflexivity.
  - vm_compute in Hb. injection Hb as <- Hb. destruct b1 as [|y b1]; [vm_compute; left; reflexivity|]. injection Hb as <- Hb.
    destruct b1 as [|z b1]; [|destruct b1; discriminate Hb]. vm_compute. left. reflexivity.
Qed.

Lemma p_C41_one_event_at_a_time_refuted :
  ~ forall E w0 w, init_mem E w0 -> reach E w0 w ->
    forall m h r t t' p p' c c' its its', tr (wm w) = h ++ r -> private_queue E m ->
      opened t h (FTake (queue_of E m) p c) its -> opened t' h (FTake (queue_of E m) p' c') its' -> t' = t.
Proof.
  intro H. pose (T := tr (wm run13)).
  assert (Ht : wk2 0 = wk 0); [|discriminate].
  apply (H E13 w13 run13 (demo_init _ _ _ _ _) (after_reach _ _ _) 0 T [] (wk 0) (wk2 0) 0 1 (Some (EUser 0, 0)) (Some (EUser 1, 0))
    (match fst (scan (wk 0) T) with _ :: (_, i) :: _ => i | _ => [] end) (match fst (scan (wk2 0) T) with _ :: (_, i) :: _ => i | _ => [] end)).
  - vm_compute. reflexivity.
  - intros m' Hm. exact Hm.
  - vm_compute. auto.
  - vm_compute. auto.
Qed.

Lemma p_C41_no_task_dies_refuted :
  ~ forall E w0 w, init_mem E w0 -> reach E w0 w -> nothing_threw (tr (wm w)) ->
    forall t tk x, ~ In (t, OUncaught tk x) (tr (wm w)).
Proof.
  intro H. apply (H E13 w13 run14 (demo_init _ _ _ _ _) (after_reach _ _ _)
    (quiet_ok (tr (wm run14)) ltac:(vm_compute; reflexivity)) (wk2 0) {| tk_strat := 0; tk_mach := 0 |} XNullPointer).
  find_in.
Qed.

Lemma p_C44_start_is_atomic_refuted :
  ~ forall E w0 w, init_mem E w0 -> reach E w0 w ->
    forall m t a b its v d, span t (tr (wm w)) a (OInv (AStart m)) b its (ORet (AStart m) v) d ->
      (forall t' x, In (t', OInv x) b -> ~ disturbs E m a x) -> alone m t b.
Proof.
  intro H. pose (T := tr (wm run15)).
  assert (Hm : moves 0 (OState 0 (SUser 1)) = false); [|discriminate].
  apply (H E15 w15 run15 (demo_init _ _ _ _ _) (after_reach _ _ _) 0 c0 (part 0 0 T) (part 1 65 T) (items c0 (part 1 65 T)) RvUnit (part 66 1000 T)) with (t' := wk 0).
  - sp.
  - intros t' x Hi. assert (Hb : forallb (fun to => match snd to with OInv x => negb (disturbsb E15 0 (part 0 0 T) x) | _ => true end) (part 1 65 T) = true) by (vm_compute; reflexivity).
    rewrite forallb_forall in Hb. specialize (Hb _ Hi). simpl in Hb. intro Hd. rewrite (disturbsb_ok _ _ _ _ Hd) in Hb. discriminate.
  - find_in.
  - discriminate.
Qed.

Lemma p_C44_startup_notified_first_refuted :
  ~ forall E w0 w, init_mem E w0 -> reach E w0 w ->
    forall m t a b its v d l c1 e1 s1 t' f2 e2 s2, span t (tr (wm w)) a (OInv (AStart m)) b its (ORet (AStart m) v) d ->
      In (OCall (KListen true l m c1 e1 s1)) its ->
      ~ In (t', OCall (KListen true l m f2 e2 s2)) (a ++ filter (fun to => negb (tid_eqb (fst to) t)) b).
Proof.
  intro H. pose (T := tr (wm run15)).
  apply (H E15 w15 run15 (demo_init _ _ _ _ _) (after_reach _ _ _) 0 c0 (part 0 0 T) (part 1 65 T) (items c0 (part 1 65 T)) RvUnit (part 66 1000 T)
    (LLeaf (LfUser 0)) (SNone 0) (EImm 0) (SUser 0) (wk 0) (SUser 0) (EUser 0) (SUser 1)).
  - sp.
  - find_in.
  - find_in.
Qed.

Lemma p_C26_bound_refuted :
  ~ forall E w0 w, init_mem E w0 -> reach E w0 w ->
    forall m h r, tr (wm w) = h ++ r -> private_queue E m -> (0 < limit E m)%Z ->
      (Z.of_nat (List.length (waiting (queue_of E m) h)) <= limit E m)%Z.
Proof.
  intro H. pose (T := tr (wm run16)).
  assert (Hl : (2 <= 1)%Z); [|lia].
  apply (H E16 w16 run16 (demo_init _ _ _ _ _) (after_reach _ _ _) 0 T []).
  - vm_compute. reflexivity.
  - intros m' Hm. exact Hm.
  - reflexivity.
Qed.

Lemma p_C27_no_duplicates_refuted :
  ~ forall E w0 w, init_mem E w0 -> reach E w0 w ->
    forall m h r, tr (wm w) = h ++ r -> private_queue E m -> s_drop (strat E (strat_of E m)) = true ->
      NoDup (map (fun pc => option_map (fun em => name_at E w0 (fst em) h) (snd pc)) (waiting (queue_of E m) h)).
Proof.
  intro H. pose (T := tr (wm run16)).
  assert (Hn : NoDup [Some "e0"; Some "e0"]%string); [|inversion Hn as [|? ? Hi _]; apply Hi; left; reflexivity].
  apply (H E16 w16 run16 (demo_init _ _ _ _ _) (after_reach _ _ _) 1 T []).
  - vm_compute. reflexivity.
  - intros m' Hm. exact Hm.
  - reflexivity.
Qed.

(** no moment of an operation sees k events in q *)
Lemma no_moment (P : trace -> bool) t a op b :
  forallb (fun k => negb (P (a ++ (t, op) :: firstn k b))) (List.seq 0 (S (List.length b))) = true ->
  forall h, during t a op b h -> P h = false.
Proof.
  intros H h (b1 & b2 & -> & ->). rewrite forallb_forall in H. specialize (H (List.length b1)).
  rewrite firstn_app, Nat.sub_diag, firstn_all, app_nil_r in H. apply negb_true_iff. apply H.
  apply in_seq. rewrite app_length. lia.
Qed.

Lemma p_C39_size_of_a_moment_refuted :
  ~ forall E w0 w, init_mem E w0 -> reach E w0 w ->
    forall t m a b its n d, span t (tr (wm w)) a (OInv (AQSize m)) b its (ORet (AQSize m) (RvNat n)) d ->
      exists h, during t a (OInv (AQSize m)) b h /\ List.length (waiting (queue_of E m) h) = n.
Proof.
  intro H. pose (T := tr (wm run25)).
  destruct (H E25 w25 run25 (demo_init _ _ _ _ _) (after_reach _ _ _) c2 0 (part 0 29 T) (part 30 69 T) (items c2 (part 30 69 T)) 2 (part 70 1000 T)) as (h & Hd & Hn).
  { sp. }
  apply (no_moment (fun h => Nat.eqb (List.length (waiting (queue_of E25 0) h)) 2)) in Hd.
  - rewrite Hn in Hd. discriminate.
  - vm_compute. reflexivity.
Qed.

Lemma p_C26_refused_only_when_full_refuted :
  ~ forall E w0 w, init_mem E w0 -> reach E w0 w ->
    forall m e t a b its v d n, span t (tr (wm w)) a (OInv (AFire m e)) b its (ORet (AFire m e) v) d ->
      In (OCall (KUflExn (flow_of E m) e m (XIllegalState (RQueueFull n)))) (shown its) ->
      exists h, during t a (OInv (AFire m e)) b h /\ (limit E m <= Z.of_nat (List.length (waiting (queue_of E m) h)))%Z.
Proof.
  intro H. pose (T := tr (wm run25)).
  destruct (H E25 w25 run25 (demo_init _ _ _ _ _) (after_reach _ _ _) 0 (EUser 2) c1 (part 0 24 T) (part 25 67 T) (items c1 (part 25 67 T)) RvUnit (part 68 1000 T) 2) as (h & Hd & Hn).
  { sp. }
  { vm_compute. left. reflexivity. }
  apply (no_moment (fun h => Z.leb (limit E25 0) (Z.of_nat (List.length (waiting (queue_of E25 0) h))))) in Hd.
  - apply Z.leb_gt in Hd. lia.
  - vm_compute. reflexivity.
Qed.

(** ** C30 *)
Lemma p_C30_one_moment_refuted :
  ~ forall E w0 w, init_mem E w0 -> reach E w0 w ->
    forall t a b its d k fin m f e s x,
      span t (tr (wm w)) a (OCall (KListen fin (LMulti k) m f e s)) b its (OBack (KListen fin (LMulti k) m f e s) x) d ->
      exists h, during t a (OCall (KListen fin (LMulti k) m f e s)) b h /\
        forall l, In (OCall (KListen fin (LLeaf l) m f e s)) its -> registered w0 k l h = true.
Proof.
  intro H. pose (T := tr (wm run27)).
  destruct (H E27 w27 run27 (demo_init _ _ _ _ _) (after_reach _ _ _) c0 (part 0 14 T) (part 15 35 T) (items c0 (part 15 35 T)) (part 36 1000 T)
    0 false 0 (SNone 0) (EImm 0) (SUser 0) None) as (h & Hd & Hn).
  { sp. }
  apply (no_moment (fun h => andb (registered w27 0 (LfUser 1) h) (registered w27 0 (LfUser 2) h))) in Hd.
  - rewrite (Hn (LfUser 1)), (Hn (LfUser 2)) in Hd; [discriminate| |]; find_in.
  - vm_compute. reflexivity.
Qed.

Lemma p_C30_only_while_registered_refuted :
  ~ forall E w0 w, init_mem E w0 -> reach E w0 w ->
    forall t a b its d k fin m f e s x,
      span t (tr (wm w)) a (OCall (KListen fin (LMulti k) m f e s)) b its (OBack (KListen fin (LMulti k) m f e s) x) d ->
      forall b1 b2 l, b = b1 ++ (t, OCall (KListen fin (LLeaf l) m f e s)) :: b2 ->
        registered w0 k l (a ++ (t, OCall (KListen fin (LMulti k) m f e s)) :: b1) = true.
Proof.
  intro H. pose (T := tr (wm run27)).
  assert (Hx := H E27 w27 run27 (demo_init _ _ _ _ _) (after_reach _ _ _) c0 (part 0 14 T) (part 15 35 T) (items c0 (part 15 35 T)) (part 36 1000 T)
    0 false 0 (SNone 0) (EImm 0) (SUser 0) None ltac:(sp) (part 15 30 T) (part 31 35 T) (LfUser 3)).
  assert (Hb : part 15 35 T = part 15 30 T ++ (c0, OCall (KListen false (LLeaf (LfUser 3)) 0 (SNone 0) (EImm 0) (SUser 0))) :: part 31 35 T)
    by (vm_compute; reflexivity).
  specialize (Hx Hb). vm_compute in Hx. discriminate Hx.
Qed.
