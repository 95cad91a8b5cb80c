(** * AppLive11.v: what was done to the subsystems is visible when start() has
    returned (proofs) *)
From Verif Require Import Sched MemInv Logic LiveSpec Lang Tree Nodes Marks Place Moments Truth Copies QueueProofs CallProofs FireProofs StartProofs
  TokenProofs ExactProofs FlowProofs2 Live LiveProofs LiveProofs2 AppLive1 AppLive2 AppLive3 AppLive4 AppLive5 AppLive6 AppLive7 AppLive8 AppLive9
  HbSpec HbProofs.
From Verif Require Import AppLiveSpec.
From Verif Require Import ConfigSpec.

Section Visible.
  Context (E : env) (w0 : mem) (s : nat -> tid) (p : apid).
  Notation T := (LiveSpec.history E w0 s).
  Notation W := (moment E w0 s).
  Notation m := (ap_mach (apps E p)).
  Notation q := (queue_of E m).
  Notation wkr := (worker_of E m).
  Notation part h := (exists n r, T n = h ++ r).
  Context (H0 : init_mem E w0) (Hb : app_built E w0 p) (HL : left_alone E w0 s p) (Hsv : served E w0 s q).
  Let HF := alone_fate _ _ _ _ HL.

  Lemma latch_by_worker h t : part (h ++ [(t, OWr (WrLatch p))]) -> t = wkr.
  Proof.
    intro Hp. destruct (part_reach E w0 s H0 _ Hp) as (w & Hr & Hw).
    destruct (placed_at E w0 w H0 Hr _ _ _ _ Hw eq_refl) as (k & its & v & Hs & Hm).
    apply may_latch in Hm. destruct Hm as (c & e & m' & -> & Hpf).
    assert (Hmen : mentions p (AAppStopped p)) by reflexivity.
    destruct (act_take E w0 s p H0 Hb HF Hsv (List.length h) (HG E w0 s p H0 Hb HF Hsv _) h t c its v e m' (part_pre _ _ _ _ _ Hp) (le_n _) Hs
      (or_introl (ex_intro _ _ (conj Hpf Hmen)))) as (_ & -> & _). reflexivity.
  Qed.
  Lemma subs_at_latch h t : part (h ++ [(t, OWr (WrLatch p))]) -> subsystem_marks p (h ++ [(t, OWr (WrLatch p))]) = all_started E p ++ all_stopped E p.
  Proof.
    intro Hp. apply marks_all. apply (marks_late E w0 s p H0 Hb HF Hsv ltac:(discriminate)); [exact Hp|].
    exact (proj1 (latch_taken E w0 s p H0 Hb HF Hsv _ (HG E w0 s p H0 Hb HF Hsv _) _ t Hp (le_n _) ltac:(apply in_or_app; right; left; reflexivity))).
  Qed.

  Lemma subs_visible n h t r : ap_exit (apps E p) = true -> T n = h ++ (t, ORet (AAppStart p) RvUnit) :: r ->
    forall k t1 o j o', on (T n) k t1 o -> is_sub p o = true -> List.length h <= j -> on (T n) j t o' -> hb sw_min (T n) k j.
  Proof.
    intros Hx HT k t1 o j o' Hk Hsub Hj Hoj.
    destruct (ret_inv E w0 (W n) h t (AAppStart p) RvUnit r H0 (moment_reach E w0 s n) HT) as (a & b & its & Hh & Hs). change (tr (wm (W n))) with (T n) in Hs.
    pose proof (span_node E w0 (W n) H0 (moment_reach E w0 s n) _ _ _ _ _ _ _ (FApi (AAppStart p)) Hs eq_refl) as [_ (x & Hv & Hl)].
    destruct x; [discriminate|]. destruct Hl as (c & o0 & Hi & Hl). rewrite Hx in Hl.
    destruct Hl as [(o1' & -> & Hl)|(o1' & -> & Hl)]; [|destruct Hl; discriminate].
    destruct Hl as [(y & Hy & _)|(o1 & o2 & -> & _ & [(y & Hy & _)|(o3 & o4 & -> & _ & [(y & Hy & _)|(o5 & o6 & -> & Haw & _)])])]; try discriminate.
    assert (Haw' : exists b0 l, o5 = OWr (WrAwait p b0) :: l) by (destruct Haw as [_ [->| ->]]; eauto). destruct Haw' as (b0 & l & ->).
    assert (Hi2 : its = (R (RdCur m c) :: R (RdStarted m false) :: o1 ++ o3) ++ OWr (WrAwait p b0) :: l ++ o6).
    { rewrite Hi. repeat (rewrite <- ?app_assoc; simpl). reflexivity. }
    destruct (item_moment (W n) _ _ _ _ _ _ _ _ _ _ Hs Hi2 eq_refl) as (b1 & b2 & Hbb & _ & HT2).
    destruct b0.
    { exfalso. apply (la_await _ _ _ _ HL n t). unfold LiveSpec.history. rewrite HT2. apply in_or_app. right. left. reflexivity. }
    destruct (truth E w0 (W n) (im_tr _ _ H0) (moment_reach E w0 s n)) as [_ Ht]. destruct (Ht _ _ _ _ HT2) as [Hw _]. simpl in Hw.
    rewrite (im_latches _ _ H0) in Hw. apply latch_of_in in Hw. destruct (first_latch p _ Hw) as (l1 & t' & l2 & Hpre & Hn).
    change (tr (wm (W n))) with (T n) in HT2. set (na := List.length (a ++ (t, OInv (AAppStart p)) :: b1)) in *.
    assert (HA : on (T n) na t (OWr (WrAwait p false))) by (unfold on; rewrite HT2; apply nth_len).
    rewrite Hpre in HT2. rewrite <- app_assoc in HT2. simpl in HT2. set (rest := l2 ++ _) in HT2.
    assert (HLt : on (T n) (List.length l1) t' (OWr (WrLatch p))) by (unfold on; rewrite HT2; apply nth_len).
    assert (Hp1 : part (l1 ++ [(t', OWr (WrLatch p))])) by (exists n, rest; rewrite HT2, <- app_assoc; reflexivity).
    pose proof (latch_by_worker _ _ Hp1) as ->. pose proof (subs_at_latch _ _ Hp1) as Hm1.
    assert (Hpn : part (T n)) by (exists n, []; symmetry; apply app_nil_r).
    assert (Hmn : subsystem_marks p (T n) = all_started E p ++ all_stopped E p).
    { apply marks_all. apply (marks_late E w0 s p H0 Hb HF Hsv ltac:(discriminate)); [exact Hpn|].
      refine (proj1 (latch_taken E w0 s p H0 Hb HF Hsv _ (HG E w0 s p H0 Hb HF Hsv _) _ wkr Hpn (le_n _) _)).
      rewrite HT2. apply in_or_app. right. left. reflexivity. }
    assert (Hna : List.length l1 < na) by (unfold na; rewrite Hpre, app_length; simpl; lia).
    assert (Hkl : k <= List.length l1).
    { destruct (Nat.le_gt_cases k (List.length l1)) as [|Hgt]; [assumption|exfalso].
      assert (Hrest : filter (is_sub p) (map snd rest) = []).
      { replace (T n) with ((l1 ++ [(wkr, OWr (WrLatch p))]) ++ rest) in Hmn by (rewrite HT2, <- app_assoc; reflexivity).
        unfold subsystem_marks in Hmn, Hm1. rewrite map_app, filter_app, Hm1 in Hmn. rewrite <- (app_nil_r (all_started E p ++ all_stopped E p)) in Hmn at 2.
        apply app_inv_head in Hmn. exact Hmn. }
      unfold on in Hk. rewrite HT2, nth_error_app2 in Hk by lia. destruct (k - List.length l1) as [|k'] eqn:Ek; [lia|]. simpl in Hk.
      apply nth_error_In in Hk. assert (Hin : In o (filter (is_sub p) (map snd rest))); [|rewrite Hrest in Hin; destruct Hin].
      apply filter_In. split; [|exact Hsub]. apply in_map_iff. exists (t1, o). auto. }
    assert (Ht1 : t1 = wkr).
    { destruct (nth_error_split _ _ Hk) as (x1 & x2 & Hx1 & _). refine (proj1 (sub_mark E w0 s p H0 Hb HF Hsv x1 t1 o _ Hsub)).
      exists n, x2. rewrite Hx1, <- app_assoc. reflexivity. }
    subst t1.
    assert (Hsw : hb sw_min (T n) (List.length l1) na).
    { apply hb_sw; [exact Hna|]. eapply sw_latch; [exact HLt| |exact HA].
      intros k' t' Hk' Hon. apply (Hn t'). unfold on in Hon. rewrite HT2, nth_error_app1 in Hon by lia. eapply nth_error_In, Hon. }
    assert (Hnj : na < j) by (unfold na; rewrite Hh, Hbb in Hj; rewrite !app_length in *; simpl in *; rewrite app_length in Hj; simpl in Hj; lia).
    assert (Hlj : hb sw_min (T n) (List.length l1) j) by (eapply hb_trans; [exact Hsw|]; eapply hb_po; [exact Hnj|exact HA|exact Hoj]).
    destruct (Nat.eq_dec k (List.length l1)) as [->|]; [exact Hlj|].
    eapply hb_trans; [|exact Hlj]. eapply hb_po; [|exact Hk|exact HLt]. lia.
  Qed.
End Visible.
