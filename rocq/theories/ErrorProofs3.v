(** * ErrorProofs3.v: error() of an app service (theorems for C67) *)
From Verif Require Import Sched MemInv Logic LiveSpec Lang Tree Nodes Marks Place Moments Truth Copies ConfTruth QueueProofs CallProofs FireProofs StartProofs
  TokenProofs ExactProofs FlowProofs2 ReachProofs Live LiveProofs LiveProofs2 AppLive1 AppLive2 AppLive3 AppLive4 AppLive5 ErrorProofs ErrorProofs2.
From Verif Require Import ErrorSpec.
From Verif Require Import ConfigSpec.

Lemma p_C67_each_event :
  forall E w0 w p, init_mem E w0 -> reach E w0 w -> app_built E w0 p -> only_through_app E p (tr (wm w)) ->
  forall t pr c a b its z d, span t (tr (wm w)) a (OTake (queue_of E (ap_mach (apps E p))) pr c) b its z d -> left_init E p a ->
    exists l k, c = Some (ELife l, ap_mach (apps E p)) /\ is_in E p k a /\
      is_in E p (match k with Some k => life_step k l | None => None end) (a ++ (t, OTake (queue_of E (ap_mach (apps E p))) pr c) :: b ++ [(t, z)]).
Proof.
  intros E w0 w p H0 Hr Hb HQ t pr c a b its z d Hs (st & Hc & Hn).
  assert (HT : tr (wm w) = a ++ (t, OTake (queue_of E (ap_mach (apps E p))) pr c) :: b ++ (t, z) :: d) by (destruct Hs as (HT & _); exact HT).
  destruct (t_life E w0 p H0 Hb w Hr HQ _ _ _ _ _ HT) as [-> [l ->]].
  pose proof (take_rests E w0 p H0 w Hr _ _ _ _ HT) as Hre.
  assert (HT2 : tr (wm w) = (a ++ []) ++ (worker_of E (ap_mach (apps E p)), OTake (queue_of E (ap_mach (apps E p))) pr (Some (ELife l, ap_mach (apps E p)))) :: b ++ (worker_of E (ap_mach (apps E p)), z) :: d) by (rewrite app_nil_r; exact HT).
  destruct (left_rest E w0 p H0 Hb w Hr HQ a [] st _ HT2 Hc Hn ltac:(rewrite app_nil_r; exact Hre)) as [[Ho _] [(k & Hk & Hst)|Hst]]; rewrite app_nil_r in Ho, Hst.
  - exists l, (Some k). split; [reflexivity|]. split; [exact Hst|].
    pose proof (t_state E w0 p H0 Hb w Hr HQ _ _ _ _ _ _ _ _ Hs Ho k Hst) as Hs2.
    destruct k, l; exact Hs2.
  - exists l, None. split; [reflexivity|]. split; [exact Hst|].
    exact (t_ended E w0 p H0 Hb w Hr HQ _ _ _ _ _ _ _ _ Hs Ho _ Hst).
Qed.

Section Stops.
  Context (E : env) (p : apid).
  Notation m := (ap_mach (apps E p)).
  Notation q := (queue_of E m).
  Notation wkr := (worker_of E m).
Lemma p_C67_error_stops :
  forall w0 s, init_mem E w0 -> app_built E w0 p -> served E w0 s (queue_of E (ap_mach (apps E p))) ->
  (forall n, only_through_app E p (LiveSpec.history E w0 s n)) ->
  forall t n a r, goes_on E w0 s t -> LiveSpec.history E w0 s n = a ++ (t, OInv (AAppError p)) :: r -> left_init E p a ->
    exists n' h r', LiveSpec.history E w0 s n' = h ++ r' /\ upto (a ++ [(t, OInv (AAppError p))]) h /\
      rests (queue_of E (ap_mach (apps E p))) (worker_of E (ap_mach (apps E p))) h /\ (is_stopped E p h \/ is_over E p h).
Proof.
  intros w0 s H0 Hb Hsv HQ t n a r Hg HT Hleft. pose proof Hleft as (st & Hc & Hns).
  destruct (finished E w0 s H0 t n a (OInv (AAppError p)) (FApi (AAppError p)) r Hg HT eq_refl) as (n1 & b & its & z & d & Hn1 & Hs).
  pose proof (moment_reach E w0 s n1) as Hr1.
  assert (HT1 : tr (wm (moment E w0 s n1)) = a ++ (t, OInv (AAppError p)) :: b ++ (t, z) :: d) by (destruct Hs as (X & _); exact X).
  pose proof (left_over E w0 p H0 Hb _ Hr1 (HQ n1) a st _ HT1 Hc Hns) as Ho.
  destruct (error_sent E w0 p H0 Hb _ Hr1 (HQ n1) t a b its z d Hs Ho) as [(b1 & b2 & Hbb & He)|(b1 & b2 & pr & Hbb)].
  - assert (Hx : serves E (exec_of E m) q) by (exists m; auto).
    assert (Hgw : goes_on E w0 s wkr) by (apply (sv_go _ _ _ _ Hsv _ 0 Hx); apply (sv_some _ _ _ _ Hsv _ Hx)).
    destruct (LiveProofs.rests E w0 s H0 wkr n1 Hgw) as (n2 & Hn2 & [i Hre]).
    destruct (history_le E w0 s n1 n2 Hn2) as [x Hx2].
    set (h1 := a ++ (t, OInv (AAppError p)) :: b1) in *.
    assert (Hh : LiveSpec.history E w0 s n2 = h1 ++ (b2 ++ (t, z) :: d ++ x)).
    { rewrite Hx2. unfold LiveSpec.history. rewrite HT1, Hbb. unfold h1. repeat (rewrite <- app_assoc; simpl). reflexivity. }
    exists n2, (LiveSpec.history E w0 s n2), []. split; [rewrite app_nil_r; reflexivity|].
    split; [exists (b1 ++ b2 ++ (t, z) :: d ++ x); rewrite Hh; unfold h1; repeat (rewrite <- app_assoc; simpl); reflexivity|].
    assert (Hrs : rests q wkr (LiveSpec.history E w0 s n2)) by (eapply (root_rests E p); exact Hre). split; [exact Hrs|]. right.
    pose proof (moment_reach E w0 s n2) as Hr2. rewrite Hh in Hrs |- *.
    assert (HT2 : tr (wm (moment E w0 s n2)) = (h1 ++ (b2 ++ (t, z) :: d ++ x)) ++ []) by (rewrite app_nil_r; exact Hh).
    pose proof (ended_stays E w0 _ H0 Hr2 m h1 (b2 ++ (t, z) :: d ++ x) [] HT2 (over_later _ _ _ Ho) He) as He2.
    assert (Ha2 : h1 ++ (b2 ++ (t, z) :: d ++ x) = a ++ ((t, OInv (AAppError p)) :: b1 ++ b2 ++ (t, z) :: d ++ x)) by (unfold h1; repeat (rewrite <- app_assoc; simpl); reflexivity).
    rewrite Ha2 in *. destruct (left_rest E w0 p H0 Hb _ Hr2 (HQ n2) a _ st [] HT2 Hc Hns Hrs) as [_ [(k & _ & Hst)|Hst]]; [|exact Hst].
    exfalso. injection Hst as _ X. congruence.
  - set (of := OOffer q pr (ELife LError) m (ELife LError) m) in *.
    set (ho := a ++ (t, OInv (AAppError p)) :: b1).
    assert (HTo : LiveSpec.history E w0 s n1 = ho ++ (t, of) :: b2 ++ (t, z) :: d).
    { unfold LiveSpec.history. rewrite HT1, Hbb. unfold ho. repeat (rewrite <- app_assoc; simpl). reflexivity. }
    destruct (p_C51_accepted_is_processed E w0 s q H0 Hsv n1 ho t pr (ELife LError) m (ELife LError) m _ HTo) as (n2 & x & i & a' & b' & its' & z' & d' & _ & Hs2 & _ & Hlen).
    pose proof (moment_reach E w0 s n2) as Hr2. set (op := OTake q pr (Some (ELife LError, m))) in *.
    assert (HT2 : tr (wm (moment E w0 s n2)) = a' ++ (TWorker x i, op) :: b' ++ (TWorker x i, z') :: d') by (destruct Hs2 as (X & _); exact X).
    (* the event is taken after it was offered *)
    assert (Hup : upto (a ++ [(t, OInv (AAppError p))]) a').
    { assert (Hpre : upto ho a' \/ upto (a' ++ [(TWorker x i, op)]) ho).
      { assert (Hboth : exists n3 r1 r2, LiveSpec.history E w0 s n3 = ho ++ r1 /\ LiveSpec.history E w0 s n3 = (a' ++ [(TWorker x i, op)]) ++ r2).
        { destruct (Nat.le_ge_cases n1 n2) as [Hle|Hle]; destruct (history_le E w0 s _ _ Hle) as [y Hy].
          - exists n2. eexists _, _. split; [rewrite Hy, HTo, <- app_assoc; reflexivity|unfold LiveSpec.history; rewrite HT2, <- app_assoc; reflexivity].
          - exists n1. eexists _, _. split; [exact HTo|]. rewrite Hy. unfold LiveSpec.history. rewrite HT2. repeat (rewrite <- app_assoc; simpl). reflexivity. }
        destruct Hboth as (n3 & r1 & r2 & X1 & X2). rewrite X1 in X2. apply app_eq_app in X2. destruct X2 as (l & [[L1 L2]|[L1 L2]]).
        - right. exists l. exact L1.
        - destruct l as [|y l] using rev_ind; [right; exists []; rewrite app_nil_r in *; symmetry; exact L1|].
          rewrite app_assoc in L1. apply app_inj_tail in L1. destruct L1 as [L1 _]. left. exists l. exact L1. }
      destruct Hpre as [[y ->]|[y Hy]].
      - exists (b1 ++ y). unfold ho. repeat (rewrite <- app_assoc; simpl). reflexivity.
      - exfalso.
        assert (HT3 : tr (wm (moment E w0 s n2)) = (a' ++ [(TWorker x i, op)]) ++ b' ++ (TWorker x i, z') :: d') by (rewrite HT2, <- app_assoc; reflexivity).
        destruct (reach_prefix E w0 _ (im_tr _ _ H0) Hr2 _ _ HT3) as (w3 & Hr3 & Hw3).
        pose proof (fifo E w0 w3 q H0 Hr3) as Hf. rewrite Hw3 in Hf.
        apply (f_equal (@List.length _)) in Hf. rewrite app_length in Hf.
        assert (Ht : List.length (taken q (a' ++ [(TWorker x i, op)])) = S (List.length (taken q a'))).
        { rewrite taken_app, app_length. unfold op. rewrite taken_one. simpl. lia. }
        assert (Hac : List.length (accepted q ho) = List.length (accepted q (a' ++ [(TWorker x i, op)])) + List.length (accepted q y)) by (rewrite Hy, accepted_app, app_length; reflexivity).
        lia. }
    destruct Hup as [y Hy]. assert (Hy2 : a' = a ++ ((t, OInv (AAppError p)) :: y)) by (rewrite Hy, <- app_assoc; reflexivity).
    assert (Hleft2 : left_init E p a').
    { rewrite Hy2. eapply (left_stays E w0 p H0 Hb _ Hr2 (HQ n2) a); [rewrite <- Hy2; exact HT2|exact Hc|exact Hns]. }
    destruct (t_life E w0 p H0 Hb _ Hr2 (HQ n2) _ _ _ _ _ HT2) as [Hwk _].
    destruct (p_C67_each_event E w0 _ p H0 Hr2 Hb (HQ n2) _ _ _ _ _ _ _ _ Hs2 Hleft2) as (l & k & [= <-] & Hbefore & Hafter).
    exists n2, (a' ++ (TWorker x i, op) :: b' ++ [(TWorker x i, z')]), d'.
    split; [unfold LiveSpec.history; rewrite HT2; repeat (rewrite <- app_assoc; simpl); reflexivity|].
    split; [exists (y ++ (TWorker x i, op) :: b' ++ [(TWorker x i, z')]); rewrite Hy; repeat (rewrite <- app_assoc; simpl); reflexivity|].
    split.
    + pose proof Hs2 as Hs3. rewrite Hwk in Hs3 |- *. exact (span_rests E w0 p H0 _ Hr2 _ _ _ _ _ _ _ Hs3).
    + destruct k as [k|]; [|right; exact Hafter].
      left. unfold is_stopped. destruct k; simpl in Hafter; try exact Hafter.
      exfalso. destruct Hleft2 as (s2 & X1 & X2). injection Hbefore as X3 _. congruence.
Qed.
End Stops.
