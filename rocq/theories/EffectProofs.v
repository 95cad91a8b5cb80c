(** * EffectProofs.v: every accepted event takes effect (proofs) *)
From Verif Require Import Sched MemInv Logic LiveSpec Lang Tree Nodes Marks Place Moments QueueProofs StartProofs
  TokenProofs ExactProofs FlowProofs FlowProofs2 FlowProofs3 Live LiveProofs LiveProofs2 AppLive5 AppLive7.
From Verif Require Import EffectSpec.

Section Effect.
  Context (E : env) (w0 : mem) (s : nat -> tid) (m : mid).
  Notation T := (LiveSpec.history E w0 s).
  Notation W := (moment E w0 s).
  Notation q := (queue_of E m).
  Notation wkr := (worker_of E m).
  Context (H0 : init_mem E w0) (Hsv : served E w0 s q) (Hpq : private_queue E m) (Hone : one_thread E m).
  Notation part := (part E w0 s).

  Lemma rests_later h r : rests q wkr h -> taken q r = [] -> rests q wkr (h ++ r).
  Proof.
    intros Hr Ht pr c its Ho. destruct (opened_earlier _ _ _ _ _ Ho ltac:(discriminate)) as [[i Hi]|(op & Hop & Hi)]; [exact (Hr _ _ _ Hi)|].
    destruct op; try discriminate. injection Hop as -> -> ->. apply in_split in Hi. destruct Hi as (a & b & ->).
    rewrite taken_app in Ht. apply app_eq_nil in Ht. destruct Ht as [_ Ht]. unfold taken in Ht. simpl in Ht. rewrite Nat.eqb_refl in Ht. discriminate.
  Qed.
  Lemma taken_on_root a t pr c r w : reach E w0 w -> tr (wm w) = a ++ (t, OTake q pr c) :: r -> t = wkr /\ exists i, fst (scan wkr a) = [(FRoot, i)].
  Proof.
    intros Hr Hw. assert (Hw' : tr (wm w) = (a ++ [(t, OTake q pr c)]) ++ r) by (rewrite <- app_assoc; exact Hw).
    assert (Ht : t = wkr).
    { apply (take_worker E w0 w H0 Hr m Hpq Hone (a ++ [(t, OTake q pr c)]) r t pr c [] Hw').
      unfold opened. rewrite (stack_at t a (OTake q pr c) [] (FTake q pr c) [] [] eq_refl eq_refl). left. reflexivity. }
    subst t. split; [reflexivity|].
    destruct (placed_at E w0 w H0 Hr wkr a (OTake q pr c) r Hw eq_refl) as (k & its & u & Hs & Hm). apply may_take in Hm. subst k.
    assert (Hst : fst (scan wkr (a ++ [(wkr, OTake q pr c)])) = [] ++ (FTake q pr c, []) :: add_item (OTake q pr c) (fst (scan wkr a))).
    { exact (stack_at wkr a (OTake q pr c) [] (FTake q pr c) [] [] eq_refl eq_refl). }
    destruct (take_on_root E w0 w H0 Hr _ _ _ _ _ _ _ _ _ Hw' Hst) as (i & Hi). rewrite Hs in Hi. simpl in Hi. injection Hi as _ ->.
    exists its. exact Hs.
  Qed.
  Lemma next_rest k n : k < List.length (accepted q (T n)) -> exists n1, k < List.length (taken q (T n1)) /\ rests q wkr (T n1).
  Proof.
    intro Hk. destruct (all_taken E w0 s q H0 Hsv k n Hk) as (n1 & Hn1 & Hk1).
    destruct (taken_at q _ _ Hk1) as (a & t & pr & c & r & HT & Ha & _).
    destruct (taken_on_root a t pr c r (W n1) (moment_reach E w0 s n1) HT) as [-> [i Hi]].
    assert (Hx : serves E (exec_of E m) q) by (exists m; auto).
    assert (Hg : goes_on E w0 s wkr) by (apply (sv_go _ _ _ _ Hsv _ 0 Hx); apply (sv_some _ _ _ _ Hsv _ Hx)).
    destruct (finished E w0 s H0 wkr n1 a (OTake q pr c) (FTake q pr c) r Hg HT eq_refl) as (n2 & b & its & z & d & Hn2 & Hs).
    destruct Hs as (HT2 & Hz & Hsb).
    assert (HT3 : T n2 = (a ++ (wkr, OTake q pr c) :: b ++ [(wkr, z)]) ++ d) by (rewrite HT2; repeat (rewrite <- ?app_assoc; simpl); reflexivity).
    destruct (prefix_moment E w0 s (im_tr _ _ H0) n2 _ _ HT3) as (n3 & _ & HT4). exists n3. rewrite HT4. split.
    - rewrite taken_app, app_length, Ha. unfold taken at 1. simpl. rewrite Nat.eqb_refl. simpl. lia.
    - intros pr' c' its' Ho. unfold opened in Ho. revert Ho.
      replace (a ++ (wkr, OTake q pr c) :: b ++ [(wkr, z)]) with ((a ++ (wkr, OTake q pr c) :: b) ++ [(wkr, z)]) by (rewrite <- app_assoc; reflexivity).
      rewrite Place.scan_snoc, (stack_at wkr a (OTake q pr c) b _ [] its eq_refl Hsb), Hi. unfold scan1. rewrite Hz. simpl. intros [Ho|[]]. discriminate.
  Qed.

  Context (n0 : nat) (conf : sstate) (Hcalm : calm_from E w0 s m n0)
    (Hconf : conf_at E w0 (table_of E m) (T n0) conf) (Hrest : rests q wkr (T n0)).
  Notation effect n new := (took_effect E w0 m conf (T n0) (T n) new).
  Lemma effect_at n : n0 <= n -> rests q wkr (T n) -> exists new, effect n new.
  Proof.
    intros Hn Hr. destruct (history_le E w0 s n0 n Hn) as [r HT].
    destruct (all_events E w0 (W n) H0 (moment_reach E w0 s n) m (T n0) r conf Hpq Hone HT (Hcalm n r HT) Hconf Hrest) as (new & _ & Ht & Ha); [rewrite <- HT; exact Hr|].
    rewrite <- HT in *. exists new. split; [exact Hr|]. split; [exact Ht|]. split; [|exact Ha].
    pose proof (fifo E w0 (W n) q H0 (moment_reach E w0 s n)) as Hf. fold (T n) in Hf. rewrite Hf. eauto.
  Qed.
  Theorem takes_effect n : exists n' new, n0 <= n' /\ effect n' new /\
    List.length (accepted q (T n)) <= List.length (taken q (T n0)) + List.length new.
  Proof.
    destruct (Nat.le_gt_cases (List.length (accepted q (T n))) (List.length (taken q (T n0)))) as [Hle|Hgt].
    - destruct (effect_at n0 (le_n _) Hrest) as [new He]. exists n0, new. split; [lia|]. split; [exact He|lia].
    - destruct (next_rest (List.length (accepted q (T n)) - 1) n) as (n1 & Hk & Hr); [lia|].
      assert (Hn1 : n0 <= n1).
      { destruct (Nat.le_gt_cases n0 n1) as [|Hlt]; [assumption|]. destruct (history_le E w0 s n1 n0 ltac:(lia)) as [x Hx]. rewrite Hx, taken_app, app_length in Hgt. lia. }
      destruct (effect_at n1 Hn1 Hr) as [new He]. exists n1, new. split; [exact Hn1|]. split; [exact He|].
      destruct He as (_ & Ht & _). rewrite Ht, app_length, map_length in Hk. lia.
  Qed.
  Theorem settles n : (forall n', n <= n' -> accepted q (T n') = accepted q (T n)) ->
    exists n1, forall n2, n1 <= n2 -> exists new, effect n2 new /\ accepted q (T n2) = taken q (T n0) ++ map event_of new.
  Proof.
    intro Hno. destruct (takes_effect n) as (n' & new & Hn' & (Hr & Ht & _) & Hlen).
    assert (Hall : forall n2, n' <= n2 -> List.length (taken q (T n2)) <= List.length (taken q (T n')) /\ List.length (accepted q (T n2)) <= List.length (taken q (T n'))).
    { intros n2 Hn2. assert (Hacc : List.length (accepted q (T n2)) <= List.length (accepted q (T n))).
      { destruct (Nat.le_ge_cases n n2) as [H|H]; [rewrite (Hno n2 H); lia|]. destruct (history_le E w0 s n2 n H) as [x ->]. rewrite accepted_app, app_length. lia. }
      rewrite Ht, app_length, map_length. split; [|lia].
      pose proof (fifo E w0 (W n2) q H0 (moment_reach E w0 s n2)) as Hf. change (tr (wm (W n2))) with (T n2) in Hf. rewrite Hf, app_length in Hacc. lia. }
    exists n'. intros n2 Hn2. destruct (history_le E w0 s n' n2 Hn2) as [x Hx]. destruct (Hall n2 Hn2) as [Hl1 Hl2].
    assert (Hxt : taken q x = []) by (rewrite Hx, taken_app, app_length in Hl1; destruct (taken q x); [reflexivity|simpl in Hl1; lia]).
    assert (Hr2 : rests q wkr (T n2)) by (rewrite Hx; apply rests_later; assumption).
    destruct (effect_at n2 ltac:(lia) Hr2) as [new2 He]. exists new2. split; [exact He|].
    destruct He as (_ & Ht2 & [rest Ha] & _). rewrite Ha, app_length, Hx, taken_app, Hxt, app_nil_r in Hl2.
    destruct rest; [rewrite Ha, Ht2, app_nil_r; reflexivity|simpl in Hl2; lia].
  Qed.
End Effect.
