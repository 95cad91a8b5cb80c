(** * AppLive7.v: the life of an app service, from start() to its end (proofs) *)
From Verif Require Import Sched MemInv Logic LiveSpec Lang Tree Nodes Marks Place Moments Truth Copies QueueProofs CallProofs FireProofs StartProofs
  TokenProofs ExactProofs FlowProofs2 Live LiveProofs LiveProofs2 AppLive1 AppLive2 AppLive3 AppLive4 AppLive5 AppLive6.
From Verif Require Import AppLiveSpec.
From Verif Require Import ConfigSpec.

(** ** Every part of a history is the history at some moment *)
Lemma step_one E w t : tr (wm (step_or_stay E w t)) = tr (wm w) \/ exists o, tr (wm (step_or_stay E w t)) = tr (wm w) ++ [o].
Proof.
  assert (Hp : forall (A : Set) (p : prog A) m' p', pstep E (wm w) t p = Some (m', p') -> tr m' = tr (wm w) \/ exists o, tr m' = tr (wm w) ++ [o]).
  { intros A p m' p' H. destruct p as [a|x|i k]; try discriminate.
    destruct (pstep_inv _ _ _ _ _ _ _ H) as [(c & e & -> & ->)|(v & Hx & ->)]; [left; reflexivity|].
    destruct (exec_grows _ _ _ _ _ _ Hx) as [->|[o ->]]; eauto. }
  unfold step_or_stay. destruct (step E w t) as [w'|] eqn:Hs; [|left; reflexivity].
  destruct t as [n|x i]; simpl in Hs.
  - destruct (pstep E (wm w) (TClient n) (wc w n)) as [[m' p']|] eqn:Ep; [|discriminate]. injection Hs as <-. eapply Hp; exact Ep.
  - destruct (negb _); [discriminate|]. destruct (ww w x i) as [|tk [[|]|e|ins k]].
    + destruct (tasks (wm w) x); [discriminate|]. injection Hs as <-. left. reflexivity.
    + injection Hs as <-. left. reflexivity.
    + injection Hs as <-. left. reflexivity.
    + injection Hs as <-. right. eexists. reflexivity.
    + destruct (pstep E (wm w) (TWorker x i) (Vis ins k)) as [[m' p']|] eqn:Ep; [|discriminate]. injection Hs as <-. eapply Hp; exact Ep.
Qed.
Lemma prefix_moment E w0 (s : nat -> tid) : tr w0 = [] -> forall n h r, LiveSpec.history E w0 s n = h ++ r -> exists n', n' <= n /\ LiveSpec.history E w0 s n' = h.
Proof.
  intro Htr. induction n as [|n IH]; intros h r HT.
  - exists 0. split; [lia|]. unfold LiveSpec.history in *. simpl in *. rewrite Htr in *. destruct h; [reflexivity|discriminate].
  - destruct r as [|x r] using rev_ind; [exists (S n); split; [lia|]; rewrite HT, app_nil_r; reflexivity|].
    unfold LiveSpec.history in HT. simpl in HT. destruct (step_one E (moment E w0 s n) (s n)) as [Hs|[o Hs]]; rewrite Hs in HT.
    + destruct (IH _ _ HT) as (n' & Hn & H). exists n'. split; [lia|exact H].
    + rewrite app_assoc in HT. apply app_inj_tail in HT. destruct HT as [HT _]. destruct (IH _ _ HT) as (n' & Hn & H). exists n'. split; [lia|exact H].
Qed.

Section Life.
  Context (E : env) (w0 : mem) (s : nat -> tid) (p : apid).
  Notation T := (LiveSpec.history E w0 s).
  Notation W := (moment E w0 s).
  Notation m := (ap_mach (apps E p)).
  Notation q := (queue_of E m).
  Notation wkr := (worker_of E m).
  Context (H0 : init_mem E w0) (Hb : app_built E w0 p) {f : fate} (HL : left_to_fate E w0 s p f) (Hsv : served E w0 s q).
  Notation part := (part E w0 s).
  Notation cont := (@cont E p f).
  Notation K h := (List.length (taken q h)).
  Notation J h := (List.length (accepted q h)).
  Lemma HG N : @Good E w0 s p f N. Proof. apply good; assumption. Qed.
  Lemma hpart n : part (T n). Proof. exists n, []. rewrite app_nil_r. reflexivity. Qed.
  Lemma moment_at h : part h -> exists n, T n = h.
  Proof. intros (n & r & HT). destruct (prefix_moment E w0 s (im_tr _ _ H0) n h r HT) as (n' & _ & H). eauto. Qed.
  Lemma fifo_le h : part h -> K h <= J h.
  Proof. intro Hp. destruct (fifo_part E w0 s p H0 _ Hp) as [l ->]. rewrite app_length. lia. Qed.
  Lemma offers_le h : f <> Again -> part h -> J h <= @NS E p f.
  Proof. intros Hfa Hp. revert Hfa. exact (proj2 (contents E w0 s p (List.length h) (HG _) h Hp (le_n _))). Qed.
  Lemma rests_start h : taken q h = [] -> rests q wkr h.
  Proof. intro Ht. apply (rests_on E p [] h); [|exact Ht]. apply (root_rests E p [] []). reflexivity. Qed.
  Lemma not_rests h a pr c b u i : h = a ++ (wkr, OTake q pr c) :: b -> fst (scan wkr b) = u ++ [(FRoot, i)] -> ~ rests q wkr h.
  Proof.
    intros Hh Hs Hr. apply (Hr pr c i). unfold opened. rewrite Hh, (stack_at wkr a (OTake q pr c) b (FTake q pr c) u i eq_refl Hs).
    apply in_or_app. right. left. reflexivity.
  Qed.
  (** ** The last event taken, and where its processing is *)
  Definition taking (h a : trace) (pr : pid) (b : trace) (n : nat) (b' : trace) (its : list obs) (z : obs) (d r : trace) : Prop :=
    let i := K a in
    h = a ++ (wkr, OTake q pr (cont i)) :: b /\ taken q b = [] /\ inplan f i /\ start_over m a /\ mstate_at m a = (Some (lst E p f i), false) /\ rests q wkr a /\
    span wkr (T n) a (OTake q pr (cont i)) b' its z d /\ T n = h ++ r /\ part (a ++ [(wkr, OTake q pr (cont i))]).
  Lemma phase h : part h -> taken q h = [] \/ exists a pr b n b' its z d r, taking h a pr b n b' its z d r /\
    ((exists b2, b' = b ++ b2) \/ (exists d', b = b' ++ (wkr, z) :: d' /\ taken q d' = [] /\ rests q wkr (a ++ (wkr, OTake q pr (cont (K a))) :: b' ++ [(wkr, z)]))).
  Proof.
    intro Hp. destruct (taken q h) eqn:Et; [left; reflexivity|right].
    destruct (last_take E p h) as (a & t & pr & c & b & Hh & Hb0); [rewrite Et; discriminate|].
    assert (Hpt : part (a ++ [(t, OTake q pr c)])) by (apply (part_pre E w0 s _ b); rewrite <- app_assoc; simpl; rewrite <- Hh; exact Hp).
    destruct (take_thread E w0 s p H0 Hb _ _ _ _ Hpt) as [-> _].
    assert (Hla : List.length a < List.length h) by (rewrite Hh, app_length; simpl; lia).
    destruct (take_all E w0 s p H0 Hb HL Hsv (List.length a) (HG _) a pr c h Hpt (le_n _) Hp) as (-> & H5 & Ho & Hst & n & b' & its & z & d & r & Hs & HT).
    exists a, pr, b, n, b', its, z, d, r. split.
    - repeat split; auto; [|apply Hs..]. destruct (take_root E w0 s p H0 _ _ _ Hpt) as [i Hi]. eapply root_rests; eauto.
    - assert (HT2 : T n = (a ++ (wkr, OTake q pr (cont (K a))) :: b) ++ r) by (rewrite <- Hh; exact HT).
      destruct (span_cmp E w0 s _ _ _ _ _ _ _ _ _ _ Hs HT2) as [Hx|[d' Hd']]; [left; exact Hx|right]. exists d'. split; [exact Hd'|]. split.
      + rewrite Hd' in Hb0. change ((wkr, z) :: d') with ([(wkr, z)] ++ d') in Hb0. rewrite !taken_app in Hb0.
        apply app_eq_nil in Hb0. destruct Hb0 as [_ Hb0]. apply app_eq_nil in Hb0. apply Hb0.
      + destruct (take_root E w0 s p H0 _ _ _ Hpt) as [ia Hia].
        destruct (after_span E p a (OTake q pr (cont (K a))) b' its z ia Hia) as [j Hj]; [eexists; reflexivity|apply Hs|apply Hs|]. eapply root_rests; exact Hj.
  Qed.
  Lemma state_rest h : part h -> rests q wkr h -> taken q h <> [] -> mstate_at m h = (Some (lst E p f (K h)), past f (K h)).
  Proof.
    intros Hp Hre Hne. apply (state_at E w0 s p H0 Hb HL Hsv (List.length h) (HG _) (List.length h)); auto.
    apply (was_started E w0 s p (List.length h) (HG _)); auto. intro Ha. apply Hne. destruct (fifo_part E w0 s p H0 _ Hp) as [l Hf].
    rewrite Ha in Hf. symmetry in Hf. apply app_eq_nil in Hf. apply Hf.
  Qed.
  Lemma ended_known h : part h -> ended_at m h = true -> past f (K h) = true.
  Proof.
    intros Hp He. destruct (phase h Hp) as [Ht|(a & pr & b & n & b' & its & z & d & r & (Hh & Hb0 & H5 & Ho & Hst & Hra & Hs & HT & Hpt) & Hc)].
    - exfalso. destruct (part_reach E w0 s H0 _ Hp) as (w & Hr & Hw). pose proof (part_quiet E w0 s p HL Hsv _ Hp) as HQ. rewrite <- Hw in HQ.
      destruct (early_state E w0 p H0 Hb w Hr HQ h [] ltac:(rewrite app_nil_r; exact Hw) Ht) as (_ & H & _). congruence.
    - assert (HK : K h = S (K a)) by (rewrite Hh, taken_app, app_length, taken_cons, Hb0; simpl; lia).
      destruct Hc as [[b2 Hb2]|(d' & Hd' & Htd & Hre)].
      + rewrite HK, past_S. destruct (upto_dec (K a) H5) as [Hg|Hl]; [exact Hg|exfalso].
        rewrite (take_not_ended E w0 p H0 Hb (W n) (moment_reach E w0 s n) (quiet E w0 s p HL Hsv n) wkr a pr b' its z d (K a) Hs Ho Hst) with (h := h) in He; [discriminate| |exists b, b2; auto].
        exact (take_running E w0 p H0 Hb (W n) (moment_reach E w0 s n) (quiet E w0 s p HL Hsv n) wkr a pr b' its z d (K a) H5 Hs Ho Hst Hl).
      + assert (Hre2 : rests q wkr h).
        { replace h with ((a ++ (wkr, OTake q pr (cont (K a))) :: b' ++ [(wkr, z)]) ++ d') by (rewrite Hh, Hd'; repeat (rewrite <- !app_assoc; simpl); reflexivity).
          apply rests_on; assumption. }
        assert (Hne : taken q h <> []) by (intro X; rewrite X in HK; discriminate).
        pose proof (state_rest h Hp Hre2 Hne) as Hst2. unfold mstate_at in Hst2. rewrite He in Hst2. injection Hst2 as _ Hst2. congruence.
  Qed.

  (** ** The subsystems *)
  Lemma sub_call h t up j : part (h ++ [(t, OCall (KSub up p j))]) ->
    t = wkr /\ exists a pr c b u i, h = a ++ (wkr, OTake q pr c) :: b /\ fst (scan wkr b) = u ++ [(FRoot, i)].
  Proof.
    intro Hp. destruct (part_reach E w0 s H0 _ Hp) as (w & Hr & Hw).
    destruct (placed_at E w0 w H0 Hr _ _ _ _ Hw eq_refl) as (k & its & v & Hs & Hm).
    destruct (may_sub E p _ _ _ _ Hm) as (c & a' & e & m' & -> & Hpf & Ha').
    assert (Hmen : mentions p a') by (destruct Ha' as [->| ->]; reflexivity).
    destruct (act_take E w0 s p H0 Hb HL Hsv (List.length h) (HG _) h t c its v e m' (part_pre _ _ _ _ _ Hp) (le_n _) Hs (or_introl (ex_intro _ a' (conj Hpf Hmen)))) as (_ & -> & a & pr & b1 & u & i0 & Hh & Hb1 & _).
    split; [reflexivity|]. do 6 eexists. split; eassumption.
  Qed.
  Lemma sub_mark h t o : part (h ++ [(t, o)]) -> is_sub p o = true -> t = wkr /\ ~ rests q wkr h.
  Proof.
    intros Hp Hsub.
    assert (Ho' : exists up j, o = OCall (KSub up p j) \/ exists y, o = OBack (KSub up p j) y).
    { destruct o as [| |c|c y| | | | | | | | | | | |]; try discriminate; destruct c; try discriminate; simpl in Hsub; apply Nat.eqb_eq in Hsub; subst; eauto. }
    destruct Ho' as (up & j & [->|[y ->]]).
    - destruct (sub_call _ _ _ _ Hp) as (-> & a & pr & c & b & u & i & Hh & Hs). split; [reflexivity|]. eapply not_rests; eassumption.
    - destruct (part_reach E w0 s H0 _ Hp) as (w & Hr & Hw).
      destruct (back_inv E w0 H0 w Hr _ _ _ _ _ Hw) as (a0 & b0 & its0 & Hh & Hsp).
      assert (Hp2 : part (a0 ++ [(t, OCall (KSub up p j))])).
      { apply (part_pre E w0 s _ (b0 ++ [(t, OBack (KSub up p j) y)])). rewrite <- app_assoc. simpl. replace (a0 ++ (t, OCall (KSub up p j)) :: b0 ++ [(t, OBack (KSub up p j) y)]) with (h ++ [(t, OBack (KSub up p j) y)]); [exact Hp|].
        rewrite Hh, <- app_assoc. reflexivity. }
      destruct (sub_call _ _ _ _ Hp2) as (-> & a & pr & c & b & u & i & Ha0 & Hs). destruct Hsp as (_ & _ & Hsb).
      pose proof (stack_at wkr b (OCall (KSub up p j)) b0 _ [] its0 eq_refl Hsb) as Hst. rewrite Hs in Hst.
      assert (Hx : exists u' i', fst (scan wkr (b ++ (wkr, OCall (KSub up p j)) :: b0)) = u' ++ [(FRoot, i')]).
      { destruct u as [|[k1 i1] u]; simpl in Hst; rewrite Hst; [eexists [_], _; reflexivity|eexists (_ :: _ :: u), i; reflexivity]. }
      destruct Hx as (u' & i' & Hx). split; [reflexivity|]. eapply (not_rests h a pr c _ u' i'); [|exact Hx]. rewrite Hh, Ha0, <- app_assoc. reflexivity.
  Qed.
  Lemma gap_subs h r : part (h ++ r) -> rests q wkr h -> taken q r = [] -> subsystem_marks p (h ++ r) = subsystem_marks p h.
  Proof.
    induction r as [|[t o] r IH] using rev_ind; intros Hp Hre Ht; [rewrite app_nil_r; reflexivity|].
    rewrite taken_app in Ht. apply app_eq_nil in Ht. destruct Ht as [Ht _]. rewrite app_assoc in *.
    unfold subsystem_marks in *. rewrite map_app, filter_app, (IH (part_pre _ _ _ _ _ Hp) Hre Ht). simpl.
    destruct (is_sub p o) eqn:Eo; [|apply app_nil_r]. exfalso. exact (proj2 (sub_mark _ _ _ Hp Eo) (rests_on E p _ _ Hre Ht)).
  Qed.
  Definition marks (k : nat) (l : list obs) : Prop :=
    exists l1 l2, l = l1 ++ l2 /\ (if Nat.leb 1 k then round_marks E p f true l1 else l1 = []) /\
      (if andb (Nat.leb 3 k) (Nat.leb 3 (lastk f)) then round_marks E p f false l2 else l2 = []).
  (** the marks of the first k events *)
  Fixpoint runs (k : nat) (l : list obs) : Prop :=
    match k with 0 => l = [] | S k' => exists l1 l2, l = l1 ++ l2 /\ runs k' l1 /\ step_marks E p f k' l2 end.
  Lemma marks_step k l l' : f <> Again -> marks k l -> step_marks E p f k l' -> marks (S k) (l ++ l').
  Proof.
    intros Hfa (l1 & l2 & -> & H1 & H2) H. unfold marks in *.
    assert (H' : match k with 0 => round_marks E p f true l' | 2 => match f with NoStart => l' = [] | _ => round_marks E p f false l' end | _ => l' = [] end).
    { revert H. clear - Hfa. unfold step_marks. revert Hfa. case f; intros Hfa H; try exact H. congruence. }
    clear H. rename H' into H.
    destruct k as [|[|[|k]]]; cbn [Nat.leb andb] in *.
    - subst l1 l2. exists l', []. rewrite !app_nil_r. simpl. auto.
    - subst l2 l'. exists l1, []. rewrite !app_nil_r. auto.
    - subst l2. rewrite app_nil_r. exists l1, l'. split; [reflexivity|]. split; [exact H1|]. revert H. clear. unfold lastk. case f; simpl; auto.
    - assert (l' = []) as -> by (destruct k; exact H). rewrite app_nil_r. exists l1, l2. auto.
  Qed.
  Lemma runs_rest n : forall h, List.length h <= n -> part h -> rests q wkr h -> runs (K h) (subsystem_marks p h).
  Proof.
    induction n as [|n IH]; intros h Hn Hp Hre; [destruct h; [reflexivity|simpl in Hn; lia]|].
    destruct (phase h Hp) as [Ht|(a & pr & b & n' & b' & its & z & d & r & (Hh & Hb0 & H5 & Ho & Hst & Hra & Hs & HT & Hpt) & Hc)].
    - rewrite Ht. pose proof (gap_subs [] h Hp (rests_start [] eq_refl) Ht) as Hg. simpl in Hg. rewrite Hg. reflexivity.
    - assert (HK : K h = S (K a)) by (rewrite Hh, taken_app, app_length, taken_cons, Hb0; simpl; lia).
      destruct Hc as [[b2 Hb2]|(d' & Hd' & Htd & Hre2)].
      + exfalso. destruct Hs as (_ & _ & Hsb). rewrite Hb2 in Hsb. destruct (root_kept_t _ _ _ [] _ Hsb) as (u1 & i1 & i2 & Hu & _).
        eapply not_rests; eassumption.
      + assert (Hh2 : h = (a ++ (wkr, OTake q pr (cont (K a))) :: b' ++ [(wkr, z)]) ++ d') by (rewrite Hh, Hd'; repeat (rewrite <- !app_assoc; simpl); reflexivity).
        rewrite HK, Hh2. rewrite gap_subs; [|rewrite <- Hh2; exact Hp|exact Hre2|exact Htd].
        assert (Hla : List.length a < List.length h) by (rewrite Hh, app_length; simpl; lia).
        pose proof (IH a ltac:(lia) (part_pre _ _ _ _ _ Hpt) Hra) as IHa.
        pose proof (take_subs E w0 p H0 Hb (W n') (moment_reach E w0 s n') (quiet E w0 s p HL Hsv n') wkr a pr b' its z d (K a) H5 Hs Ho Hst) as Hsub.
        destruct (take_life E w0 p H0 Hb (W n') (moment_reach E w0 s n') (quiet E w0 s p HL Hsv n') wkr a pr b' its z d (K a) H5 Hs Ho Hst) as (-> & _).
        unfold subsystem_marks in *. rewrite map_app, filter_app. cbn [map snd filter is_sub]. rewrite map_app, filter_app. cbn [map snd filter is_sub List.app].
        rewrite app_nil_r. eexists _, _. split; [reflexivity|]. split; assumption.
  Qed.
  Lemma runs_marks k : forall l, f <> Again -> runs k l -> marks k l.
  Proof.
    induction k as [|k IH]; intros l Hfa H; [simpl in H; subst l; exists [], []; repeat split|]. destruct H as (l1 & l2 & -> & H1 & H2).
    apply marks_step; auto.
  Qed.
  Lemma marks_rest n h : f <> Again -> List.length h <= n -> part h -> rests q wkr h -> marks (K h) (subsystem_marks p h).
  Proof. intros Hfa Hn Hp Hre. apply runs_marks; [exact Hfa|]. eapply runs_rest; eassumption. Qed.
End Life.
Arguments marks E p f k l : clear implicits.
Arguments runs E p f k l : clear implicits.
