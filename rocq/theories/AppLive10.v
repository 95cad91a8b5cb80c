(** * AppLive10.v: a restartable app service started and stopped again and again (proofs) *)
From Verif Require Import Sched MemInv Logic LiveSpec Lang Tree Nodes Marks Place Moments Truth Copies QueueProofs CallProofs FireProofs StartProofs
  TokenProofs ExactProofs FlowProofs2 Live LiveProofs LiveProofs2 AppLive1 AppLive2 AppLive3 AppLive4 AppLive5 AppLive6 AppLive7 AppLive8.
From Verif Require Import AppLiveSpec.
From Verif Require Import ConfigSpec.

Lemma turn_fate E w0 s p : asked_in_turn E w0 s p -> left_to_fate E w0 s p Again.
Proof.
  intros [H1 H2 H3 H4 H5 H6 H7]. split; auto. intro n. split; [|intros; apply H3].
  intros t b i y Hin. exfalso. eapply H3; exact Hin.
Qed.
(** ** Numbers *)
Lemma even_stays n : stays Again (2 * n) = false.
Proof.
  unfold stays. induction n as [n IH] using lt_wf_ind. destruct n as [|[|n]]; [reflexivity|reflexivity|].
  replace (2 * S (S n)) with (S (S (S (S (2 * n))))) by lia. apply IH. lia.
Qed.
Lemma even_tostop n : tostop Again (2 * n) = false.
Proof.
  unfold tostop. induction n as [n IH] using lt_wf_ind. destruct n as [|[|n]]; [reflexivity|reflexivity|].
  replace (2 * S (S n)) with (S (S (S (S (2 * n))))) by lia. apply IH. lia.
Qed.
Lemma lst_started E p c : lst E p Again (4 * c + 2) = SApp p STARTED.
Proof. replace (4 * c + 2) with (S (4 * c + 1)) by lia. unfold lst. rewrite per_add. reflexivity. Qed.
Lemma lst_stopped E p c : lst E p Again (4 * c + 4) = SApp p STOPPED.
Proof. replace (4 * c + 4) with (S (4 * c + 3)) by lia. unfold lst. rewrite per_add. reflexivity. Qed.
Lemma asks_sum p h : asked (asks_p p) h = asked (starts_p p) h + asked (stops_p p) h.
Proof.
  induction h as [|[t o] h IH]; [reflexivity|]. rewrite !asked_cons, IH. cbn [snd]. unfold asks_p.
  assert (Hd : starts_p p o = true -> stops_p p o = false) by (destruct o as [x| | | | | | | | | | | | | | |]; try discriminate; destruct x; try discriminate; reflexivity).
  destruct (starts_p p o); [rewrite (Hd eq_refl)|destruct (stops_p p o)]; simpl; lia.
Qed.
Lemma turn_counts E p h : in_turn E p h -> asked (starts_p p) h = asked (stops_p p) h \/ asked (starts_p p) h = S (asked (stops_p p) h).
Proof.
  induction h as [|[t o] h IH] using rev_ind; intro H; [left; reflexivity|].
  assert (Hh : in_turn E p h) by (intros a t0 o0 r ->; apply (H a t0 o0 (r ++ [(t, o)])); rewrite <- app_assoc; reflexivity).
  specialize (IH Hh). destruct (H h t o [] eq_refl) as [P1 P2]. rewrite !asked_app, !asked_cons. cbn [snd]. rewrite asks_sum in *.
  change (asked (starts_p p) []) with 0. change (asked (stops_p p) []) with 0.
  assert (Hd : starts_p p o = true -> stops_p p o = false) by (destruct o as [x| | | | | | | | | | | | | | |]; try discriminate; destruct x; try discriminate; reflexivity).
  destruct (starts_p p o) eqn:E1.
  - rewrite (Hd eq_refl). destruct (P1 eq_refl) as [Hz|[[e He] _]]; lia.
  - destruct (stops_p p o); [|lia]. destruct (P2 eq_refl) as [[e He] _]. lia.
Qed.
(** ** What is done to the subsystems *)
Lemma four_steps E p k l : runs E p Again (S (S (S (S (4 * k))))) l -> exists l1, l = l1 ++ all_started E p ++ all_stopped E p /\ runs E p Again (4 * k) l1.
Proof.
  intros (l1 & x4 & -> & (l2 & x3 & -> & (l3 & x2 & -> & (l4 & x1 & -> & H & M1) & M2) & M3) & M4).
  unfold step_marks in *.
  replace (S (S (S (4 * k)))) with (4 * k + 3) in M4 by lia. replace (S (S (4 * k))) with (4 * k + 2) in M3 by lia.
  replace (S (4 * k)) with (4 * k + 1) in M2 by lia. replace (4 * k) with (4 * k + 0) in M1 by lia.
  rewrite per_add in M1, M2, M3, M4. simpl in M1, M2, M3, M4. unfold round_marks in M1, M3. simpl in M1, M3. subst x1 x2 x3 x4.
  exists l4. rewrite !app_nil_r, <- !app_assoc. split; [reflexivity|exact H].
Qed.
Lemma runs_rounds E p c : forall l, runs E p Again (4 * c) l -> l = rounds E p c.
Proof.
  induction c as [|c IH]; intros l H; [exact H|]. replace (4 * S c) with (S (S (S (S (4 * c))))) in H by lia.
  apply four_steps in H. destruct H as (l1 & -> & H). rewrite (IH _ H). reflexivity.
Qed.
Lemma runs_up E p c l : runs E p Again (4 * c + 2) l -> l = rounds E p c ++ all_started E p.
Proof.
  replace (4 * c + 2) with (S (S (4 * c))) by lia. intros (l3 & x2 & -> & (l4 & x1 & -> & H & M1) & M2). unfold step_marks in *.
  replace (S (4 * c)) with (4 * c + 1) in M2 by lia. replace (4 * c) with (4 * c + 0) in M1 by lia.
  rewrite per_add in M1, M2. simpl in M1, M2. unfold round_marks in M1. simpl in M1. subst x1 x2. rewrite app_nil_r, (runs_rounds _ _ _ _ H). reflexivity.
Qed.

(** start() that waits found the machine not started *)
Lemma await_false E p x i b j : appStartL E p x (i ++ OWr (WrAwait p b) :: j) ->
  exists c i', i = R (RdCur (ap_mach (apps E p)) c) :: R (RdStarted (ap_mach (apps E p)) false) :: i'.
Proof.
  intros (c & o1 & Hj & H). destruct i as [|o0 i]; [discriminate|]. injection Hj as -> Hj.
  destruct H as [(o2 & -> & H)|(o2 & -> & H)]; (destruct i as [|o0' i]; [discriminate|]); injection Hj as -> Hj; [eauto|]. exfalso.
  assert (Hin : In (OWr (WrAwait p b)) o2) by (rewrite <- Hj; apply in_or_app; right; left; reflexivity).
  destruct (andb _ _); [|destruct H as [_ ->]; destruct Hin].
  apply only_fire in H. rewrite Forall_forall in H. apply H in Hin. dmay; discriminate.
Qed.
Section Life.
  Context (E : env) (w0 : mem) (s : nat -> tid) (p : apid).
  Notation T := (LiveSpec.history E w0 s).
  Notation W := (moment E w0 s).
  Notation m := (ap_mach (apps E p)).
  Notation q := (queue_of E m).
  Notation wkr := (worker_of E m).
  Context (H0 : init_mem E w0) (Hb : app_built E w0 p) (HA : asked_in_turn E w0 s p) (Hsv : served E w0 s q).
  Definition HL : left_to_fate E w0 s p Again := turn_fate _ _ _ _ HA.
  Notation part := (part E w0 s).
  Notation cont := (@cont E p Again).
  Notation K h := (List.length (taken q h)).
  Notation J h := (List.length (accepted q h)).
  Notation HG := (HG E w0 s p H0 Hb HL Hsv).
  Notation hpart := (hpart E w0 s).

  Lemma never_ended h : part h -> ended_at m h = false.
  Proof. intro Hp. destruct (ended_at m h) eqn:He; [|reflexivity]. discriminate (ended_known E w0 s p H0 Hb HL Hsv h Hp He). Qed.
  Lemma cur_kept h x : part (h ++ x) -> taken q x = [] -> taken q h <> [] -> cur_at m h = Some (lst E p Again (K h)) ->
    cur_at m (h ++ x) = Some (lst E p Again (K h)).
  Proof.
    intros Hp Hx Hne Hc. assert (HK : K (h ++ x) = K h) by (rewrite taken_app, Hx, app_nil_r; reflexivity).
    destruct (phase E w0 s p H0 Hb HL Hsv _ Hp) as [Ht|(a & pr & b & n & b' & its & z & d & r & (Hh & Hb0 & H5 & Ho & Hst & Hra & Hs & HT & Hpt) & Hc')].
    - rewrite taken_app in Ht. apply app_eq_nil in Ht. destruct Ht. contradiction.
    - assert (HKa : K (h ++ x) = S (K a)) by (rewrite Hh, taken_app, app_length, taken_cons, Hb0; simpl; lia).
      assert (Hin : exists b1, h = a ++ (wkr, OTake q pr (cont (K a))) :: b1 /\ b = b1 ++ x).
      { destruct (app_eq_app _ _ _ _ Hh) as (l & [[L1 L2]|[L1 L2]]).
        - destruct l as [|y l]; [|injection L2 as <- L2; exists l; auto]. exfalso. simpl in L2. rewrite <- L2, taken_cons in Hx. discriminate.
        - exfalso. rewrite L2, taken_app, taken_cons in Hx. destruct (taken q l); discriminate. }
      destruct Hin as (b1 & Hh1 & Hb1).
      destruct Hc' as [[b2 Hb2]|(d' & Hd' & Htd & Hre)].
      + rewrite <- HK, HKa in Hc |- *.
        apply (take_cur_kept E w0 p H0 Hb (W n) (moment_reach E w0 s n) (quiet E w0 s p HL Hsv n) wkr a pr b' its z d (K a) H5 Hs Ho Hst); [exists b1, (x ++ b2)|exists b, b2|exact Hc].
        * split; [rewrite Hb2, Hb1, <- app_assoc; reflexivity|exact Hh1].
        * auto.
      + assert (Hre2 : rests q wkr (h ++ x)).
        { replace (h ++ x) with ((a ++ (wkr, OTake q pr (cont (K a))) :: b' ++ [(wkr, z)]) ++ d') by (rewrite Hh, Hd'; repeat (rewrite <- !app_assoc; simpl); reflexivity).
          apply rests_on; assumption. }
        pose proof (state_rest E w0 s p H0 Hb HL Hsv _ Hp Hre2) as H. rewrite <- HK. apply (f_equal fst) in H; [exact H|].
        intro Hz. rewrite Hz in HKa. discriminate.
  Qed.
  (** while a call, not the first, has not offered its event *)
  Lemma at_call h t a x b its : part h -> h = a ++ (t, OInv x) :: b -> fst (scan t b) = [(FRoot, its)] -> asks_p p (OInv x) = true -> AppLive4.no_offer its ->
    0 < asked (asks_p p) a ->
    exists k, cur_at m h = Some (SApp p k) /\ ((k = STOPPED /\ Nat.Even (asked (asks_p p) a)) \/ (k = STARTED /\ Nat.Odd (asked (asks_p p) a))).
  Proof.
    intros Hp Hh Hsb Hx Hno Hn. destruct (call_index E w0 s p H0 Hb HL Hsv (List.length h) (HG _) h t Hp (le_n _) eq_refl a x b its Hh Hsb Hx) as [_ HJ].
    specialize (HJ Hno). pose proof (fifo_le E w0 s p H0 h Hp) as Hle.
    assert (Hpa : part (a ++ [(t, OInv x)])) by (apply (part_pre E w0 s _ b); rewrite <- app_assoc; simpl; rewrite <- Hh; exact Hp).
    destruct (calls_seen E w0 s p H0 Hb HL Hsv (List.length a) (HG _) _ a t (OInv x) eq_refl eq_refl Hn Hx Hpa (le_n _)) as (k & b0 & c0 & Ha & Hcur & HK & Hk).
    exists k. split; [|exact Hk].
    assert (Hx0 : h = b0 ++ (c0 ++ (t, OInv x) :: b)) by (rewrite app_assoc, <- Ha; exact Hh). set (x0 := c0 ++ (t, OInv x) :: b) in *.
    rewrite Hx0, taken_app, app_length in Hle. rewrite <- Hx0 in Hle.
    assert (Htx : taken q x0 = []) by (destruct (taken q x0); [reflexivity|simpl in Hle; lia]).
    assert (HKb : K b0 = 2 * asked (asks_p p) a) by (rewrite Htx in Hle; simpl in Hle; lia).
    assert (Hl : lst E p Again (K b0) = SApp p k).
    { rewrite HKb. destruct Hk as [[-> [e He]]|[-> [e He]]]; rewrite He.
      - destruct e as [|e]; [lia|]. replace (2 * (2 * S e)) with (4 * e + 4) by lia. apply lst_stopped.
      - replace (2 * (2 * e + 1)) with (4 * e + 2) by lia. apply lst_started. }
    rewrite Hx0, <- Hl. apply cur_kept; [rewrite <- Hx0; exact Hp|exact Htx| |rewrite Hl; exact Hcur].
    intro Hz. rewrite Hz in HKb. simpl in HKb. lia.
  Qed.
  Lemma calls_over t n a x b its z d : span t (T n) a (OInv x) b its z d -> asks_p p (OInv x) = true -> 0 < asked (asks_p p) a ->
    2 * asked (asks_p p) a <= J a /\ start_over m a.
  Proof.
    intros Hs Hx Hn. destruct Hs as (HT & _).
    assert (Hpa : part (a ++ [(t, OInv x)])) by (eexists n, _; rewrite HT, <- app_assoc; reflexivity).
    pose proof (calls_done E w0 s p H0 Hb HL Hsv (List.length a) (HG _) _ a t (OInv x) eq_refl eq_refl Hn Hx Hpa (le_n _)) as HK.
    pose proof (fifo_le E w0 s p H0 a (part_pre _ _ _ _ _ Hpa)) as Hle. split; [lia|]. left.
    apply (was_started E w0 s p (List.length a) (HG _)); [exact (part_pre _ _ _ _ _ Hpa)|lia|]. intro Hz. rewrite Hz in Hle. simpl in Hle. lia.
  Qed.
  Lemma span_part t n a op b its z d h : span t (T n) a op b its z d -> during t a op b h -> part h.
  Proof.
    intros (HT & _) (b1 & b2 & -> & ->). exists n, (b2 ++ (t, z) :: d). rewrite HT. repeat (rewrite <- ?app_assoc; simpl). reflexivity.
  Qed.
  Lemma call_offers t n a x b its z d i1 y out l : span t (T n) a (OInv x) b its z d -> asks_p p (OInv x) = true -> 0 < asked (asks_p p) a ->
    its = i1 ++ out -> fireL E m (ELife l) y out -> y = None /\ 2 * asked (asks_p p) a < J (T n).
  Proof.
    intros Hs Hx Hn Hi Hl. destruct (calls_over _ _ _ _ _ _ _ _ Hs Hx Hn) as [HJ Ho].
    destruct (fire_exact E w0 p H0 Hb (W n) (moment_reach E w0 s n) (quiet E w0 s p HL Hsv n) t a (OInv x) b its z d i1 y out [] l) as (-> & pr & k & ->); auto.
    - rewrite app_nil_r. exact Hi.
    - intros h Hd. apply never_ended. eapply span_part; eassumption.
    - split; [reflexivity|].
      assert (Hin : In (t, OOffer q pr (ELife l) m (ELife l) m) b).
      { destruct Hs as (_ & _ & Hsb). eapply (its_in t b []); [exact Hsb|]. rewrite Hi. apply in_or_app. right. unfold fire_out. simpl. auto 12. }
      destruct Hs as (HT & _). rewrite HT, accepted_app, app_length.
      pose proof (in_accepted E p t pr (ELife l) m (ELife l) m ((t, OInv x) :: b ++ (t, z) :: d)) as Hne.
      destruct (accepted q ((t, OInv x) :: b ++ (t, z) :: d)); [exfalso; apply Hne; [right; apply in_or_app; left; exact Hin|reflexivity]|simpl; lia].
  Qed.
  (** start() called again *)
  Lemma start_again t n a b its v d : span t (T n) a (OInv (AAppStart p)) b its (ORet (AAppStart p) v) d -> 0 < asked (asks_p p) a ->
    v = RvUnit /\ 2 * asked (asks_p p) a < J (T n).
  Proof.
    intros Hs Hn. destruct (calls_over _ _ _ _ _ _ _ _ Hs (asks_start p) Hn) as [_ Ho].
    pose proof (span_node E w0 (W n) H0 (moment_reach E w0 s n) _ _ _ _ _ _ _ (FApi (AAppStart p)) Hs eq_refl) as [_ (x & Hv & Hl)].
    destruct Hl as (c & o1 & Hi & Hl).
    destruct (read_moment E w0 (W n) H0 (moment_reach E w0 s n) _ _ _ _ _ _ _ [] _ o1 Hs Hi) as (b1 & b2 & Hbb & Hsb & Hrd). simpl in Hrd.
    destruct (at_call (a ++ (t, OInv (AAppStart p)) :: b1) t a (AAppStart p) b1 []) as (k & Hk & Hpar); auto.
    { eapply span_part; [exact Hs|]. eexists b1, _. split; [exact Hbb|reflexivity]. }
    { apply asks_start. }
    assert (Hev : Nat.Even (asked (asks_p p) a)).
    { destruct Hs as (HT & _). destruct (at_turn _ _ _ _ HA n _ _ _ _ HT) as [H _]. destruct H as [H|[H _]]; [simpl; apply Nat.eqb_refl|lia|exact H]. }
    assert (k = STOPPED) as -> by (destruct Hpar as [[Hk' _]|[_ [e He]]]; [exact Hk'|destruct Hev as [e' He']; lia]).
    destruct Hl as [(o2 & -> & _)|(o2 & -> & Hl)].
    - exfalso. assert (Hi2 : its = [R (RdCur m c)] ++ R (RdStarted m false) :: o2) by exact Hi.
      destruct (read_moment E w0 (W n) H0 (moment_reach E w0 s n) _ _ _ _ _ _ _ _ _ _ Hs Hi2) as (c1 & c2 & _ & _ & Hrd2). simpl in Hrd2.
      destruct Hs as (HT & _). pose proof (over_started E w0 (W n) H0 (moment_reach E w0 s n) m _ _ HT Ho) as Hst.
      rewrite (started_app _ _ _ Hst) in Hrd2. discriminate.
    - rewrite Hrd, Hk in Hl. rewrite (at_exit _ _ _ _ HA) in Hl. simpl in Hl.
      assert (Hi2 : its = [R (RdCur m c); R (RdStarted m true)] ++ o2) by exact Hi.
      destruct (call_offers _ _ _ _ _ _ _ _ _ _ _ _ Hs (asks_start p) Hn Hi2 Hl) as [-> HJ]. split; [exact Hv|exact HJ].
  Qed.
  Lemma stop_odd t n a r : T n = a ++ (t, OInv (AAppStop p)) :: r -> Nat.Odd (asked (asks_p p) a).
  Proof. intro HT. destruct (at_turn _ _ _ _ HA n _ _ _ _ HT) as [_ H]. destruct H as [H _]; [simpl; apply Nat.eqb_refl|exact H]. Qed.
  Lemma stop_again t n a b its v d : span t (T n) a (OInv (AAppStop p)) b its (ORet (AAppStop p) v) d ->
    v = RvUnit /\ 2 * asked (asks_p p) a < J (T n).
  Proof.
    intros Hs. pose proof (stop_odd t n a _ (proj1 Hs)) as Hodd. assert (Hn : 0 < asked (asks_p p) a) by (destruct Hodd as [e He]; lia).
    pose proof (span_node E w0 (W n) H0 (moment_reach E w0 s n) _ _ _ _ _ _ _ (FApi (AAppStop p)) Hs eq_refl) as [_ (x & Hv & Hl)].
    destruct Hl as (c & o1 & Hi & Hl).
    destruct (read_moment E w0 (W n) H0 (moment_reach E w0 s n) _ _ _ _ _ _ _ [] _ o1 Hs Hi) as (b1 & b2 & Hbb & Hsb & Hrd). simpl in Hrd.
    destruct (at_call (a ++ (t, OInv (AAppStop p)) :: b1) t a (AAppStop p) b1 []) as (k & Hk & Hpar); auto.
    { eapply span_part; [exact Hs|]. eexists b1, _. split; [exact Hbb|reflexivity]. }
    { apply asks_stop. }
    assert (k = STARTED) as -> by (destruct Hpar as [[_ [e He]]|[Hk' _]]; [destruct Hodd as [e' He']; lia|exact Hk']).
    rewrite Hrd, Hk in Hl. simpl in Hl. assert (Hi2 : its = [R (RdCur m c)] ++ o1) by exact Hi.
    destruct (call_offers _ _ _ _ _ _ _ _ _ _ _ _ Hs (asks_stop p) Hn Hi2 Hl) as [-> HJ]. split; [exact Hv|exact HJ].
  Qed.
  (** ** Once the k-th call has offered its event *)
  Lemma calls_settle k n : 2 * k < J (T n) -> exists n1 l, runs E p Again (2 * k + 2) l /\ forall n2, n1 <= n2 -> n2 = n1 \/ asked (asks_p p) (T n2) <= S k ->
    cur_at m (T n2) = Some (lst E p Again (2 * k + 2)) /\ ended_at m (T n2) = false /\ subsystem_marks p (T n2) = l.
  Proof.
    intro Hj. destruct (AppLive8.next E w0 s p H0 Hb HL Hsv (2 * k) n Hj) as (n' & _ & Hj').
    { split; [apply even_stays|]. split; [exact I|rewrite even_tostop; discriminate]. }
    destruct (settle E w0 s p H0 Hb HL Hsv (S (2 * k)) n' Hj') as (n1 & HK & Hre).
    replace (2 * k + 2) with (S (S (2 * k))) by lia.
    exists n1, (subsystem_marks p (T n1)). split; [exact (settled_runs E w0 s p H0 Hb HL Hsv _ _ HK Hre)|].
    intros n2 Hn2 Hor.
    assert (Hres : mstate_at m (T n2) = (Some (lst E p Again (S (S (2 * k)))), false) /\ subsystem_marks p (T n2) = subsystem_marks p (T n1)).
    { destruct Hor as [->|Hno].
      - split; [|reflexivity]. rewrite (state_rest E w0 s p H0 Hb HL Hsv); [rewrite HK; reflexivity|apply hpart|exact Hre|]. intro Hz. rewrite Hz in HK. discriminate.
      - apply (settled E w0 s p H0 Hb HL Hsv _ n1 n2 HK Hre Hn2).
        pose proof (calls_bound E w0 s p (List.length (T n2)) (HG _) (T n2) eq_refl (hpart n2) (le_n _)) as Hbd. lia. }
    destruct Hres as [Hst Hm]. unfold mstate_at in Hst. injection Hst as H1 H2. auto.
  Qed.
  (** ** The theorems *)
  Notation up c n2 := (cur_at m (T n2) = Some (SApp p STARTED) /\ ended_at m (T n2) = false /\ subsystem_marks p (T n2) = rounds E p c ++ all_started E p).
  Notation down c n2 := (cur_at m (T n2) = Some (SApp p STOPPED) /\ ended_at m (T n2) = false /\ subsystem_marks p (T n2) = rounds E p (S c)).
  Lemma up_settle c n : 4 * c < J (T n) -> exists n1, forall n2, n1 <= n2 -> n2 = n1 \/ asked (asks_p p) (T n2) <= S (2 * c) -> up c n2.
  Proof.
    intro Hj. replace (4 * c) with (2 * (2 * c)) in Hj by lia. destruct (calls_settle _ _ Hj) as (n1 & l & Hr & H). replace (2 * (2 * c) + 2) with (4 * c + 2) in * by lia.
    apply runs_up in Hr. subst l. rewrite lst_started in H. exists n1. exact H.
  Qed.
  Lemma down_settle c n : 2 * (2 * c + 1) < J (T n) -> exists n1, forall n2, n1 <= n2 -> n2 = n1 \/ asked (asks_p p) (T n2) <= S (2 * c + 1) -> down c n2.
  Proof.
    intro Hj. destruct (calls_settle _ _ Hj) as (n1 & l & Hr & H).
    replace (2 * (2 * c + 1) + 2) with (4 * S c) in Hr by lia. replace (2 * (2 * c + 1) + 2) with (4 * c + 4) in H by lia.
    apply runs_rounds in Hr. subst l. rewrite lst_stopped in H. exists n1. exact H.
  Qed.
  Lemma counts n a r : T n = a ++ r -> asked (starts_p p) a = asked (stops_p p) a \/ asked (starts_p p) a = S (asked (stops_p p) a).
  Proof.
    intro HT. apply (turn_counts E). intros a0 t o r0 ->. apply (at_turn _ _ _ _ HA n a0 t o (r0 ++ r)). rewrite HT, <- app_assoc. reflexivity.
  Qed.
  Lemma start_count t n a r : T n = a ++ (t, OInv (AAppStart p)) :: r -> asked (asks_p p) a = 2 * asked (stops_p p) a.
  Proof.
    intro HT. destruct (at_turn _ _ _ _ HA n _ _ _ _ HT) as [H _]. specialize (H ltac:(simpl; apply Nat.eqb_refl)).
    pose proof (counts n a _ HT) as Hc. pose proof (asks_sum p a) as Hs. destruct H as [H|[[e H] _]]; lia.
  Qed.
  Lemma stop_count t n a r : T n = a ++ (t, OInv (AAppStop p)) :: r -> asked (asks_p p) a = 2 * asked (stops_p p) a + 1.
  Proof.
    intro HT. destruct (stop_odd t n a r HT) as [e H]. pose proof (counts n a _ HT) as Hc. pose proof (asks_sum p a) as Hs. lia.
  Qed.
  Theorem first_up n t : starters_go_on E w0 s p -> In (t, OInv (AAppStart p)) (T n) ->
    exists n1, forall n2, n1 <= n2 -> n2 = n1 \/ asked (asks_p p) (T n2) <= 1 -> up 0 n2.
  Proof.
    intros HS Hin. destruct (starts_up E w0 s p H0 Hb HL Hsv HS n t Hin) as [n0 Hu]. apply (up_settle 0 n0). destruct (accepted q (T n0)); [congruence|simpl; lia].
  Qed.
  Theorem again_up t n a b its v d : span t (T n) a (OInv (AAppStart p)) b its (ORet (AAppStart p) v) d -> 0 < asked (starts_p p) a ->
    v = RvUnit /\ exists n1, forall n2, n1 <= n2 -> n2 = n1 \/ asked (asks_p p) (T n2) <= S (asked (asks_p p) a) -> up (asked (stops_p p) a) n2.
  Proof.
    intros Hs Hn. pose proof (start_count t n a _ (proj1 Hs)) as Hc. pose proof (asks_sum p a) as Hsum.
    destruct (start_again _ _ _ _ _ _ _ Hs ltac:(lia)) as [-> HJ]. split; [reflexivity|]. rewrite Hc in *. apply (up_settle _ n). lia.
  Qed.
  Theorem again_down t n a b its v d : span t (T n) a (OInv (AAppStop p)) b its (ORet (AAppStop p) v) d ->
    v = RvUnit /\ exists n1, forall n2, n1 <= n2 -> n2 = n1 \/ asked (asks_p p) (T n2) <= S (asked (asks_p p) a) -> down (asked (stops_p p) a) n2.
  Proof.
    intros Hs. pose proof (stop_count t n a _ (proj1 Hs)) as Hc.
    destruct (stop_again _ _ _ _ _ _ _ Hs) as [-> HJ]. split; [reflexivity|]. rewrite Hc in *. apply (down_settle _ n). exact HJ.
  Qed.
  (** ** The calls after the first one return *)
  Lemma start_before a t r n : T n = a ++ (t, OInv (AAppStart p)) :: r -> 0 < asked (asks_p p) a -> started_at m a = true.
  Proof.
    intros HT Hn. assert (Hpa : part (a ++ [(t, OInv (AAppStart p))])) by (exists n, r; rewrite HT, <- app_assoc; reflexivity).
    pose proof (calls_done E w0 s p H0 Hb HL Hsv (List.length a) (HG _) _ a t _ eq_refl eq_refl Hn (asks_start p) Hpa (le_n _)) as HK.
    pose proof (fifo_le E w0 s p H0 a (part_pre _ _ _ _ _ Hpa)) as Hle.
    apply (over_started E w0 (W n) H0 (moment_reach E w0 s n) m a _ HT). left.
    apply (was_started E w0 s p (List.length a) (HG _)); [exact (part_pre _ _ _ _ _ Hpa)|lia|]. intro Hz. rewrite Hz in Hle. simpl in Hle. lia.
  Qed.
  Theorem calls_return t x n a r : caller_goes_on E w0 s p t -> x = AAppStart p \/ x = AAppStop p -> T n = a ++ (t, OInv x) :: r ->
    exists n' b its d, span t (T n') a (OInv x) b its (ORet x RvUnit) d.
  Proof.
    intros (Hf & Hd & Ho & Hl) Hx HT.
    destruct (finished_or E w0 s H0 t n a (OInv x) (FApi x) r False Hf Hd) as [[]|(n' & b & its & z & d & Hn & Hs)]; auto.
    - intros n1 p1 Hi Hw. right. destruct (Nat.eq_dec p1 p) as [->|N]; [|eapply Ho; eauto]. exfalso.
      destruct (waits_frame E w0 s t n1 p H0 Hw) as (its & v & b & ext & y & Hs & Hw2).
      destruct (top_bracket _ _ _ _ _ Hs ltac:(discriminate)) as (a1 & op & b1 & Hh & Hop & Hb1 & _). destruct op; try discriminate. injection Hop as ->.
      destruct (await_false _ _ _ _ _ _ Hw2) as (c & i' & Hi2).
      destruct (item_inv t b1 [] [R (RdCur m c)] (R (RdStarted m false)) i') as (c1 & d1 & Hbc & Hc); [rewrite Hb1, Hi2; reflexivity|reflexivity|].
      assert (HT2 : T n1 = (a1 ++ (t, OInv (AAppStart p)) :: c1) ++ (t, R (RdStarted m false)) :: d1) by (rewrite Hh, Hbc; repeat (rewrite <- !app_assoc; simpl); reflexivity).
      pose proof (read_true E w0 (W n1) H0 (moment_reach E w0 s n1) _ _ _ _ HT2) as Hrd. simpl in Hrd.
      pose proof (asks_sum p a1) as Hsum. pose proof (Hl _ _ _ Hh) as Hp0.
      rewrite (started_app _ _ _ (start_before a1 t b1 n1 Hh ltac:(lia))) in Hrd. discriminate.
    - pose proof (span_node E w0 (W n') H0 (moment_reach E w0 s n') _ _ _ _ _ _ _ (FApi x) Hs eq_refl) as Hnode.
      assert (Hz : exists v, z = ORet x v) by (destruct z; simpl in Hnode; try contradiction; destruct Hnode as [-> _]; eauto). destruct Hz as [v ->].
      exists n', b, its, d. destruct Hx as [-> | ->].
      + pose proof (asks_sum p a) as Hsum. pose proof (Hl _ _ _ HT) as Hp0. destruct (start_again _ _ _ _ _ _ _ Hs ltac:(lia)) as [-> _]. exact Hs.
      + destruct (stop_again _ _ _ _ _ _ _ Hs) as [-> _]. exact Hs.
  Qed.
  (** ** The first start() never returns *)
  Lemma own_start h t a b1 i1 : part h -> h = a ++ (t, OInv (AAppStart p)) :: b1 -> fst (scan t b1) = [(FRoot, i1)] -> asked (asks_p p) a = 0 ->
    started_at m h = true -> In (OStarted m) i1.
  Proof.
    intros Hp Hh Hsb Ha Hst. destruct (started_witness _ _ Hst) as [t5 Hi5]. apply in_split in Hi5. destruct Hi5 as (h5 & r5 & Hh5).
    destruct Hp as (n & r & HT). assert (X5 : T n = h5 ++ (t5, OStarted m) :: r5 ++ r) by (rewrite HT, Hh5, <- app_assoc; reflexivity).
    destruct (placed_at E w0 (W n) H0 (moment_reach E w0 s n) _ _ _ _ X5 eq_refl) as (k5 & its5 & u5 & Hs5 & Hm5). apply may_started in Hm5. destruct Hm5 as (x5 & -> & Hx5).
    assert (Ho5 : opened t5 h5 (FApi x5) its5) by (unfold opened; rewrite Hs5; left; reflexivity).
    pose proof (aq_none _ _ _ _ (quiet E w0 s p HL Hsv n) _ _ (open_call (W n) _ _ _ _ _ X5 Ho5)) as Hno.
    assert (x5 = AAppStart p) as ->.
    { destruct x5; simpl in Hx5; try contradiction; try (exfalso; apply Hno; exact Hx5). apply (ab_alone _ _ _ Hb) in Hx5. congruence. }
    destruct (top_bracket _ _ _ _ _ Hs5 ltac:(discriminate)) as (a6 & op6 & b6 & Ha6 & Hop6 & Hsb6 & _). destruct op6; try discriminate. injection Hop6 as ->.
    assert (X6 : T n = a6 ++ (t5, OInv (AAppStart p)) :: b6 ++ (t5, OStarted m) :: r5 ++ r) by (rewrite X5, Ha6, <- app_assoc; reflexivity).
    assert (X7 : T n = a ++ (t, OInv (AAppStart p)) :: b1 ++ r) by (rewrite HT, Hh, <- app_assoc; reflexivity).
    destruct (Nat.eq_dec (asked (asks_p p) a6) 0) as [Hz|Hz].
    - destruct (same_call (asks_p p) _ _ _ _ _ _ _ _ _ X6 X7 (asks_start p) (asks_start p) ltac:(lia)) as (-> & -> & _).
      assert (Hb6 : b1 = b6 ++ (t, OStarted m) :: r5).
      { assert (X8 : a ++ (t, OInv (AAppStart p)) :: b1 = (a ++ (t, OInv (AAppStart p)) :: b6) ++ (t, OStarted m) :: r5) by (rewrite <- Ha6, <- Hh5; symmetry; exact Hh).
        rewrite <- app_assoc in X8. apply app_inv_head in X8. injection X8 as X8. exact X8. }
      rewrite Hb6 in Hsb. destruct (two_items t b6 (OStarted m) r5 its5 Hsb6 [] i1 Hsb eq_refl) as [j Hj]. rewrite Hj. apply in_or_app. right. left. reflexivity.
    - exfalso. assert (Hst6 : started_at m a6 = true) by (eapply start_before; [exact X6|lia]).
      pose proof (started_before E w0 (W n) H0 (moment_reach E w0 s n) _ _ _ _ X5) as Hbf. rewrite Ha6, (started_app _ _ _ Hst6) in Hbf. discriminate.
  Qed.
  Theorem first_stays t n a b its z d : asked (starts_p p) a = 0 -> ~ span t (T n) a (OInv (AAppStart p)) b its z d.
  Proof.
    intros Hz Hs. pose proof (start_count t n a _ (proj1 Hs)) as Hc. assert (Ha : asked (asks_p p) a = 0).
    { destruct (counts n a _ (proj1 Hs)); pose proof (asks_sum p a); lia. }
    destruct (not_spoiled E w0 s p H0 Hb HL Hsv _ _ _ _ _ _ _ Hs) as [N1 N2].
    pose proof (span_node E w0 (W n) H0 (moment_reach E w0 s n) _ _ _ _ _ _ _ _ Hs eq_refl) as Hnode.
    assert (Hl : exists x, appStartL E p x its) by (destruct z; simpl in Hnode; try contradiction; destruct Hnode as [_ (x & _ & Hl)]; eauto). destruct Hl as [x Hl].
    assert (Hown : forall i1 i2, its = i1 ++ R (RdStarted m true) :: i2 -> In (OStarted m) i1).
    { intros i1 i2 Hi. destruct (read_moment E w0 (W n) H0 (moment_reach E w0 s n) _ _ _ _ _ _ _ _ _ _ Hs Hi) as (b1 & b2 & Hbb & Hsb & Hrd). simpl in Hrd.
      eapply (own_start (a ++ (t, OInv (AAppStart p)) :: b1)); [|reflexivity|exact Hsb|exact Ha|congruence].
      eapply span_part; [exact Hs|]. eexists b1, _. split; [exact Hbb|reflexivity]. }
    destruct Hl as (c & o1 & Hi & [(o2 & -> & H)|(o2 & -> & H)]).
    2:{ destruct (Hown [R (RdCur m c)] o2 Hi) as [Hx|[]]. discriminate. }
    assert (Hfail : forall x1 k1 r, startL m x1 k1 -> o2 = k1 ++ r -> x1 = None).
    { intros x1 k1 r Hst ->. destruct (start_none E p _ _ Hst) as [Hx|[Hx|[Hx|[Hx1 Hx2]]]]; [exact Hx|exfalso|exfalso|exfalso].
      - apply N1. rewrite Hi. destruct Hx as [Hx|[Hx|Hx]]; [left|right; left|right; right]; simpl; rewrite in_app_iff; auto.
      - apply N2. rewrite Hi. exact (spoiled_app E p [R (RdCur m c); R (RdStarted m false)] k1 r Hx).
      - apply in_split in Hx1. destruct Hx1 as (j1 & j2 & ->).
        destruct (Hown (R (RdCur m c) :: R (RdStarted m false) :: j1) (j2 ++ r)) as [Hx|[Hx|Hx]]; try discriminate.
        + rewrite Hi. simpl. rewrite <- app_assoc. reflexivity.
        + apply Hx2. apply in_or_app. auto. }
    destruct H as [(y & -> & H)|(k1 & k2 & -> & H1 & H)].
    { discriminate (Hfail _ _ [] H (eq_sym (app_nil_r _))). }
    destruct (start_offer _ _ _ H1) as [_ Hs1]. destruct (Hs1 eq_refl) as [Hin1 _].
    assert (Hfire : forall x1 k3 r, fireL E m (ELife LStart) x1 k3 -> k2 = k3 ++ r -> x1 = None).
    { intros x1 k3 r Hf ->.
      assert (Hi2 : its = (R (RdCur m c) :: R (RdStarted m false) :: k1) ++ k3 ++ r) by (rewrite Hi; reflexivity).
      refine (proj1 (fire_reads E w0 p H0 Hb (W n) (moment_reach E w0 s n) (quiet E w0 s p HL Hsv n) t a _ b its z d _ x1 k3 r LStart Hs Hi2 Hf _ _)).
      - intros j1 v j2 ->. assert (Hi3 : its = (R (RdCur m c) :: R (RdStarted m false) :: k1 ++ j1) ++ R (RdStarted m v) :: j2 ++ r).
        { rewrite Hi2. repeat (rewrite <- ?app_assoc; simpl). reflexivity. }
        destruct (read_moment E w0 (W n) H0 (moment_reach E w0 s n) _ _ _ _ _ _ _ _ _ _ Hs Hi3) as (b1 & b2 & Hbb & Hsb & Hrd). simpl in Hrd.
        rewrite Hrd. apply started_in with t. apply in_or_app. right. right. eapply (its_in t b1 []); [exact Hsb|]. right. right. apply in_or_app. auto.
      - intros h Hd. apply never_ended. eapply span_part; eassumption. }
    destruct H as [(y & -> & H)|(k3 & k4 & -> & H2 & H)].
    { discriminate (Hfire _ _ [] H (eq_sym (app_nil_r _))). }
    assert (Haw : exists b0 l, k4 = OWr (WrAwait p b0) :: l).
    { destruct H as [(y & -> & [Hx _])|(k5 & k6 & -> & [_ [-> | ->]] & _)]; [discriminate|do 2 eexists; reflexivity|do 2 eexists; reflexivity]. }
    destruct Haw as (b0 & l & ->).
    assert (Hi2 : its = (R (RdCur m c) :: R (RdStarted m false) :: k1 ++ k3) ++ OWr (WrAwait p b0) :: l).
    { rewrite Hi. repeat (rewrite <- ?app_assoc; simpl). reflexivity. }
    destruct (item_moment (W n) _ _ _ _ _ _ _ _ _ _ Hs Hi2 eq_refl) as (b1 & b2 & Hbb & _ & HT2).
    destruct b0.
    { apply (at_await _ _ _ _ HA n t). unfold LiveSpec.history. rewrite HT2. apply in_or_app. right. left. reflexivity. }
    destruct (truth E w0 (W n) (im_tr _ _ H0) (moment_reach E w0 s n)) as [_ Ht]. destruct (Ht _ _ _ _ HT2) as [Hw _]. simpl in Hw.
    rewrite (im_latches _ _ H0) in Hw. apply latch_of_in in Hw. destruct Hw as [t' Hw].
    assert (Hp : part (a ++ (t, OInv (AAppStart p)) :: b1)) by (exists n; eexists; exact HT2).
    pose proof (proj2 (latch_taken E w0 s p H0 Hb HL Hsv (List.length (a ++ (t, OInv (AAppStart p)) :: b1)) (HG _) _ t' Hp (le_n _) Hw)) as Hx.
    pose proof (at_exit _ _ _ _ HA) as Hx2. congruence.
  Qed.
End Life.
