(** * ErrorProofs4.v: an app service that exits on stop ends after error() (proofs for C67) *)
From Verif Require Import Sched MemInv Logic LiveSpec Lang Tree Nodes Marks Place Moments Truth Copies ConfTruth QueueProofs CallProofs FireProofs StartProofs
  TokenProofs ExactProofs FlowProofs2 ReachProofs Live LiveProofs LiveProofs2 AppLive1 AppLive2 AppLive3 AppLive4 AppLive5 ErrorProofs ErrorProofs2 ErrorProofs3.
From Verif Require Import ErrorSpec.
From Verif Require Import ConfigSpec.

(** the start event is offered by the call of start() that started the machine, once *)
Lemma lstart_offer E p x out j1 pr e2 j2 : appStartL E p x out -> let m := ap_mach (apps E p) in
  out = j1 ++ OOffer (queue_of E m) pr (ELife LStart) m e2 m :: j2 ->
  s_drop (strat E (strat_of E m)) = false -> ap_exit (apps E p) = true -> In (OStarted m) j1 /\ no_offer j1.
Proof.
  intros Hl m Hj Hd Hex. set (o := OOffer (queue_of E m) pr (ELife LStart) m e2 m) in *.
  destruct (app_start_offer E p x out j1 o j2 Hl Hj eq_refl Hd) as [(pr' & e3 & H1 & _ & H2 & _)|[(X & _)|_]]; [auto|congruence|].
  assert (Ho : is_offer o = true) by reflexivity.
  destruct Hl as (c & o1 & -> & Hl). destruct j1 as [|o0 j1]; [discriminate|]. injection Hj as <- Hj.
  destruct Hl as [(o2 & -> & Hl)|(o2 & -> & Hl)]; (destruct j1 as [|o0 j1]; [discriminate|]; injection Hj as <- Hj).
  2:{ rewrite Hex in Hl. simpl in Hl. destruct Hl as [_ ->]. destruct j1; discriminate. }
  assert (Hno : forall l, no_offer l -> ~ In o l).
  { intros l N Hi. rewrite Forall_forall in N. rewrite (N _ Hi) in Ho. discriminate. }
  destruct Hl as [(y & _ & Hl)|(k1 & k2 & -> & Hl1 & Hl)].
  { destruct (start_offer _ _ _ Hl) as [N _]. exfalso. apply (Hno _ N). rewrite Hj. apply in_or_app. right. left. reflexivity. }
  destruct (start_offer _ _ _ Hl1) as [N1 W]. destruct (W eq_refl) as [W1 _].
  destruct (split_app _ _ _ _ _ Hj) as [(j & Hk & _)|(j & Hk & ->)].
  { exfalso. apply (Hno _ N1). rewrite Hk. apply in_or_app. right. left. reflexivity. }
  assert (Hfire : forall x0 o4 j', fireL E m (ELife LStart) x0 o4 -> o4 = j ++ o :: j' ->
    In (OStarted m) (R (RdCur m c) :: R (RdStarted m false) :: k1 ++ j) /\ no_offer (R (RdCur m c) :: R (RdStarted m false) :: k1 ++ j)).
  { intros x0 o4 j' Hf ->. destruct (fire_offer _ _ _ _ _ Hf Hd) as [N|(i1 & pr' & e3 & i2 & Hi & I1 & I2 & He)].
    - exfalso. apply (Hno _ N). apply in_or_app. right. left. reflexivity.
    - destruct (only_one _ _ _ _ _ _ (eq_sym Hi) eq_refl Ho I1 I2) as (-> & _ & _).
      split; [right; right; apply in_or_app; auto|]. repeat (constructor; [reflexivity|]); apply Forall_app; auto. }
  destruct Hl as [(y & _ & Hl)|(k3 & k4 & -> & Hl2 & Hl)]; [exact (Hfire _ _ _ Hl Hk)|].
  destruct (split_app _ _ _ _ _ Hk) as [(j' & Hk' & _)|(j' & Hk' & ->)]; [exact (Hfire _ _ _ Hl2 Hk')|].
  exfalso. destruct Hl as [(y & -> & ? & _)|(k5 & k6 & -> & (_ & Haw) & bb & k7 & -> & Hl)]; [discriminate|].
  destruct (split_app _ _ _ _ _ Hk') as [(j3 & Hk3 & _)|(j3 & Hk3 & ->)].
  { assert (N : no_offer k5) by (destruct Haw as [->| ->]; repeat constructor). apply (Hno _ N). rewrite Hk3. apply in_or_app. right. left. reflexivity. }
  destruct j3 as [|o3 j3]; [discriminate|]. injection Hk3 as <- Hk3.
  destruct bb; [destruct Hl as [_ ->]; destruct j3; discriminate|].
  destruct (app_stop_offer _ _ _ _ _ _ _ Hl Hk3 Ho Hd) as (c' & j4 & pr' & e3 & _ & _ & _ & _ & X & _). unfold o in X. discriminate.
Qed.

Section Exit.
  Context (E : env) (w0 : mem) (p : apid) (H0 : init_mem E w0) (Hb : app_built E w0 p).
  Context (w : world) (Hr : reach E w0 w).
  Notation T := (tr (wm w)).
  Notation m := (ap_mach (apps E p)).
  Notation q := (queue_of E m).
  Notation wkr := (worker_of E m).
  Context (HQ : only_through_app E p T) (Hex : ap_exit (apps E p) = true).

  Lemma lstart_frame h t pr e2 r : T = h ++ (t, OOffer q pr (ELife LStart) m e2 m) :: r ->
    exists a b its, h = a ++ (t, OInv (AAppStart p)) :: b /\ fst (scan t b) = [(FRoot, its)] /\ In (OStarted m) its /\ no_offer its.
  Proof.
    intro HT. destruct (o_offer E w0 p H0 Hb w Hr HQ _ _ _ _ _ _ _ _ HT) as (k & its & v & Hs & _ & _ & _ & l & [= <-] & Hk).
    destruct Hk as [->|Hk]; [|congruence].
    destruct (placed_frame E w0 w H0 Hr _ _ _ _ HT eq_refl) as (k' & its' & v' & Hs' & Hf). rewrite Hs in Hs'. injection Hs' as <- <- <-.
    destruct Hf as (ext & z & Hn). destruct z; simpl in Hn; try contradiction. destruct Hn as [-> (y & _ & Hl)].
    rewrite <- app_assoc in Hl. destruct (lstart_offer E p _ _ _ _ _ _ Hl eq_refl (ab_keep _ _ _ Hb) Hex) as [H1 H2].
    destruct (top_bracket _ _ _ _ _ Hs ltac:(discriminate)) as (a & op & b & Hh & Ho & Hsb & _).
    assert (Hop : op = OInv (AAppStart p)) by (destruct op; simpl in Ho; try discriminate; injection Ho as ->; reflexivity). subst op.
    exists a, b, its. auto.
  Qed.
  Lemma one_lstart h1 t1 pr1 e1 h2 t2 pr2 e2 r :
    T = h1 ++ (t1, OOffer q pr1 (ELife LStart) m e1 m) :: h2 ++ (t2, OOffer q pr2 (ELife LStart) m e2 m) :: r -> False.
  Proof.
    intro HT. set (o1 := OOffer q pr1 (ELife LStart) m e1 m) in *.
    assert (HT2 : T = (h1 ++ (t1, o1) :: h2) ++ (t2, OOffer q pr2 (ELife LStart) m e2 m) :: r) by (rewrite HT, <- app_assoc; reflexivity).
    destruct (lstart_frame _ _ _ _ _ HT) as (a1 & b1 & i1 & Hh1 & S1 & I1 & N1).
    destruct (lstart_frame _ _ _ _ _ HT2) as (a2 & b2 & i2 & Hh2 & S2 & I2 & N2).
    apply in_split in I1. destruct I1 as (j1 & k1 & I1). apply in_split in I2. destruct I2 as (j2 & k2 & I2).
    assert (X1 : T = a1 ++ (t1, OInv (AAppStart p)) :: b1 ++ ((t1, o1) :: h2 ++ (t2, OOffer q pr2 (ELife LStart) m e2 m) :: r)).
    { rewrite HT, Hh1, <- app_assoc. reflexivity. }
    assert (X2 : T = a2 ++ (t2, OInv (AAppStart p)) :: b2 ++ ((t2, OOffer q pr2 (ELife LStart) m e2 m) :: r)).
    { rewrite HT2, Hh2, <- app_assoc. reflexivity. }
    pose proof S1 as S1'. pose proof S2 as S2'. rewrite I1 in S1'. rewrite I2 in S2'.
    destruct (starter_unique E w0 w H0 Hr m _ _ _ _ _ _ _ _ _ _ _ _ _ _ _ _ X1 eq_refl S1' X2 eq_refl S2') as (<- & <- & _).
    assert (Hb2 : b2 = b1 ++ (t1, o1) :: h2).
    { rewrite Hh1 in Hh2. rewrite <- app_assoc in Hh2. apply app_inv_head in Hh2. injection Hh2 as Hh2. symmetry. exact Hh2. }
    rewrite Hb2 in S2. destruct (two_items t1 b1 o1 h2 i1 S1 [] i2 S2 eq_refl) as (j & Hj).
    rewrite Hj in N2. apply Forall_app in N2. destruct N2 as [_ N2]. inversion N2 as [|? ? X _]. discriminate.
  Qed.
  (** so it is not taken when the machine has left UNINITIALISED *)
  Lemma no_lstart a t pr r : T = a ++ (t, OTake q pr (Some (ELife LStart, m))) :: r -> left_init E p a -> False.
  Proof.
    intros HT (s & Hc & Hn). set (op := OTake q pr (Some (ELife LStart, m))) in *.
    destruct (t_life E w0 p H0 Hb w Hr HQ _ _ _ _ _ HT) as [-> _].
    pose proof (take_rests E w0 p H0 w Hr _ _ _ _ HT) as Hre.
    assert (HT' : T = (a ++ []) ++ (wkr, op) :: r) by (rewrite app_nil_r; exact HT).
    destruct (left_rest E w0 p H0 Hb w Hr HQ a [] s _ HT' Hc Hn ltac:(rewrite app_nil_r; exact Hre)) as [[_ (a1 & t1 & pr1 & r1 & Ha)] _].
    rewrite app_nil_r in Ha. clear HT' Hre.
    assert (Hnth : forall x1 t0 pr0 x2, T = x1 ++ (t0, OTake q pr0 (Some (ELife LStart, m))) :: x2 ->
      exists h t' e0 r0, T = h ++ (t', OOffer q pr0 (ELife LStart) m e0 m) :: r0 /\ List.length (accepted q h) = List.length (taken q x1)).
    { intros x1 t0 pr0 x2 HTx. pose proof (fifo E w0 w q H0 Hr) as Hf. set (rest := map _ _) in Hf. clearbody rest.
      assert (Hno : nth_error (accepted q T) (List.length (taken q x1)) = Some (pr0, Some (ELife LStart, m))).
      { rewrite Hf, HTx. rewrite taken_app, (taken_cons E p t0), <- app_assoc, nth_error_app2, Nat.sub_diag by apply le_n. reflexivity. }
      destruct (offered_at q (List.length (taken q x1)) T) as (h & t' & pr' & e1 & m1 & e2 & m2 & r0 & HT' & Hlen).
      { apply nth_error_Some. congruence. }
      assert (Hn' : nth_error (accepted q T) (List.length (taken q x1)) = Some (pr', Some (e2, m2))).
      { rewrite HT', <- Hlen. change ((t', OOffer q pr' e1 m1 e2 m2) :: r0) with ([(t', OOffer q pr' e1 m1 e2 m2)] ++ r0).
        rewrite !accepted_app, nth_error_app2, Nat.sub_diag by apply le_n. simpl. rewrite Nat.eqb_refl. reflexivity. }
      rewrite Hno in Hn'. injection Hn' as <- <- <-.
      destruct (o_offer E w0 p H0 Hb w Hr HQ _ _ _ _ _ _ _ _ HT') as (_ & _ & _ & _ & -> & _ & <- & _).
      exists h, t', (ELife LStart), r0. auto. }
    assert (HT1 : T = a1 ++ (t1, OTake q pr1 (Some (ELife LStart, m))) :: r1 ++ (wkr, op) :: r) by (rewrite HT, Ha, <- app_assoc; reflexivity).
    destruct (Hnth _ _ _ _ HT1) as (h1 & u1 & f1 & g1 & X1 & L1). destruct (Hnth _ _ _ _ HT) as (h2 & u2 & f2 & g2 & X2 & L2).
    assert (Hlt : List.length (taken q a1) < List.length (taken q a)).
    { rewrite Ha, taken_app, (taken_cons E p t1), app_length. simpl. lia. }
    pose proof X2 as X3. rewrite X1 in X3. apply app_eq_app in X3. destruct X3 as (l & [[Y1 Y2]|[Y1 Y2]]).
    - rewrite Y1, accepted_app, app_length in L1. lia.
    - destruct l as [|y l]; [rewrite app_nil_r in Y1; rewrite Y1 in L2; lia|]. injection Y2 as <- Y2. rewrite Y2 in X1. exact (one_lstart _ _ _ _ _ _ _ _ _ X1).
  Qed.

  (** ** Entering STOPPED fires the stop event *)
  Lemma fire_sent t a op b its z d i1 x out i2 l : span t T a op b its z d -> its = i1 ++ out ++ i2 -> fireL E m (ELife l) x out -> start_over m a ->
    (exists b1 b2, b = b1 ++ b2 /\ ended_at m (a ++ (t, op) :: b1) = true) \/
    (exists b1 b2 pr, b = b1 ++ (t, OOffer q pr (ELife l) m (ELife l) m) :: b2) /\ (x = None \/ shut_at (exec_of E m) T).
  Proof.
    intros Hs Hi Hf Ho.
    assert (Hrd : forall j1 rd0 j2, out = j1 ++ ORd rd0 :: j2 -> exists b1 b2, b = b1 ++ b2 /\ read_at E w0 (a ++ (t, op) :: b1) rd0).
    { intros j1 rd0 j2 ->. destruct (read_moment E w0 w H0 Hr _ _ _ _ _ _ _ (i1 ++ j1) rd0 (j2 ++ i2) Hs) as (b1 & b2 & -> & _ & Hrd).
      - rewrite Hi. repeat (rewrite <- !app_assoc; simpl). reflexivity.
      - exists b1, ((t, ORd rd0) :: b2). auto. }
    assert (Hst : forall j1 v j2, out = j1 ++ R (RdStarted m v) :: j2 -> v = true).
    { intros j1 v j2 Hj. destruct (Hrd _ _ _ Hj) as (b1 & b2 & -> & H). simpl in H. rewrite H. apply started_app.
      destruct Hs as (HT & _). eapply over_started; eauto. }
    destruct Hf as [Hf|[Hf|(o' & Hf & Hp)]].
    - specialize (Hst [] _ _ Hf). discriminate.
    - left. destruct (Hrd [R (RdStarted m true); R (RdStarted m true)] _ _ Hf) as (b1 & b2 & Hbb & H). simpl in H. exists b1, b2. auto.
    - destruct Hf as [Hf|Hf]; [|specialize (Hst [R (RdStarted m true)] _ _ Hf); discriminate]. right.
      unfold processL in Hp. rewrite (ab_keep _ _ _ Hb) in Hp. destruct Hp as (c & n & o4 & -> & Hp).
      assert (Hfull : full E (strat_of E m) n = false).
      { unfold full. pose proof (ab_unbounded _ _ _ Hb). destruct (Z.ltb_spec 0 (s_max (strat E (strat_of E m)))); [lia|reflexivity]. }
      rewrite Hfull in Hp. destruct Hp as (pr & o3 & Hsub & [->|(y & nm & y' & e' & ->)]).
      + split.
        * assert (Hit : In (OOffer q pr (ELife l) m (ELife l) m) its).
          { rewrite Hi, Hf. apply in_or_app. right. apply in_or_app. left. simpl. repeat first [left; reflexivity | right]. }
          apply in_split in Hit. destruct Hit as (k1 & k2 & Hit).
          destruct (item_moment w _ _ _ _ _ _ _ _ _ _ Hs Hit eq_refl) as (b1 & b2 & Hbb & _ & _). exists b1, b2, pr. exact Hbb.
        * destruct Hsub as [[-> _]|[_ ->]]; [left; reflexivity|right].
          assert (Hit : In (OWr (WrReject (exec_of E m) {| tk_strat := strat_of E m; tk_mach := m |})) its).
          { rewrite Hi, Hf. apply in_or_app. right. apply in_or_app. left. simpl. repeat first [left; reflexivity | right]. }
          apply in_split in Hit. destruct Hit as (k1 & k2 & Hit).
          destruct (item_moment w _ _ _ _ _ _ _ _ _ _ Hs Hit eq_refl) as (b1 & b2 & _ & _ & HT).
          destruct (truth E w0 w (im_tr _ _ H0) Hr) as [_ Ht]. destruct (Ht _ _ _ _ HT) as [Hw _]. simpl in Hw.
          rewrite (im_shut _ _ H0) in Hw. apply shut_of_in in Hw. destruct Hw as [t' Hw]. exists t'. rewrite HT. apply in_or_app. left. exact Hw.
      + exfalso. destruct (Hrd ([R (RdStarted m true); R (RdStarted m true); R (RdEnded m false)] ++
          R (RdLook (s_queue (strat E (strat_of E m))) c) :: R (RdSize (s_queue (strat E (strat_of E m))) c n) :: [OWr (WrGot pr)]) (RdPay (ELife l) (Some y)) _ Hf) as (b1 & b2 & Hbb & H).
        simpl in H. destruct Hs as (HT & _). rewrite (o_pay E w0 p H0 Hb w Hr HQ (a ++ (t, op) :: b1) (b2 ++ (t, z) :: d) l) in H; [discriminate|].
        rewrite HT, Hbb. repeat (rewrite <- app_assoc; simpl). reflexivity.
  Qed.

  Section Take.
  Context (t : tid) (a : trace) (pr : pid) (l : lifeev) (b : trace) (its : list obs) (z : obs) (d : trace).
  Notation op := (OTake q pr (Some (ELife l, m))).
  Context (Hs : span t T a op b its z d) (Ho : start_over m a).
  Notation stop_call := (KAct true (AAppStopped p) (SApp p STOPPED) (ELife l) m).
  Lemma t_stop_called k : mstate_at m a = (Some (SApp p k), false) -> k <> STOPPED -> next_state p m k l = (Some (SApp p STOPPED), false) ->
    exists x, In (OBack stop_call x) its.
  Proof.
    intros Hst Hk Hnx. destruct (t_event E w0 p H0 Hb w Hr HQ _ _ _ _ _ _ _ _ Hs Ho) as (x & y & P & Rep & Hsh & _ & He).
    assert (HT : T = a ++ (t, op) :: b ++ (t, z) :: d) by (destruct Hs as (HT & _); exact HT).
    rewrite Hst in He. cbv [snd fst] in He. rewrite life_reacts in He.
    set (s' := mstate_at m (a ++ (t, op) :: b ++ [(t, z)])) in *. clearbody s'.
    assert (Hno : forall f s x0 out s0 s1 rest, notice m (listener_at w0 m a) (ELife l) false f s s0 x0 out s1 -> P = out ++ rest -> s1 = s0 /\ x0 = None).
    { intros f s x0 out s0 s1 rest (-> & Hn) HP. split; [reflexivity|]. destruct (listener_at w0 m a) as [li|]; [|tauto].
      destruct x0 as [v|]; [exfalso|reflexivity]. eapply (oa_begin _ _ _ HQ). eapply span_in; [exact Hs|].
      apply (shown_in _ its). rewrite Hsh, HP, Hn. right. left. reflexivity. }
    match type of He with react _ _ _ _ _ _ _ ?x _ _ _ _ => remember x as rc eqn:Erc end.
    assert (Hrc : rc = Target (SApp p STOPPED)) by (clear - Erc Hk Hnx; subst rc; destruct k, l; simpl in *; try congruence; reflexivity).
    clear Erc. subst rc. unfold react in He. replace (String.eqb (sname E (SApp p STOPPED)) "_NOOP_") with false in He by reflexivity. cbv zeta in He.
    destruct He as [(v & -> & Hnt)|(s1 & N1 & o2 & HP & Hnt & Hre)].
    { destruct (Hno _ _ _ _ _ _ [] Hnt) as [_ ?]; [rewrite app_nil_r; reflexivity|discriminate]. }
    destruct (Hno _ _ _ _ _ _ _ Hnt HP) as [-> _].
    assert (Hexa : acts_at w0 false (SApp p k) a = []).
    { rewrite (o_acts E w0 p H0 w Hr HQ a _ _ _ HT). apply (ab_exit _ _ _ Hb). }
    destruct Hre as [(v & -> & (_ & Ha))|(s1 & o3 & o4 & -> & (-> & Ha) & Hre)]; cbv [fst] in Ha; rewrite Hexa in Ha; destruct Ha as [Ha1 ->]; [discriminate|].
    destruct Hre as [(v & -> & (? & _))|(s1 & o3 & o5 & -> & (_ & Hmv) & Hre)]; [discriminate|]. cbv [snd] in Hmv.
    destruct Hmv as [-> ->].
    assert (Hena : acts_at w0 true (SApp p STOPPED) a = [AAppStopped p]).
    { rewrite (o_acts E w0 p H0 w Hr HQ a _ _ _ HT). apply (ab_entry _ _ _ Hb). }
    assert (Hin : forall o, In o o5 -> In o its).
    { intros o Hi. apply (shown_in o its). rewrite Hsh, HP. apply in_or_app. left. apply in_or_app. right. right. exact Hi. }
    destruct Hre as [(v & -> & (_ & Ha))|(s1 & o3 & o6 & Ho5 & (-> & Ha) & _)]; cbv [fst] in Ha; rewrite Hena in Ha; simpl in Ha.
    - destruct Ha as [(v' & _ & Ha)|(o & Ha & _ & _)]; eexists; apply Hin; rewrite Ha; right; left; reflexivity.
    - destruct Ha as [(v' & ? & _)|(o & Ha & _ & _)]; [discriminate|]. eexists. apply Hin. rewrite Ho5, Ha. right. left. reflexivity.
  Qed.
  Lemma t_stop_sent k : mstate_at m a = (Some (SApp p k), false) -> k <> STOPPED -> next_state p m k l = (Some (SApp p STOPPED), false) ->
    (exists b1 b2 pr', b = b1 ++ (t, OOffer q pr' (ELife LStop) m (ELife LStop) m) :: b2) /\
    (app_released p (a ++ (t, op) :: b ++ [(t, z)]) \/ shut_at (exec_of E m) T).
  Proof.
    intros Hst Hk Hnx. destruct (t_stop_called k Hst Hk Hnx) as (x & Hbk).
    pose proof (t_state E w0 p H0 Hb w Hr HQ _ _ _ _ _ _ _ _ Hs Ho k Hst) as Hend. rewrite Hnx in Hend.
    assert (HT : T = a ++ (t, op) :: b ++ (t, z) :: d) by (destruct Hs as (HT & _); exact HT).
    destruct (item_back E w0 H0 w Hr _ _ _ _ _ _ _ _ _ Hs Hbk) as (j1 & j2 & Hj).
    destruct (item_span w _ _ _ _ _ _ _ _ _ _ _ Hs Hj) as (c1 & c2 & its2 & c3 & Hinn & Hsp).
    assert (Hb2 : b = c1 ++ (t, OCall stop_call) :: c2 ++ (t, OBack stop_call x) :: c3) by (destruct Hinn as ((X & _) & _); exact X).
    assert (Ho2 : start_over m (a ++ (t, op) :: c1)) by (apply over_later; exact Ho).
    pose proof (span_node E w0 w H0 Hr _ _ _ _ _ _ _ (FCall stop_call) Hsp eq_refl) as [_ Hn].
    simpl in Hn. rewrite Hex in Hn. destruct Hn as [(y & -> & [? _])|(o1 & o2 & Hi & [_ ->] & Hn)]; [discriminate|].
    set (lg := OLog _) in *.
    assert (Hf : exists x2 out i2, fireL E m (ELife LStop) x2 out /\ its2 = [lg] ++ out ++ i2 /\ (x2 = None -> In (OWr (WrLatch p)) its2)).
    { destruct Hn as [(y & -> & Hf)|(o3 & o4 & -> & Hf & [-> ->])].
      - exists (Some y), o2, []. rewrite app_nil_r. split; [exact Hf|]. split; [exact Hi|discriminate].
      - exists None, o3, [OWr (WrLatch p)]. split; [exact Hf|]. split; [exact Hi|]. intros _. rewrite Hi. apply in_or_app. right. apply in_or_app. right. left. reflexivity. }
    destruct Hf as (x2 & out & i2 & Hf & Hi2 & Hlt).
    destruct (fire_sent _ _ _ _ _ _ _ [lg] x2 out i2 LStop Hsp Hi2 Hf Ho2) as [(b1 & b2 & Hbb & He)|((b1 & b2 & pr' & Hbb) & Hx)].
    - exfalso. rewrite <- app_assoc in He. simpl in He.
      set (h1 := a ++ (t, op) :: c1 ++ (t, OCall stop_call) :: b1) in *.
      assert (Hh : a ++ (t, op) :: b ++ [(t, z)] = h1 ++ (b2 ++ (t, OBack stop_call x) :: c3 ++ [(t, z)])).
      { rewrite Hb2, Hbb. unfold h1. repeat (rewrite <- app_assoc; simpl). reflexivity. }
      assert (HTe : T = (h1 ++ (b2 ++ (t, OBack stop_call x) :: c3 ++ [(t, z)])) ++ d).
      { rewrite <- Hh, HT. repeat (rewrite <- app_assoc; simpl). reflexivity. }
      pose proof (ended_stays E w0 _ H0 Hr m h1 _ d HTe ltac:(unfold h1; apply over_later; exact Ho) He) as He2. rewrite <- Hh in He2.
      injection Hend as _ X. congruence.
    - split.
      + exists (c1 ++ (t, OCall stop_call) :: b1), (b2 ++ (t, OBack stop_call x) :: c3), pr'. rewrite Hb2, Hbb. repeat (rewrite <- app_assoc; simpl). reflexivity.
      + destruct Hx as [Hx|Hx]; [left|right; exact Hx]. exists t. apply in_or_app. right. right. rewrite Hb2.
        destruct Hsp as (_ & _ & Hsc). apply in_or_app. left. apply in_or_app. right. right. apply in_or_app. left.
        eapply (its_in t c2 []); [exact Hsc|exact (Hlt Hx)].
  Qed.
  End Take.

  (** ** The last event before a moment of rest *)
  Lemma rest_last h r : T = h ++ r -> rests q wkr h -> ~ early E p h ->
    exists a pr l b its z d, span wkr T a (OTake q pr (Some (ELife l, m))) b its z (d ++ r) /\
      h = (a ++ (wkr, OTake q pr (Some (ELife l, m))) :: b ++ [(wkr, z)]) ++ d /\ taken q d = [] /\ start_over m a /\ rests q wkr a /\
      mstate_at m h = mstate_at m (a ++ (wkr, OTake q pr (Some (ELife l, m))) :: b ++ [(wkr, z)]) /\
      List.length (taken q h) = S (List.length (taken q a)).
  Proof.
    intros HT Hre Hne.
    assert (Ht : taken q h <> []).
    { intro Ht. apply Hne. apply (not_begun E w0 p H0 Hb w Hr HQ h r HT). intros (a1 & t1 & pr & c & r1 & -> & _). rewrite taken_app, (taken_cons E p t1) in Ht.
      destruct (taken q a1); discriminate. }
    destruct (last_take E p h Ht) as (a & t & pr & c & b & Hh & Hb0).
    assert (HT1 : T = a ++ (t, OTake q pr c) :: b ++ r) by (rewrite HT, Hh, <- app_assoc; reflexivity).
    destruct (t_life E w0 p H0 Hb w Hr HQ _ _ _ _ _ HT1) as [-> [l ->]]. set (op := OTake q pr (Some (ELife l, m))) in *.
    assert (Ho : start_over m a).
    { destruct (unended_dec E p a) as [Hu|Hu]; [left; exact Hu|].
      exfalso. apply Hne. apply (not_begun E w0 p H0 Hb w Hr HQ h r HT). intros (a1 & t1 & pr1 & c1 & r1 & Hh1 & t2 & H2). apply Hu. exists t2.
      rewrite Hh in Hh1. apply app_eq_app in Hh1. destruct Hh1 as (x & [[X1 X2]|[X1 X2]]).
      - rewrite X1. apply in_or_app. left. exact H2.
      - destruct x as [|y x]; [rewrite app_nil_r in X1; rewrite X1 in H2; exact H2|]. exfalso. injection X2 as _ X2.
        exact (taken_nil E p b t1 pr1 c1 Hb0 ltac:(rewrite X2; apply in_or_app; right; left; reflexivity)). }
    destruct (closed_or_open wkr a op (FTake q pr (Some (ELife l, m))) b [] [] [] eq_refl eq_refl) as [(u & its & Hop)|(b' & its & z & d & Hsp)].
    { exfalso. apply (Hre pr (Some (ELife l, m)) its). unfold opened. rewrite Hh. simpl in Hop.
      rewrite (stack_at wkr a op b (FTake q pr (Some (ELife l, m))) u its eq_refl Hop). apply in_or_app. right. left. reflexivity. }
    simpl in Hsp.
    assert (Hsp' : span wkr T a op b' its z (d ++ r)).
    { destruct Hsp as (X1 & X2 & X3). split; [|split; assumption]. rewrite HT, Hh, X1. repeat (rewrite <- app_assoc; simpl). reflexivity. }
    assert (Hh1 : h = (a ++ (wkr, op) :: b' ++ [(wkr, z)]) ++ d).
    { destruct Hsp as (X1 & _). rewrite Hh, X1. repeat (rewrite <- app_assoc; simpl). reflexivity. }
    assert (Htd : taken q d = []).
    { destruct Hsp as (X1 & _). apply app_inv_head in X1. injection X1 as X1. rewrite X1 in Hb0.
      change ((wkr, z) :: d) with ([(wkr, z)] ++ d) in Hb0. rewrite !taken_app in Hb0.
      apply app_eq_nil in Hb0. destruct Hb0 as [_ Hb0]. apply app_eq_nil in Hb0. apply Hb0. }
    exists a, pr, l, b', its, z, d. split; [exact Hsp'|]. split; [exact Hh1|]. split; [exact Htd|]. split; [exact Ho|].
    split; [exact (take_rests E w0 p H0 w Hr _ _ _ _ HT1)|]. split.
    - rewrite Hh1. apply (o_gap E w0 p H0 Hb w Hr HQ _ d r); [rewrite <- Hh1; exact HT|apply over_later; exact Ho| |rewrite <- Hh1; exact Hre|exact Htd].
      exact (span_rests E w0 p H0 w Hr _ _ _ _ _ _ _ Hsp').
    - rewrite Hh, taken_app. unfold op. rewrite (taken_cons E p wkr), Hb0, app_length. simpl. lia.
  Qed.
  Lemma not_early h k : mstate_at m h = (Some (SApp p k), false) -> k <> UNINIT -> ~ early E p h.
  Proof. intros Hst Hk [_ [X|X]]; injection Hst as Y _; congruence. Qed.
  Lemma not_early_end h : mstate_at m h = (Some (SEnd m), true) -> ~ early E p h.
  Proof. intros Hst [X _]; injection Hst as _ Y; congruence. Qed.
  Lemma late_left h : late E p h -> left_init E p h.
  Proof.
    intros [_ [(k & Hk & Hst)|Hst]]; injection Hst as X _; eexists; (split; [exact X|congruence]).
  Qed.
  (** a stop event is waiting *)
  Definition awaits_stop (h : trace) : Prop := exists ho t pr r, h = ho ++ (t, OOffer q pr (ELife LStop) m (ELife LStop) m) :: r /\
    List.length (taken q h) <= List.length (accepted q ho).
  Lemma pending n : forall h r, List.length h < n -> T = h ++ r -> rests q wkr h ->
    (mstate_at m h = (Some (SApp p STOPPED), false) -> awaits_stop h) /\
    (mstate_at m h = (Some (SApp p STOPPED), false) \/ mstate_at m h = (Some (SEnd m), true) -> app_released p h \/ shut_at (exec_of E m) T).
  Proof.
    induction n as [|n IH]; [lia|]. intros h r Hl HT Hre.
    assert (Hmain : mstate_at m h = (Some (SApp p STOPPED), false) \/ mstate_at m h = (Some (SEnd m), true) ->
      (mstate_at m h = (Some (SApp p STOPPED), false) -> awaits_stop h) /\ (app_released p h \/ shut_at (exec_of E m) T)).
    2:{ split; [intro X; apply Hmain; auto|intro X; apply Hmain; exact X]. }
    intro Hst. assert (Hne : ~ early E p h).
    { destruct Hst as [Hst|Hst]; [eapply not_early; [exact Hst|discriminate]|exact (not_early_end _ Hst)]. }
    destruct (rest_last h r HT Hre Hne) as (a & pr & l & b & its & z & d & Hsp & Hh & Htd & Ho & Hra & Hms & Htk).
    set (op := OTake q pr (Some (ELife l, m))) in *.
    assert (HTa : T = a ++ (wkr, op) :: b ++ (wkr, z) :: d ++ r) by (destruct Hsp as (X & _); exact X).
    assert (Hla : List.length a < n) by (rewrite Hh, !app_length in Hl; simpl in Hl; lia).
    assert (Hrel : app_released p a \/ shut_at (exec_of E m) T -> app_released p h \/ shut_at (exec_of E m) T).
    { intros [[t' X]|X]; [left; exists t'; rewrite Hh, <- app_assoc; apply in_or_app; left; exact X|right; exact X]. }
    destruct (IH a _ Hla HTa Hra) as [IH1 IH2]. rewrite Hms in Hst |- *.
    destruct (rest_inv E w0 p H0 Hb w Hr HQ (S (List.length a)) a _ (Nat.lt_succ_diag_r _) HTa Hra) as [[He Hc]|Hlate].
    { exfalso. destruct Hc as [Hc|Hc].
      - pose proof (t_none E w0 p H0 Hb w Hr HQ _ _ _ _ _ _ _ _ Hsp Ho ltac:(unfold mstate_at; congruence)) as X. fold op in X. rewrite X in Hst. destruct Hst; discriminate.
      - pose proof (t_state E w0 p H0 Hb w Hr HQ _ _ _ _ _ _ _ _ Hsp Ho UNINIT ltac:(unfold mstate_at; congruence)) as X. fold op in X. rewrite X in Hst.
        destruct l; simpl in Hst; destruct Hst; discriminate. }
    pose proof Hlate as [_ [(k & Hk & Hsa)|Hsa]].
    2:{ pose proof (t_ended E w0 p H0 Hb w Hr HQ _ _ _ _ _ _ _ _ Hsp Ho _ Hsa) as X. fold op in X. rewrite X. split; [discriminate|]. apply Hrel, IH2. auto. }
    pose proof (t_state E w0 p H0 Hb w Hr HQ _ _ _ _ _ _ _ _ Hsp Ho k Hsa) as X. fold op in X. rewrite X in Hst |- *.
    assert (Hkd : k = STOPPED \/ k <> STOPPED) by (destruct k; auto; right; discriminate). destruct Hkd as [->|Hkn].
    - (* a stop event is waiting already *)
      assert (Hrl : app_released p h \/ shut_at (exec_of E m) T) by (apply Hrel, IH2; auto).
      split; [|exact Hrl]. intro Hnx. assert (Hls : l <> LStop) by (intros ->; discriminate).
      destruct (IH1 Hsa) as (ho & t0 & pr0 & r0 & Ha & Hlen). set (of := OOffer q pr0 (ELife LStop) m (ELife LStop) m) in *.
      exists ho, t0, pr0, (r0 ++ (wkr, op) :: b ++ [(wkr, z)] ++ d). fold of. split; [rewrite Hh, Ha; repeat (rewrite <- app_assoc; simpl); reflexivity|].
      rewrite Htk. destruct (Nat.eq_dec (List.length (taken q a)) (List.length (accepted q ho))) as [Heq|Heq]; [exfalso|lia].
      pose proof (fifo E w0 w q H0 Hr) as Hf. set (rest := map _ _) in Hf. clearbody rest.
      assert (Hn1 : nth_error (accepted q T) (List.length (taken q a)) = Some (pr, Some (ELife l, m))).
      { rewrite Hf. rewrite HTa at 1. rewrite taken_app. unfold op at 1. rewrite (taken_cons E p wkr), <- app_assoc, nth_error_app2, Nat.sub_diag by apply le_n. reflexivity. }
      assert (Hn2 : nth_error (accepted q T) (List.length (accepted q ho)) = Some (pr0, Some (ELife LStop, m))).
      { rewrite HTa, Ha, <- app_assoc. simpl. change ((t0, of) :: r0 ++ (wkr, op) :: b ++ (wkr, z) :: d ++ r) with ([(t0, of)] ++ r0 ++ (wkr, op) :: b ++ (wkr, z) :: d ++ r).
        rewrite accepted_app, nth_error_app2, Nat.sub_diag by apply le_n. rewrite accepted_app. unfold of. simpl. rewrite Nat.eqb_refl. reflexivity. }
      rewrite Heq, Hn2 in Hn1. congruence.
    - assert (Hnx : next_state p m k l = (Some (SApp p STOPPED), false)).
      { destruct Hst as [Hst|Hst]; [exact Hst|]. destruct k, l; simpl in Hst; try discriminate; congruence. }
      destruct (t_stop_sent _ _ _ _ _ _ _ _ Hsp Ho k Hsa Hkn Hnx) as [(b1 & b2 & pr' & Hbb) Hrl]. split.
      + intros _. exists (a ++ (wkr, op) :: b1), wkr, pr', (b2 ++ [(wkr, z)] ++ d). split; [rewrite Hh, Hbb; repeat (rewrite <- app_assoc; simpl); reflexivity|].
        rewrite Htk.
        assert (HT2 : T = (a ++ [(wkr, op)]) ++ b ++ (wkr, z) :: d ++ r) by (rewrite HTa, <- app_assoc; reflexivity).
        destruct (reach_prefix E w0 w (im_tr _ _ H0) Hr _ _ HT2) as (w1 & Hr1 & Hw1).
        pose proof (fifo E w0 w1 q H0 Hr1) as Hf. rewrite Hw1 in Hf. apply (f_equal (@List.length _)) in Hf. rewrite app_length in Hf.
        assert (Ht1 : List.length (taken q (a ++ [(wkr, op)])) = S (List.length (taken q a))) by (rewrite taken_app, app_length; unfold op; rewrite taken_one; simpl; lia).
        change (a ++ (wkr, op) :: b1) with (a ++ [(wkr, op)] ++ b1). rewrite app_assoc, accepted_app, app_length. lia.
      + destruct Hrl as [[t' Y]|Y]; [left; exists t'; rewrite Hh; apply in_or_app; left; exact Y|right; exact Y].
  Qed.
  (** STOPPED is left towards the end only *)
  Lemma stopped_stays n : forall h y r, List.length y < n -> T = (h ++ y) ++ r -> rests q wkr h -> rests q wkr (h ++ y) ->
    mstate_at m h = (Some (SApp p STOPPED), false) \/ mstate_at m h = (Some (SEnd m), true) ->
    mstate_at m (h ++ y) = (Some (SApp p STOPPED), false) \/ mstate_at m (h ++ y) = (Some (SEnd m), true).
  Proof.
    induction n as [|n IH]; [lia|]. intros h y r Hl HT R1 R2 Hst.
    assert (HT1 : T = h ++ y ++ r) by (rewrite app_assoc; exact HT).
    assert (Hlf : left_init E p h) by (destruct Hst as [Hst|Hst]; injection Hst as X _; eexists; (split; [exact X|discriminate])).
    destruct Hlf as (s & Hc & Hns).
    destruct (left_rest E w0 p H0 Hb w Hr HQ h y s r HT Hc Hns R2) as [[Hoh _] Hlate].
    assert (Hne : ~ early E p (h ++ y)).
    { destruct Hlate as [(k & Hk & X)|X]; [exact (not_early _ _ X Hk)|exact (not_early_end _ X)]. }
    destruct (rest_last (h ++ y) r HT R2 Hne) as (a & pr & l & b & its & z & d & Hsp & Hh & Htd & Ho & Hra & Hms & _).
    set (op := OTake q pr (Some (ELife l, m))) in *.
    assert (HTa : T = a ++ (wkr, op) :: b ++ (wkr, z) :: d ++ r) by (destruct Hsp as (X & _); exact X).
    assert (Hcase : (exists y', a = h ++ y' /\ List.length y' < List.length y) \/ taken q y = []).
    { assert (Hh' : h ++ y = a ++ (wkr, op) :: b ++ (wkr, z) :: d) by (rewrite Hh; repeat (rewrite <- app_assoc; simpl); reflexivity).
      apply app_eq_app in Hh'. destruct Hh' as (x & [[X1 X2]|[X1 X2]]).
      - destruct x as [|e x]; [left; exists []; rewrite app_nil_r in X1 |- *; split; [auto|]; simpl in X2; rewrite <- X2; simpl; lia|].
        injection X2 as <- X2. right.
        (* h ends after the take, within the rest of the bracket or later; at rest, so later *)
        rewrite X1 in R1. apply app_eq_app in X2. destruct X2 as (v & [[V1 V2]|[V1 V2]]).
        + (* h ends inside the bracket, before z *)
          exfalso. destruct Hsp as (_ & Hz & Hsc). rewrite V1 in Hsc. destruct (root_kept_t _ _ _ [] _ Hsc) as (u1 & j1 & j2 & Hj & _).
          apply (R1 pr (Some (ELife l, m)) j1). unfold opened. change ((wkr, op) :: x) with ([(wkr, op)] ++ x).
          pose proof (stack_at wkr a op x (FTake q pr (Some (ELife l, m))) u1 j1 eq_refl Hj) as Hk. simpl. rewrite Hk. apply in_or_app. right. left. reflexivity.
        + destruct v as [|e v].
          * exfalso. rewrite app_nil_r in V1. subst x. destruct Hsp as (_ & _ & Hsc).
            apply (R1 pr (Some (ELife l, m)) its). unfold opened. pose proof (stack_at wkr a op b (FTake q pr (Some (ELife l, m))) [] its eq_refl Hsc) as Hk. rewrite Hk. left. reflexivity.
          * injection V2 as _ V2. rewrite V2, taken_app in Htd. apply app_eq_nil in Htd. apply Htd.
      - left. exists x. split; [exact X1|]. rewrite X2, app_length. simpl. lia. }
    destruct Hcase as [(y' & Ha & Hly)|Ht].
    - assert (Hsa : mstate_at m a = (Some (SApp p STOPPED), false) \/ mstate_at m a = (Some (SEnd m), true)).
      { rewrite Ha in HTa, Hra |- *. apply (IH h y' _ ltac:(lia) HTa R1 Hra Hst). }
      rewrite Hms. destruct Hsa as [Hsa|Hsa].
      + pose proof (t_state E w0 p H0 Hb w Hr HQ _ _ _ _ _ _ _ _ Hsp Ho STOPPED Hsa) as X. fold op in X. rewrite X.
        destruct l; simpl; auto. exfalso. apply (no_lstart a wkr pr (b ++ (wkr, z) :: d ++ r)); [exact HTa|].
        injection Hsa as Y _. eexists. split; [exact Y|discriminate].
      + pose proof (t_ended E w0 p H0 Hb w Hr HQ _ _ _ _ _ _ _ _ Hsp Ho _ Hsa) as X. fold op in X. auto.
    - rewrite (o_gap E w0 p H0 Hb w Hr HQ h y r HT); auto. exact (left_over E w0 p H0 Hb w Hr HQ _ _ _ HT1 Hc Hns).
  Qed.
End Exit.

Lemma two_moments E w0 s n1 x r1 n2 y r2 : LiveSpec.history E w0 s n1 = x ++ r1 -> LiveSpec.history E w0 s n2 = y ++ r2 -> upto x y \/ upto y x.
Proof.
  intros H1 H2. assert (Hboth : exists T r r', T = x ++ r /\ T = y ++ r').
  { destruct (Nat.le_ge_cases n1 n2) as [Hle|Hle]; destruct (history_le E w0 s _ _ Hle) as [v Hv].
    - exists (LiveSpec.history E w0 s n2), (r1 ++ v), r2. split; [rewrite Hv, H1, <- app_assoc; reflexivity|exact H2].
    - exists (LiveSpec.history E w0 s n1), r1, (r2 ++ v). split; [exact H1|rewrite Hv, H2, <- app_assoc; reflexivity]. }
  destruct Hboth as (T & r & r' & X1 & X2). rewrite X1 in X2. apply app_eq_app in X2. destruct X2 as (l & [[L1 L2]|[L1 L2]]).
  - right. exists l. exact L1.
  - left. exists l. exact L1.
Qed.

Section Ends.
  Context (E : env) (p : apid).
  Notation m := (ap_mach (apps E p)).
  Notation q := (queue_of E m).
  Notation wkr := (worker_of E m).
Lemma p_C67_error_ends :
  forall w0 s, init_mem E w0 -> app_built E w0 p -> served E w0 s (queue_of E (ap_mach (apps E p))) ->
  (forall n, only_through_app E p (LiveSpec.history E w0 s n)) -> ap_exit (apps E p) = true ->
  forall t n a r, goes_on E w0 s t -> LiveSpec.history E w0 s n = a ++ (t, OInv (AAppError p)) :: r -> left_init E p a ->
    exists n' h r', LiveSpec.history E w0 s n' = h ++ r' /\ upto (a ++ [(t, OInv (AAppError p))]) h /\
      rests (queue_of E (ap_mach (apps E p))) (worker_of E (ap_mach (apps E p))) h /\ is_over E p h /\ app_released p h.
Proof.
  intros w0 s H0 Hb Hsv HQ Hex t n a r Hg HT Hleft.
  destruct (p_C67_error_stops E p w0 s H0 Hb Hsv HQ t n a r Hg HT Hleft) as (n1 & h & r1 & Hh & Hup & Hre & Hst).
  assert (Hx : serves E (exec_of E m) q) by (exists m; auto).
  assert (Hopen : forall n', ~ shut_at (exec_of E m) (LiveSpec.history E w0 s n')) by (intro n'; exact (sv_open _ _ _ _ Hsv _ n' Hx)).
  pose proof (moment_reach E w0 s n1) as Hr1.
  destruct (pending E w0 p H0 Hb _ Hr1 (HQ n1) Hex (S (List.length h)) h r1 (Nat.lt_succ_diag_r _) Hh Hre) as [Hpend Hrel].
  destruct Hst as [Hst|Hst].
  2:{ exists n1, h, r1. split; [exact Hh|]. split; [exact Hup|]. split; [exact Hre|]. split; [exact Hst|].
      destruct Hrel as [Hrel|Hrel]; [right; exact Hst|exact Hrel|destruct (Hopen _ Hrel)]. }
  destruct (Hpend Hst) as (ho & t0 & pr & r0 & Hho & Hlen).
  assert (HTo : LiveSpec.history E w0 s n1 = ho ++ (t0, OOffer q pr (ELife LStop) m (ELife LStop) m) :: r0 ++ r1) by (rewrite Hh, Hho, <- app_assoc; reflexivity).
  destruct (p_C51_accepted_is_processed E w0 s q H0 Hsv n1 ho t0 pr (ELife LStop) m (ELife LStop) m _ HTo) as (n2 & x & i & a' & b' & its' & z' & d' & _ & Hs2 & _ & Hl2).
  pose proof (moment_reach E w0 s n2) as Hr2. set (op := OTake q pr (Some (ELife LStop, m))) in *.
  assert (HT2 : tr (wm (moment E w0 s n2)) = a' ++ (TWorker x i, op) :: b' ++ (TWorker x i, z') :: d') by (destruct Hs2 as (X & _); exact X).
  assert (Hua : upto h a').
  { assert (HT3 : LiveSpec.history E w0 s n2 = (a' ++ [(TWorker x i, op)]) ++ b' ++ (TWorker x i, z') :: d') by (unfold LiveSpec.history; rewrite HT2, <- app_assoc; reflexivity).
    destruct (two_moments E w0 s _ _ _ _ _ _ Hh HT3) as [[y Hy]|[y Hy]].
    - destruct y as [|e y] using rev_ind.
      + exfalso. rewrite app_nil_r in Hy. rewrite <- Hy in Hlen. rewrite taken_app, app_length in Hlen. unfold op in Hlen. rewrite taken_one in Hlen. simpl in Hlen. lia.
      + rewrite app_assoc in Hy. apply app_inj_tail in Hy. destruct Hy as [Hy _]. exists y. exact Hy.
    - exfalso. rewrite Hy, !taken_app, !app_length in Hlen. unfold op in Hlen. rewrite taken_one in Hlen. simpl in Hlen. lia. }
  destruct Hua as [y Hy].
  destruct (t_life E w0 p H0 Hb _ Hr2 (HQ n2) _ _ _ _ _ HT2) as [Hwk _]. rewrite Hwk in *.
  assert (Hra : rests q wkr a') by exact (take_rests E w0 p H0 _ Hr2 _ _ _ _ HT2).
  assert (Hsa : mstate_at m a' = (Some (SApp p STOPPED), false) \/ mstate_at m a' = (Some (SEnd m), true)).
  { rewrite Hy in Hra, HT2 |- *. exact (stopped_stays E w0 p H0 Hb _ Hr2 (HQ n2) Hex (S (List.length y)) h y _ (Nat.lt_succ_diag_r _) HT2 Hre Hra (or_introl Hst)). }
  assert (Hla : left_init E p a') by (destruct Hsa as [X|X]; injection X as X _; eexists; (split; [exact X|discriminate])).
  destruct (p_C67_each_event E w0 _ p H0 Hr2 Hb (HQ n2) _ _ _ _ _ _ _ _ Hs2 Hla) as (l & k & [= <-] & Hbefore & Hafter).
  assert (Hov : is_over E p (a' ++ (wkr, op) :: b' ++ [(wkr, z')])).
  { destruct k as [k|]; [|exact Hafter]. simpl in Hbefore. assert (Hk : k = STOPPED) by (destruct Hsa as [X|X]; rewrite X in Hbefore; congruence). subst k. exact Hafter. }
  set (hf := a' ++ (wkr, op) :: b' ++ [(wkr, z')]) in *.
  assert (Hhf : LiveSpec.history E w0 s n2 = hf ++ d') by (unfold LiveSpec.history, hf; rewrite HT2; repeat (rewrite <- app_assoc; simpl); reflexivity).
  assert (Hrf : rests q wkr hf) by exact (span_rests E w0 p H0 _ Hr2 _ _ _ _ _ _ _ Hs2).
  exists n2, hf, d'. split; [exact Hhf|]. split.
  { destruct Hup as [v Hv]. exists (v ++ y ++ (wkr, op) :: b' ++ [(wkr, z')]). unfold hf. rewrite Hy, Hv. repeat (rewrite <- app_assoc; simpl). reflexivity. }
  split; [exact Hrf|]. split; [exact Hov|].
  destruct (pending E w0 p H0 Hb _ Hr2 (HQ n2) Hex (S (List.length hf)) hf d' (Nat.lt_succ_diag_r _) Hhf Hrf) as [_ Hrel2].
  destruct Hrel2 as [Hrel2|Hrel2]; [right; exact Hov|exact Hrel2|destruct (Hopen _ Hrel2)].
Qed.
(** ... and a thread that waits in start() returns *)
Lemma p_C67_start_returns :
  forall w0 s, init_mem E w0 -> app_built E w0 p -> served E w0 s (queue_of E (ap_mach (apps E p))) ->
  (forall n, only_through_app E p (LiveSpec.history E w0 s n)) -> ap_exit (apps E p) = true ->
  forall t n a r, goes_on E w0 s t -> LiveSpec.history E w0 s n = a ++ (t, OInv (AAppError p)) :: r -> left_init E p a ->
  forall t2 n2 a2 r2, fair s t2 -> no_runaway E w0 s t2 -> (forall n' p', In (t2, OInv (AAppStart p')) (LiveSpec.history E w0 s n') -> p' = p) ->
    LiveSpec.history E w0 s n2 = a2 ++ (t2, OInv (AAppStart p)) :: r2 ->
    exists n' b its v d, span t2 (LiveSpec.history E w0 s n') a2 (OInv (AAppStart p)) b its (ORet (AAppStart p) v) d.
Proof.
  intros w0 s H0 Hb Hsv HQ Hex t n a r Hg HT Hleft t2 n2 a2 r2 Hf Hnr Hp HT2.
  destruct (p_C67_error_ends w0 s H0 Hb Hsv HQ Hex t n a r Hg HT Hleft) as (n1 & h & r1 & Hh & _ & _ & _ & [t3 Hrel]).
  assert (Hg2 : goes_on E w0 s t2).
  { split; [exact Hf|]. split; [exact Hnr|]. intros n' p' Hin. rewrite (Hp _ _ Hin). exists n1, t3. rewrite Hh. apply in_or_app. left. exact Hrel. }
  destruct (p_C50_begun_is_finished E w0 s t2 H0 Hg2 n2 _ _ _ HT2 ltac:(discriminate)) as (n' & b & its & z & d & _ & Hs & Hz).
  destruct z; simpl in Hz; try contradiction. subst. exists n', b, its. eauto.
Qed.
End Ends.
