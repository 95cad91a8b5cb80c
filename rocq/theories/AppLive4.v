(** * AppLive4.v: the events an app service is sent (proofs) *)
From Verif Require Import Sched MemInv Logic LiveSpec Lang Tree Nodes Marks Place Moments Truth Copies QueueProofs CallProofs FireProofs StartProofs
  TokenProofs ExactProofs FlowProofs2 Live LiveProofs LiveProofs2 AppLive1 AppLive2 AppLive3.
From Verif Require Import AppLiveSpec.
From Verif Require Import ConfigSpec.

(** ** Offers in the marks of fire(), start(), stop() *)
Definition is_offer (o : obs) : bool := match o with OOffer _ _ _ _ _ _ => true | _ => false end.
Notation no_offer := (Forall (fun o => is_offer o = false)).
Lemma only_one j1 o j2 k1 o' k2 : j1 ++ o :: j2 = k1 ++ o' :: k2 -> is_offer o = true -> is_offer o' = true -> no_offer j1 -> no_offer j2 ->
  k1 = j1 /\ o' = o /\ k2 = j2.
Proof.
  intros H Ho Ho' N1 N2. rewrite Forall_forall in N1, N2. apply app_eq_app in H. destruct H as (l & [[L1 L2]|[L1 L2]]); destruct l as [|y l].
  - rewrite app_nil_r in L1. injection L2; intros; subst; auto.
  - injection L2 as <- L2. exfalso. rewrite (N1 o') in Ho'; [discriminate|]. rewrite L1. apply in_or_app. right. left. reflexivity.
  - rewrite app_nil_r in L1. simpl in L2. injection L2; intros; subst; auto.
  - injection L2 as <- L2. exfalso. rewrite (N2 o') in Ho'; [discriminate|]. rewrite L2. apply in_or_app. right. left. reflexivity.
Qed.
Lemma fire_offer E m0 e0 x out : fireL E m0 e0 x out -> s_drop (strat E (strat_of E m0)) = false ->
  no_offer out \/ exists j1 pr e2 j2, out = j1 ++ OOffer (queue_of E m0) pr e0 m0 e2 m0 :: j2 /\ no_offer j1 /\ no_offer j2 /\
    (e2 = e0 \/ exists y, In (R (RdPay e0 (Some y))) j1).
Proof.
  intros H Hd. destruct H as [->|[->|(o1 & H1 & Hp)]]; [left; repeat constructor|left; repeat constructor|].
  unfold processL in Hp. rewrite Hd in Hp. destruct Hp as (c & n & o2 & -> & Hp). destruct (full _ _ _).
  { left. rewrite Hp in H1. destruct H1 as [->| ->]; repeat constructor. }
  destruct Hp as (pr & o3 & Hs & Hp). right.
  assert (Hn : no_offer o3) by (destruct Hs as [[_ ->]|[_ ->]]; repeat constructor).
  assert (Hpre : exists pre, no_offer pre /\ out = pre ++ R (RdLook (queue_of E m0) c) :: R (RdSize (queue_of E m0) c n) :: o2).
  { destruct H1 as [->| ->]; [eexists [_; _; _]|eexists [_; _]]; (split; [|reflexivity]); repeat constructor. }
  destruct Hpre as (pre & N & ->). destruct Hp as [->|(y & nm & y' & e' & ->)].
  - exists (pre ++ [R (RdLook (queue_of E m0) c); R (RdSize (queue_of E m0) c n); OWr (WrGot pr); R (RdPay e0 None); OWr (WrPair pr e0 m0)]), pr, e0, o3.
    split; [rewrite <- app_assoc; reflexivity|]. split; [apply Forall_app; split; [exact N|repeat constructor]|]. auto.
  - exists (pre ++ [R (RdLook (queue_of E m0) c); R (RdSize (queue_of E m0) c n); OWr (WrGot pr); R (RdPay e0 (Some y)); R (RdName e0 nm); R (RdPay e0 y'); OWr (WrCopy e' nm y'); OWr (WrPair pr e' m0)]), pr, e', o3.
    split; [rewrite <- app_assoc; reflexivity|]. split; [apply Forall_app; split; [exact N|repeat constructor]|]. split; [exact Hn|]. right. exists y.
    apply in_or_app. right. simpl. auto.
Qed.
Lemma only_none (L : lang) P : L <<= P -> (forall o, P o -> is_offer o = false) -> forall x out, L x out -> no_offer out.
Proof. intros H Hp x out Hl. apply H in Hl. eapply Forall_impl; [|exact Hl]. exact Hp. Qed.
Lemma start_offer m x out : startL m x out -> no_offer out /\ (x = None -> In (OStarted m) out /\ In (OUnended m) out).
Proof.
  intro H. split.
  - apply (only_none _ _ (only_start m)) in H; [exact H|]. intros o Ho. dmay; subst; try reflexivity.
  - intros ->. destruct (start_shape _ _ _ H) as [[Hn|(pre & s & mid & post & -> & _)] Hw]; destruct (Hw eq_refl) as (o1 & Ho).
    + exfalso. rewrite Ho in Hn. apply Forall_app in Hn. destruct Hn as [_ Hn]. inversion Hn as [|? ? Hx _]. simpl in Hx. rewrite Nat.eqb_refl in Hx. discriminate.
    + split; [apply in_or_app; right; left; reflexivity|]. rewrite Ho. apply in_or_app. right. left. reflexivity.
Qed.
Lemma app_stop_offer E p x out j1 o j2 : appStopL E p x out -> out = j1 ++ o :: j2 -> is_offer o = true ->
  s_drop (strat E (strat_of E (ap_mach (apps E p)))) = false ->
  let m := ap_mach (apps E p) in
  exists c j pr e2, j1 = R (RdCur m c) :: j /\ (is_name E c "STARTED" = true \/ (ap_exit (apps E p) = false /\ is_name E c "STOPPED" = true)) /\
    no_offer j1 /\ no_offer j2 /\ o = OOffer (queue_of E m) pr (ELife LStop) m e2 m /\ (e2 = ELife LStop \/ exists y, In (R (RdPay (ELife LStop) (Some y))) j1).
Proof.
  intros (c & o1 & -> & Hl) Hj Ho Hd m. destruct j1 as [|o0 j1]; [injection Hj as <- _; discriminate|]. injection Hj as <- Hj. exists c, j1.
  assert (Hc : (is_name E c "STARTED" = true \/ ap_exit (apps E p) = false /\ is_name E c "STOPPED" = true) /\ fireL E m (ELife LStop) x o1).
  { destruct (is_name E c "STARTED"); [simpl in Hl; auto|]. simpl in Hl.
    destruct (ap_exit (apps E p)), (is_name E c "STOPPED"); simpl in Hl; auto; exfalso; destruct Hl as [_ ->]; destruct j1; discriminate. }
  destruct Hc as [Hc Hf]. destruct (fire_offer _ _ _ _ _ Hf Hd) as [N|(k1 & pr & e2 & k2 & -> & N1 & N2 & He)].
  - exfalso. rewrite Hj in N. apply Forall_app in N. destruct N as [_ N]. inversion N as [|? ? Hx _]. congruence.
  - destruct (only_one k1 _ k2 j1 o j2 Hj eq_refl Ho N1 N2) as (-> & -> & ->). exists pr, e2. split; [reflexivity|]. split; [exact Hc|].
    split; [constructor; [reflexivity|exact N1]|]. split; [exact N2|]. split; [reflexivity|]. destruct He as [He|[y He]]; [auto|right; exists y; right; exact He].
Qed.
Lemma app_start_offer E p x out j1 o j2 : appStartL E p x out -> out = j1 ++ o :: j2 -> is_offer o = true ->
  s_drop (strat E (strat_of E (ap_mach (apps E p)))) = false ->
  let m := ap_mach (apps E p) in let q := queue_of E m in
  (exists pr e2, In (OStarted m) j1 /\ In (OUnended m) j1 /\ no_offer j1 /\ o = OOffer q pr (ELife LStart) m e2 m /\
     (e2 = ELife LStart \/ exists y, In (R (RdPay (ELife LStart) (Some y))) j1)) \/
  (ap_exit (apps E p) = false /\ exists c j, j1 = R (RdCur m c) :: R (RdStarted m true) :: j /\ is_name E c "STOPPED" = true /\ no_offer j1 /\
     exists pr e2, o = OOffer q pr (ELife LStart) m e2 m /\ (e2 = ELife LStart \/ exists y, In (R (RdPay (ELife LStart) (Some y))) j1)) \/
  (exists b i1 i2 c i3, j1 = i1 ++ OWr (WrAwait p b) :: i2 ++ R (RdCur m c) :: i3 /\
     (is_name E c "STARTED" = true \/ (ap_exit (apps E p) = false /\ is_name E c "STOPPED" = true))).
Proof.
  intros (c & o1 & -> & Hl) Hj Ho Hd m q. destruct j1 as [|o0 j1]; [injection Hj as <- _; discriminate|]. injection Hj as <- Hj.
  destruct Hl as [(o2 & -> & Hl)|(o2 & -> & Hl)]; (destruct j1 as [|o0 j1]; [injection Hj as <- _; discriminate|]; injection Hj as <- Hj).
  - assert (Hno : forall l, no_offer l -> ~ In o l).
    { intros l N Hi. rewrite Forall_forall in N. rewrite (N _ Hi) in Ho. discriminate. }
    destruct Hl as [(y & _ & Hl)|(k1 & k2 & -> & Hl1 & Hl)].
    { destruct (start_offer _ _ _ Hl) as [N _]. exfalso. apply (Hno _ N). rewrite Hj. apply in_or_app. right. left. reflexivity. }
    destruct (start_offer _ _ _ Hl1) as [N1 W]. destruct (W eq_refl) as [W1 W2].
    destruct (split_app _ _ _ _ _ Hj) as [(j & Hk & _)|(j & Hk & ->)].
    { exfalso. apply (Hno _ N1). rewrite Hk. apply in_or_app. right. left. reflexivity. }
    assert (Hfire : forall x0 o4 j', fireL E m (ELife LStart) x0 o4 -> o4 = j ++ o :: j' ->
      exists pr e2, In (OStarted m) (R (RdCur m c) :: R (RdStarted m false) :: k1 ++ j) /\ In (OUnended m) (R (RdCur m c) :: R (RdStarted m false) :: k1 ++ j) /\
        no_offer (R (RdCur m c) :: R (RdStarted m false) :: k1 ++ j) /\ o = OOffer q pr (ELife LStart) m e2 m /\
     (e2 = ELife LStart \/ exists y, In (R (RdPay (ELife LStart) (Some y))) (R (RdCur m c) :: R (RdStarted m false) :: k1 ++ j))).
    { intros x0 o4 j' Hf ->. destruct (fire_offer _ _ _ _ _ Hf Hd) as [N|(i1 & pr & e2 & i2 & Hi & I1 & I2 & He)].
      - exfalso. apply (Hno _ N). apply in_or_app. right. left. reflexivity.
      - destruct (only_one _ _ _ _ _ _ (eq_sym Hi) eq_refl Ho I1 I2) as (-> & -> & ->). exists pr, e2.
        split; [right; right; apply in_or_app; auto|]. split; [right; right; apply in_or_app; auto|].
        split; [repeat (constructor; [reflexivity|]); apply Forall_app; auto|]. split; [reflexivity|].
        destruct He as [He|[y He]]; [auto|right; exists y; right; right; apply in_or_app; auto]. }
    destruct Hl as [(y & _ & Hl)|(k3 & k4 & -> & Hl2 & Hl)]; [left; exact (Hfire _ _ _ Hl Hk)|].
    destruct (split_app _ _ _ _ _ Hk) as [(j' & Hk' & _)|(j' & Hk' & ->)]; [left; exact (Hfire _ _ _ Hl2 Hk')|].
    right. right. destruct Hl as [(y & -> & ? & _)|(k5 & k6 & -> & (_ & Haw) & bb & k7 & -> & Hl)]; [discriminate|].
    destruct (split_app _ _ _ _ _ Hk') as [(j3 & Hk3 & _)|(j3 & Hk3 & ->)].
    { exfalso. assert (N : no_offer k5) by (destruct Haw as [->| ->]; repeat constructor). apply (Hno _ N). rewrite Hk3. apply in_or_app. right. left. reflexivity. }
    destruct j3 as [|o3 j3]; [injection Hk3 as <- _; discriminate|]. injection Hk3 as <- Hk3.
    destruct bb; [destruct Hl as [_ ->]; destruct j3; discriminate|].
    destruct (app_stop_offer _ _ _ _ _ _ _ Hl Hk3 Ho Hd) as (c' & j4 & pr & e2 & -> & Hc & _).
    destruct Haw as [->| ->].
    + exists false, (R (RdCur m c) :: R (RdStarted m false) :: k1 ++ k3), [R (RdEnded m false)], c', j4. split; [|exact Hc].
      simpl. rewrite <- ?app_assoc. reflexivity.
    + exists true, (R (RdCur m c) :: R (RdStarted m false) :: k1 ++ k3), [OLog "Main latch was interrupted"; OWr (WrIntr None); R (RdEnded m false)], c', j4. split; [|exact Hc].
      simpl. rewrite <- ?app_assoc. reflexivity.
  - right. left. destruct (ap_exit (apps E p)); [exfalso; simpl in Hl; destruct Hl as [_ ->]; destruct j1; discriminate|].
    split; [reflexivity|]. exists c, j1. split; [reflexivity|]. simpl in Hl. destruct (is_name E c "STOPPED");
      [|destruct Hl as [_ ->]; destruct j1; discriminate]. split; [reflexivity|].
    destruct (fire_offer _ _ _ _ _ Hl Hd) as [N|(i1 & pr & e2 & i2 & Hi & I1 & I2 & He)].
    + exfalso. rewrite Forall_forall in N. rewrite Hj in N. rewrite (N o) in Ho; [discriminate|]. apply in_or_app. right. left. reflexivity.
    + rewrite Hj in Hi. destruct (only_one _ _ _ _ _ _ (eq_sym Hi) eq_refl Ho I1 I2) as (-> & -> & ->).
      split; [repeat (constructor; [reflexivity|]); exact I1|]. exists pr, e2. split; [reflexivity|].
      destruct He as [He|[y He]]; [auto|right; exists y; right; right; exact He].
Qed.

(** ** Counting offers and takes *)
Lemma offered_at q k : forall h, k < List.length (accepted q h) ->
  exists a t pr e1 m1 e2 m2 r, h = a ++ (t, OOffer q pr e1 m1 e2 m2) :: r /\ List.length (accepted q a) = k.
Proof.
  induction h as [|[t o] h IH] using rev_ind; [simpl; lia|]. rewrite accepted_app, app_length. intro Hk.
  destruct (Nat.lt_ge_cases k (List.length (accepted q h))) as [Hl|Hl].
  - destruct (IH Hl) as (a & t' & pr & e1 & m1 & e2 & m2 & r & -> & Ha). exists a, t', pr, e1, m1, e2, m2, (r ++ [(t, o)]).
    split; [rewrite <- app_assoc; reflexivity|]. exact Ha.
  - destruct o; simpl in Hk; try lia. destruct (Nat.eqb_spec q0 q) as [->|]; simpl in Hk; [|lia].
    eexists h, t, _, _, _, _, _, []. split; [reflexivity|]. lia.
Qed.
Lemma asked_app f a b : asked f (a ++ b) = asked f a + asked f b.
Proof. unfold asked. rewrite map_app, filter_app, app_length. reflexivity. Qed.
Lemma asked_cons f x b : asked f (x :: b) = (if f (snd x) then 1 else 0) + asked f b.
Proof. unfold asked. simpl. destruct (f (snd x)); reflexivity. Qed.
Lemma asked_once f T a1 t1 o1 r1 a2 t2 o2 r2 : asked f T <= 1 -> T = a1 ++ (t1, o1) :: r1 -> T = a2 ++ (t2, o2) :: r2 -> f o1 = true -> f o2 = true ->
  a1 = a2 /\ t1 = t2 /\ o1 = o2.
Proof.
  intros Ha H1 H2 F1 F2. rewrite H1 in H2. apply app_eq_app in H2. destruct H2 as (l & [[L1 L2]|[L1 L2]]); destruct l as [|y l].
  - rewrite app_nil_r in L1. injection L2; intros; subst; auto.
  - injection L2 as <- L2. exfalso. rewrite H1, L1, asked_app, asked_app, !asked_cons in Ha. simpl in Ha. rewrite F1, F2 in Ha. lia.
  - rewrite app_nil_r in L1. simpl in L2. injection L2; intros; subst; auto.
  - injection L2 as <- L2. exfalso. rewrite H1, L2, asked_app, asked_cons, asked_app, asked_cons in Ha. simpl in Ha. rewrite F1, F2 in Ha. lia.
Qed.

(** ** The state a start enters *)
Lemma start_state m x out j1 st j2 : startL m x out -> out = j1 ++ OState m st :: j2 -> In (R (RdInit m (Some st))) j1.
Proof.
  intros (i & o1 & -> & Hl) Hj. destruct j1 as [|o j1]; [discriminate|]. injection Hj as <- Hj. left.
  destruct i as [init|]; [|destruct Hl as [_ ->]; destruct j1; discriminate].
  destruct Hl as (bb & o2 & -> & Hl). destruct j1 as [|o j1]; [discriminate|]. injection Hj as <- Hj.
  destruct bb; [destruct Hl as [_ ->]; destruct j1; discriminate|].
  destruct Hl as (d & o3 & -> & Hl). destruct j1 as [|o j1]; [discriminate|]. injection Hj as <- Hj.
  destruct d; [destruct Hl as [_ ->]; destruct j1; discriminate|].
  destruct Hl as [[_ ->]|(o4 & -> & Hl)].
  { destruct j1 as [|o j1]; [discriminate|]. injection Hj as _ Hj. destruct j1; discriminate. }
  destruct j1 as [|o j1]; [discriminate|]. injection Hj as <- Hj. destruct j1 as [|o j1]; [injection Hj as -> _; reflexivity|]. injection Hj as _ Hj. exfalso.
  assert (Hn : forall P (L : lang) x out, L <<= P -> (forall o, P o -> setw m o = false) -> L x out -> ~ In (OState m st) out).
  { intros P L x0 out0 Ho Hp HL Hi. apply Ho in HL. rewrite Forall_forall in HL. apply HL in Hi. apply Hp in Hi. simpl in Hi. rewrite Nat.eqb_refl in Hi. discriminate. }
  assert (N1 : forall fin x0 out0, notifyL m fin (SNone m) (EImm m) init x0 out0 -> ~ In (OState m st) out0).
  { intros fin x0 out0. apply (Hn _ _ x0 out0 (only_notify m fin (SNone m) (EImm m) init)). intros o0 Ho. dmay; subst; reflexivity. }
  assert (N2 : forall x0 out0, actsL true init (EImm m) m x0 out0 -> ~ In (OState m st) out0).
  { intros x0 out0. apply (Hn _ _ x0 out0 (only_acts true init (EImm m) m)). intros o0 Ho. dmay; subst; reflexivity. }
  assert (Hi : In (OState m st) o4) by (rewrite Hj; apply in_or_app; right; left; reflexivity).
  destruct Hl as [(y & _ & Hl)|(k1 & k2 & -> & Hl1 & Hl)]; [exact (N1 _ _ _ Hl Hi)|]. apply in_app_or in Hi. destruct Hi as [Hi|Hi]; [exact (N1 _ _ _ Hl1 Hi)|].
  destruct Hl as [(y & _ & Hl)|(k3 & k4 & -> & Hl2 & Hl)]; [exact (N2 _ _ Hl Hi)|]. apply in_app_or in Hi. destruct Hi as [Hi|Hi]; [exact (N2 _ _ Hl2 Hi)|].
  destruct Hl as [(y & _ & Hl)|(k5 & k6 & -> & Hl3 & _ & ->)]; [exact (N1 _ _ _ Hl Hi)|]. apply in_app_or in Hi. destruct Hi as [Hi|Hi]; [exact (N1 _ _ _ Hl3 Hi)|].
  destruct Hi as [Hi|[]]. discriminate.
Qed.
Lemma app_start_state E p x out j1 st j2 : appStartL E p x out -> out = j1 ++ OState (ap_mach (apps E p)) st :: j2 ->
  In (R (RdInit (ap_mach (apps E p)) (Some st))) j1.
Proof.
  intros (c & o1 & -> & Hl) Hj. destruct j1 as [|o j1]; [discriminate|]. injection Hj as <- Hj.
  assert (Hfire : forall e0 x0 out0, fireL E (ap_mach (apps E p)) e0 x0 out0 -> ~ In (OState (ap_mach (apps E p)) st) out0).
  { intros e0 x0 out0 H Hi. apply only_fire in H. rewrite Forall_forall in H. apply H in Hi. dmay; discriminate. }
  assert (Hstop : forall x0 out0, appStopL E p x0 out0 -> ~ In (OState (ap_mach (apps E p)) st) out0).
  { intros x0 out0 H Hi. apply only_appstop in H. rewrite Forall_forall in H. apply H in Hi. dmay; discriminate. }
  destruct Hl as [(o2 & -> & Hl)|(o2 & -> & Hl)]; (destruct j1 as [|o j1]; [discriminate|]; injection Hj as <- Hj).
  - right. right. destruct Hl as [(y & _ & Hl)|(k1 & k2 & -> & Hl1 & Hl)]; [exact (start_state _ _ _ _ _ _ Hl Hj)|].
    destruct (split_app _ _ _ _ _ Hj) as [(j & Hk & _)|(j & Hk & ->)]; [exact (start_state _ _ _ _ _ _ Hl1 Hk)|exfalso].
    assert (Hi : In (OState (ap_mach (apps E p)) st) k2) by (rewrite Hk; apply in_or_app; right; left; reflexivity).
    destruct Hl as [(y & _ & Hl)|(k3 & k4 & -> & Hl2 & Hl)]; [exact (Hfire _ _ _ Hl Hi)|].
    apply in_app_or in Hi. destruct Hi as [Hi|Hi]; [exact (Hfire _ _ _ Hl2 Hi)|].
    destruct Hl as [(y & -> & ? & _)|(k5 & k6 & -> & (_ & Haw) & bb & k7 & -> & Hl)]; [discriminate|].
    apply in_app_or in Hi. destruct Hi as [Hi|Hi]; [destruct Haw as [->| ->]; simpl in Hi; intuition discriminate|].
    destruct Hi as [Hi|Hi]; [discriminate|]. destruct bb; [destruct Hl as [_ ->]; destruct Hi|exact (Hstop _ _ Hl Hi)].
  - exfalso. assert (Hi : In (OState (ap_mach (apps E p)) st) o2) by (rewrite Hj; apply in_or_app; right; left; reflexivity).
    destruct (andb _ _); [exact (Hfire _ _ _ Hl Hi)|]. destruct Hl as [_ ->]. destruct Hi.
Qed.

(** ** In one history *)
Section Quiet.
  Context (E : env) (w0 : mem) (p : apid) (H0 : init_mem E w0) (Hb : app_built E w0 p).
  Context (w : world) (Hr : reach E w0 w).
  Notation T := (tr (wm w)).
  Notation m := (ap_mach (apps E p)).
  Notation q := (queue_of E m).
  Notation wkr := (worker_of E m).
  Context {f : fate} (HQ : app_quiet E p f T).

  Lemma taken_nil h t pr c : taken q h = [] -> ~ In (t, OTake q pr c) h.
  Proof.
    intros Ht Hi. apply in_split in Hi. destruct Hi as (a & b & ->). unfold taken in Ht. rewrite flat_map_app in Ht. simpl in Ht.
    rewrite Nat.eqb_refl in Ht. destruct (flat_map _ a); discriminate.
  Qed.
  (** before the first event only the start changes the state *)
  Lemma early h t o r : T = h ++ (t, o) :: r -> taken q h = [] -> relevant E m o = true ->
    exists its u, fst (scan t h) = (FApi (AAppStart p), its) :: u /\ setw m o = true.
  Proof.
    intros HT Ht Hrel. destruct (relevant_plain E m o Hrel) as [Hcl Hop].
    destruct (placed_at E w0 w H0 Hr _ _ _ _ HT Hcl) as (k & its & u & Hs & Hm).
    destruct k as [|a|c|q' pr c].
    - exfalso. simpl in Hm. destruct t; simpl in Hm.
      + unfold muser in Hm. dmay; subst; discriminate.
      + destruct o; try contradiction; try discriminate.
    - simpl in Hm. assert (Ho : opened t h (FApi a) its) by (unfold opened; rewrite Hs; left; reflexivity).
      pose proof (aq_none _ _ _ _ HQ _ _ (open_call w _ _ _ _ _ HT Ho)) as Hno.
      destruct (api_disturbs E m [] _ _ Hm Hrel) as [[Hst Hw]|Hd].
      { destruct a; simpl in Hst; try contradiction; try (exfalso; apply Hno; exact Hst). apply (ab_alone _ _ _ Hb) in Hst. subst p0. eauto. }
      destruct a; simpl in Hd; try (destruct Hd; contradiction); try (exfalso; apply Hno; exact Hd); try (exfalso; apply Hno; exact (proj1 Hd)).
      + exfalso. apply Hno. simpl. rewrite (ab_table _ _ _ Hb) in Hd. exact Hd.
      + destruct Hd as [Hst _]. apply (ab_alone _ _ _ Hb) in Hst. subst p0. exists its, u. split; [exact Hs|].
        simpl in Hm. dmay; subst; simpl in Hrel; try discriminate; exact Hrel.
    - exfalso. simpl in Hm. apply (code_irrelevant E m) in Hm. congruence.
    - exfalso. assert (Ho : opened t h (FTake q' pr c) its) by (unfold opened; rewrite Hs; left; reflexivity).
      destruct (opened_inv _ _ _ _ Ho ltac:(discriminate)) as (a & op & b & v & Hh & Hop' & _).
      destruct op; try discriminate. injection Hop' as -> -> ->.
      assert (Htk : In (t, OTake q' pr c) T) by (rewrite HT, Hh, <- app_assoc; apply in_or_app; right; left; reflexivity).
      destruct (taken_accepted E w0 w _ _ _ _ H0 Hr Htk) as (t' & e0 & e & m' & -> & Hq & _).
      destruct Hm as (tm & i & _ & _ & Hm).
      assert (m' = m) as ->.
      { dmay; subst; simpl in Hrel; try discriminate;
          repeat match goal with H : Some _ = Some _ |- _ => injection H as <- <- end;
          apply Nat.eqb_eq in Hrel; auto. }
      subst q'. apply (taken_nil h t pr (Some (e, m)) Ht). rewrite Hh. apply in_or_app. right. left. reflexivity.
  Qed.
  Lemma app_frame h t o r its u : T = h ++ (t, o) :: r -> fst (scan t h) = (FApi (AAppStart p), its) :: u -> closes o = false ->
    exists y ext, appStartL E p y (its ++ o :: ext).
  Proof.
    intros HT Hs Hc. destruct (placed_frame E w0 w H0 Hr _ _ _ _ HT Hc) as (k & its' & u' & Hs' & Hf).
    rewrite Hs in Hs'. injection Hs' as <- <- _. destruct Hf as (ext & z & Hn). destruct z; simpl in Hn; try contradiction.
    destruct Hn as [_ (y & _ & Hn)]. exists y, ext. rewrite <- app_assoc in Hn. exact Hn.
  Qed.
  Lemma stop_frame h t o r its u : T = h ++ (t, o) :: r -> fst (scan t h) = (FApi (AAppStop p), its) :: u -> closes o = false ->
    exists y ext, appStopL E p y (its ++ o :: ext).
  Proof.
    intros HT Hs Hc. destruct (placed_frame E w0 w H0 Hr _ _ _ _ HT Hc) as (k & its' & u' & Hs' & Hf).
    rewrite Hs in Hs'. injection Hs' as <- <- _. destruct Hf as (ext & z & Hn). destruct z; simpl in Hn; try contradiction.
    destruct Hn as [_ (y & _ & Hn)]. exists y, ext. rewrite <- app_assoc in Hn. exact Hn.
  Qed.
  Lemma early_state h r : T = h ++ r -> taken q h = [] ->
    (cur_at m h = None \/ cur_at m h = Some (lst E p f 0)) /\ ended_at m h = false /\
    ((exists t st, In (t, OState m st) h) -> cur_at m h = Some (lst E p f 0)).
  Proof.
    revert r. induction h as [|[t o] h IH] using rev_ind; intros r HT Ht.
    - split; [left; reflexivity|]. split; [reflexivity|]. intros (t & st & []).
    - rewrite <- app_assoc in HT. simpl in HT. rewrite taken_app in Ht. apply app_eq_nil in Ht. destruct Ht as [Ht _].
      destruct (IH _ HT Ht) as (I1 & I2 & I3).
      assert (C : cur_at m (h ++ [(t, o)]) = curf m (cur_at m h) o) by (unfold cur_at, cur_of; rewrite replay_snoc; reflexivity).
      assert (D : ended_at m (h ++ [(t, o)]) = endf m (ended_at m h) o) by (unfold ended_at, ended_of; rewrite replay_snoc; reflexivity).
      rewrite C, D.
      assert (Hin : (exists t0 st, In (t0, OState m st) (h ++ [(t, o)])) -> (exists t0 st, In (t0, OState m st) h) \/ exists st, o = OState m st).
      { intros (t0 & st & Hi). apply in_app_or in Hi. destruct Hi as [Hi|[Hi|[]]]; [eauto|]. injection Hi as _ ->. eauto. }
      destruct (relevant E m o) eqn:Hrel.
      + destruct (early _ _ _ _ HT Ht Hrel) as (its & u & Hs & Hw).
        destruct o; simpl in Hw; try discriminate; simpl curf; simpl endf; rewrite ?Hw; apply Nat.eqb_eq in Hw; subst.
        * destruct (app_frame _ _ _ _ _ _ HT Hs eq_refl) as (y & ext & Hl).
          pose proof (app_start_state _ _ _ _ _ _ _ Hl eq_refl) as Hi.
          pose proof (init_read E w0 p H0 Hb w Hr HQ t _ (frame_in w _ _ _ _ _ _ _ HT Hs Hi)) as [= ->].
          rewrite lst_0. split; [right; reflexivity|]. split; [exact I2|]. reflexivity.
        * split; [exact I1|]. split; [reflexivity|]. intro Hx. apply I3. destruct (Hin Hx) as [H|[st H]]; [exact H|discriminate].
      + rewrite (curf_irr E m _ _ Hrel), (endf_irr E m _ _ Hrel). split; [exact I1|]. split; [exact I2|]. intro Hx. apply I3. destruct (Hin Hx) as [H|[st H]]; [exact H|].
        subst o. simpl in Hrel. rewrite Nat.eqb_refl in Hrel. discriminate.
  Qed.
  Lemma unended_state h r t : T = h ++ r -> taken q h = [] -> In (t, OUnended m) h -> exists t' st, In (t', OState m st) h.
  Proof.
    intros HT Ht Hi. apply in_split in Hi. destruct Hi as (h1 & h2 & ->). rewrite <- app_assoc in HT. simpl in HT.
    rewrite taken_app in Ht. apply app_eq_nil in Ht. destruct Ht as [Ht _].
    assert (Hrel : relevant E m (OUnended m) = true) by (simpl; apply Nat.eqb_refl).
    destruct (early _ _ _ _ HT Ht Hrel) as (its & u & Hs & _).
    destruct (app_frame _ _ _ _ _ _ HT Hs eq_refl) as (y & ext & Hl).
    assert (Ha : apiL E (AAppStart p) (rvx y) (its ++ OUnended m :: ext)) by (exists y; auto).
    destruct (starts_shape E m (AAppStart p) _ _ eq_refl Ha) as [N|(pre & st & mid & post & Heq & N1 & N2 & _)].
    { exfalso. apply (no_in m (OUnended m) _ N); [simpl; apply Nat.eqb_refl|]. apply in_or_app. right. left. reflexivity. }
    exists t, st. apply in_or_app. left. eapply (its_in t h1 []); [exact Hs|].
    change (OStarted m :: OState m st :: mid ++ post) with ([OStarted m; OState m st] ++ mid ++ post) in Heq. rewrite app_assoc in Heq. symmetry in Heq.
    destruct (split_app _ _ _ _ _ Heq) as [(j & Hk & _)|(j & _ & ->)].
    - exfalso. assert (Hi : In (OUnended m) (pre ++ [OStarted m; OState m st])) by (rewrite Hk; apply in_or_app; right; left; reflexivity).
      apply in_app_or in Hi. destruct Hi as [Hi|[Hi|[Hi|[]]]]; try discriminate. apply (no_in m (OUnended m) _ N1); [simpl; apply Nat.eqb_refl|exact Hi].
    - apply in_or_app. left. apply in_or_app. right. right. left. reflexivity.
  Qed.
  (** between two events the state does not change *)
  Lemma gap h r r' : T = (h ++ r) ++ r' -> start_over m h -> rests q wkr h -> rests q wkr (h ++ r) -> taken q r = [] ->
    mstate_at m (h ++ r) = mstate_at m h.
  Proof.
    intros HT Ho R1 R2 Ht.
    assert (HT' : T = h ++ r ++ r') by (rewrite app_assoc; exact HT).
    pose proof (calm_over E w0 p Hb w HQ h r r' HT' Ho) as Hc.
    destruct (reach_prefix E w0 w (im_tr _ _ H0) Hr _ _ HT) as (w1 & Hr1 & Hw1).
    destruct (all_events E w0 w1 H0 Hr1 m h r (life_conf E p m) (ab_queue _ _ _ Hb) (ab_thread _ _ _ Hb) Hw1 Hc) as (new & _ & Htk & Har); auto.
    { exact (conf_fixed E w0 p H0 Hb w Hr HQ h (r ++ r') HT'). }
    rewrite taken_app, Ht, app_nil_r in Htk. assert (Hn : new = []).
    { destruct new as [|n new]; [reflexivity|]. apply (f_equal (@List.length _)) in Htk. rewrite app_length in Htk. simpl in Htk. lia. }
    subst new. inversion Har as [s Hs1 Hs2|s ns s1 pr e its x n s2 _ _ _ Hs1 Hs2]; [unfold mstate_at; congruence|]. destruct ns; discriminate.
  Qed.
End Quiet.
