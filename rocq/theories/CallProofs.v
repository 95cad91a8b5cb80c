(** * CallProofs.v: callbacks and the app service (proofs for C31, C33, C35-C37, C45) *)
From Verif Require Import CallSpec MemInv Lang Tree Nodes Marks QueueProofs Place Moments Truth FlowProofs QTruth StartProofs FireProofs Copies.

Lemma performs_code E c a e m : performs c a e m -> callCode E c = actL E a e m.
Proof. intros [(en & s & ->)| ->]; reflexivity. Qed.
Lemma calls_one cs x out : callsL cs x out -> one_by_one cs x out.
Proof.
  revert x out. induction cs as [|c cs IH]; intros x out H.
  - destruct H as [-> ->]. left. auto.
  - destruct H as [(y & -> & H)|(o1 & o2 & -> & H1 & H2)].
    + right. exists [], c, cs, y. split; [reflexivity|]. split; [reflexivity|]. rewrite H. reflexivity.
    + unfold callL in H1. subst o1. destruct (IH _ _ H2) as [[-> ->]|(c1 & c' & c2 & y & -> & -> & ->)].
      * left. auto.
      * right. exists (c :: c1), c', c2, y. auto.
Qed.
Lemma shown_flat cs : shown (flat_map (fun c => called c None) cs) = flat_map (fun c => called c None) cs.
Proof. induction cs as [|c cs IH]; [reflexivity|]. simpl. rewrite IH. reflexivity. Qed.
Lemma shown_one cs x out : one_by_one cs x out -> shown out = out.
Proof.
  intros [[-> ->]|(c1 & c & c2 & y & -> & -> & ->)].
  - apply shown_flat.
  - rewrite shown_app, shown_flat. reflexivity.
Qed.

Lemma take_no_latch E k tm p c ap : mtake E k tm p c (OWr (WrLatch ap)) -> False.
Proof.
  intros [Hm|(e & m & -> & [Hm|[Hm|[Hm|Hm]]])]; try discriminate.
  - dmay; discriminate.
  - unfold mexec in Hm. cbv zeta in Hm. destruct Hm as [Hm|[Hm|(s & [Hm|[Hm|[Hm|[Hm|[Hm|Hm]]]]])]]; dmay; discriminate.
  - dmay; discriminate.
Qed.

Section Calls.
  Context (E : env) (w0 : mem) (w : world) (H0 : init_mem E w0) (Hr : reach E w0 w).
  Notation T := (tr (wm w)).

  (** ** C31 *)
  Lemma handled t a b its d c a' h e m x : performs c (AHandle a' h) e m ->
    span t T a (OCall c) b its (OBack c x) d ->
    exists y, match y with
      | None => its = called (KInner a' e m) None /\ x = None
      | Some v => if is_exception v then its = called (KInner a' e m) (Some v) ++ called (KHandler h e m v) x
                  else its = called (KInner a' e m) (Some v) /\ x = Some v
      end.
  Proof.
    intros Hp Hs. pose proof (span_node E w0 w H0 Hr _ _ _ _ _ _ _ (FCall c) Hs eq_refl) as [_ Hl].
    rewrite (performs_code _ _ _ _ _ Hp) in Hl. destruct Hl as [y Hl]. exists y. destruct y as [v|]; exact Hl.
  Qed.

  (** ** C33 *)
  Lemma log_format_text nm fin f e s : log_format nm fin f e s = log_text nm fin f e s.
  Proof. destruct nm as [[|]|], fin; reflexivity. Qed.
  Lemma logged t a b its d n nm fin m f e s x :
    let c := KListen fin (LLeaf (LfLog n nm)) m f e s in
    span t T a (OCall c) b its (OBack c x) d ->
    x = None /\ exists h, during t a (OCall c) b h /\
      shown its = [OLog (log_text nm fin (sname E f) (name_at E w0 e h) (sname E s))].
  Proof.
    intros c Hs. pose proof (span_node E w0 w H0 Hr _ _ _ _ _ _ _ (FCall c) Hs eq_refl) as [_ (en & -> & Hi)].
    split; [reflexivity|]. assert (Hrd : In (R (RdName e en)) its) by (rewrite Hi; left; reflexivity).
    destruct (read_during E w0 w H0 Hr _ _ _ _ _ _ _ _ Hs Hrd) as (h & Hd & Hv). simpl in Hv.
    exists h. split; [exact Hd|]. rewrite Hi. simpl. rewrite <- Hv, log_format_text. reflexivity.
  Qed.

  (** ** C35 *)
  Lemma subsystems (up : bool) t a b its d c p e m x :
    performs c (if up then AAppStarting p else AAppStopping p) e m ->
    span t T a (OCall c) b its (OBack c x) d ->
    exists h o, during t a (OCall c) b h /\
      shown its = OLog (if up then "Starting " ++ ap_name (apps E p) ++ " with args [" ++ String.concat ", " (ap_args (apps E p)) ++ "]" else "Stopping " ++ ap_name (apps E p))%string :: o /\
      andthen (one_by_one (map (KSub up p) (if up then subsystems_at w0 p h else rev (subsystems_at w0 p h))))
              (fired E w0 (ap_mach (apps E p)) (ELife LComplete) t a (OCall c) b) x o.
  Proof.
    intros Hp Hs. pose proof (span_node E w0 w H0 Hr _ _ _ _ _ _ _ (FCall c) Hs eq_refl) as [_ Hl].
    rewrite (performs_code _ _ _ _ _ Hp) in Hl.
    assert (Hl2 : seqx (emit [OLog (if up then "Starting " ++ ap_name (apps E p) ++ " with args [" ++ String.concat ", " (ap_args (apps E p)) ++ "]" else "Stopping " ++ ap_name (apps E p))%string])
       (seqx (subsL up p) (fireL E (ap_mach (apps E p)) (ELife LComplete))) x its) by (destruct up; exact Hl).
    clear Hl. destruct Hl2 as [(y & -> & [? _])|(o1 & o2 & Hi & [_ ->] & Hl)]; [discriminate|].
    assert (Hrd : forall l j, o2 = R (RdSubs p l) :: j -> exists h, during t a (OCall c) b h /\ l = subsystems_at w0 p h).
    { intros l j ->. apply (read_during E w0 w H0 Hr _ _ _ _ _ _ _ (RdSubs p l) Hs). rewrite Hi. right. left. reflexivity. }
    destruct Hl as [(y & -> & Hl)|(o3 & o4 & -> & Hl1 & Hl2)].
    - destruct Hl as (l & o & -> & Hl). destruct (Hrd _ _ eq_refl) as (h & Hd & Hv).
      exists h, (shown o). rewrite <- Hv. split; [exact Hd|]. split; [rewrite Hi; reflexivity|].
      left. exists y. split; [reflexivity|]. apply calls_one in Hl. rewrite (shown_one _ _ _ Hl). exact Hl.
    - destruct Hl1 as (l & o & -> & Hl1). destruct (Hrd _ _ eq_refl) as (h & Hd & Hv).
      exists h, (shown (o ++ o4)). rewrite <- Hv. split; [exact Hd|]. split; [rewrite Hi; reflexivity|].
      right. exists o, (shown o4). apply calls_one in Hl1.
      split; [rewrite shown_app, (shown_one _ _ _ Hl1); reflexivity|]. split; [exact Hl1|].
      eapply (fire_ok E w0 w H0 Hr _ _ _ _ _ _ _ Hs _ _ x ([OLog (if up then "Starting " ++ ap_name (apps E p) ++ " with args [" ++ String.concat ", " (ap_args (apps E p)) ++ "]" else "Stopping " ++ ap_name (apps E p))%string; R (RdSubs p l)] ++ o) o4 []); [|exact Hl2].
      rewrite Hi, app_nil_r. lst.
  Qed.
  Lemma app_handler t a b its d p e m y x :
    let c := KHandler (HApp p) e m y in
    span t T a (OCall c) b its (OBack c x) d ->
    exists s o, shown its = OLog s :: o /\ fired E w0 (ap_mach (apps E p)) (ELife LError) t a (OCall c) b x o.
  Proof.
    intros c Hs. pose proof (span_node E w0 w H0 Hr _ _ _ _ _ _ _ (FCall c) Hs eq_refl) as [_ Hl].
    destruct Hl as (st & o & Hi & [(z & -> & [? _])|(o1 & o2 & -> & [_ ->] & Hl)]); [discriminate|].
    eexists. exists (shown o2). split; [rewrite Hi; reflexivity|].
    eapply (fire_ok E w0 w H0 Hr _ _ _ _ _ _ _ Hs _ _ x [R (RdCur m st); OLog ("Error while " ++ ap_name (apps E p) ++ " is in [" ++ show_state E st ++ "] state")%string] o2 []); [|exact Hl].
    rewrite Hi, app_nil_r. lst.
  Qed.

  Lemma stopped_action t a b its d c p e m x : performs c (AAppStopped p) e m ->
    span t T a (OCall c) b its (OBack c x) d ->
    exists o, shown its = OLog ("Stopped " ++ ap_name (apps E p))%string :: o /\
      (if ap_exit (apps E p) then fired E w0 (ap_mach (apps E p)) (ELife LStop) t a (OCall c) b x o else x = None /\ o = []) /\
      (In (OWr (WrLatch p)) its <-> ap_exit (apps E p) = true /\ x = None).
  Proof.
    intros Hp Hs. pose proof (span_node E w0 w H0 Hr _ _ _ _ _ _ _ (FCall c) Hs eq_refl) as [_ Hl].
    rewrite (performs_code _ _ _ _ _ Hp) in Hl.
    destruct Hl as [(y & -> & [? _])|(o1 & o2 & Hi & [_ ->] & Hl)]; [discriminate|].
    exists (shown o2). split; [rewrite Hi; reflexivity|].
    destruct (ap_exit (apps E p)) eqn:Hx; cbv iota in Hl.
    - assert (Hno : forall m e x out, fireL E m e x out -> ~ In (OWr (WrLatch p)) out).
      { intros m1 e1 x1 out Hf Hin. apply only_fire in Hf. rewrite Forall_forall in Hf. apply Hf in Hin. dmay; discriminate. }
      destruct Hl as [(y & -> & Hl)|(o3 & o4 & -> & Hl & [-> ->])].
      + split.
        * eapply (fire_ok E w0 w H0 Hr _ _ _ _ _ _ _ Hs _ _ (Some y) [OLog ("Stopped " ++ ap_name (apps E p))%string] o2 []); [|exact Hl].
          rewrite Hi, app_nil_r. lst.
        * split; [|intros [_ ?]; discriminate]. rewrite Hi. intros [Hin|Hin]; [discriminate|]. destruct (Hno _ _ _ _ Hl Hin).
      + split.
        * rewrite shown_app. simpl. rewrite app_nil_r.
          eapply (fire_ok E w0 w H0 Hr _ _ _ _ _ _ _ Hs _ _ None [OLog ("Stopped " ++ ap_name (apps E p))%string] o3 [OWr (WrLatch p)]); [|exact Hl].
          rewrite Hi. lst.
        * split; [auto|]. intros _. rewrite Hi. do 2 (apply in_or_app; right). simpl. auto.
    - destruct Hl as [-> ->]. split; [auto|]. rewrite Hi. split; [intros [Hin|[]]; discriminate|intros [? _]; discriminate].
  Qed.

  (** ** C36 *)
  Lemma is_name_iff c n : is_name E c n = true <-> option_map (sname E) c = Some n.
  Proof.
    destruct c as [s|]; simpl; [|split; discriminate]. rewrite String.eqb_eq. split; [intros ->; reflexivity|].
    intros [= <-]. reflexivity.
  Qed.
  Lemma app_name_map c : app_state_name E c = option_map (sname E) c.
  Proof. destruct c; reflexivity. Qed.
  Lemma stop_ok t a op b its z d p i1 out i2 x : span t T a op b its z d -> its = i1 ++ out ++ i2 -> appStopL E p x out ->
    exists h, during t a op b h /\ let n := app_state E p h in
      ((n = Some "STARTED" \/ (restartable E p /\ n = Some "STOPPED")) /\
         fired E w0 (ap_mach (apps E p)) (ELife LStop) t a op b x (shown out)) \/
      (~ restartable E p /\ n = Some "STOPPED" /\ x = None /\ shown out = []) \/
      (n <> Some "STARTED" /\ n <> Some "STOPPED" /\ x = Some (XIllegalState (RAppStop n)) /\ shown out = []).
  Proof.
    intros Hs Hi (c & o & -> & Hl).
    assert (Hi' : its = i1 ++ R (RdCur (ap_mach (apps E p)) c) :: (o ++ i2)) by (rewrite Hi; lst).
    destruct (rd1 E w0 w H0 Hr _ _ _ _ _ _ _ Hs _ _ _ Hi') as (h & Hd & [Hrd _] & _). simpl in Hrd.
    exists h. split; [exact Hd|]. unfold app_state, restartable. rewrite <- Hrd. cbv zeta.
    change (shown (R (RdCur (ap_mach (apps E p)) c) :: o)) with (shown o).
    destruct (is_name E c "STARTED") eqn:N1; simpl in Hl.
    - left. apply is_name_iff in N1. split; [left; exact N1|].
      eapply (fire_ok E w0 w H0 Hr _ _ _ _ _ _ _ Hs _ _ x (i1 ++ [R (RdCur (ap_mach (apps E p)) c)]) o i2); [|exact Hl]. rewrite Hi'. lst.
    - assert (N1' : option_map (sname E) c <> Some "STARTED"%string) by (rewrite <- is_name_iff; congruence).
      destruct (is_name E c "STOPPED") eqn:N2; destruct (ap_exit (apps E p)) eqn:Hx; simpl in Hl.
      + right. left. destruct Hl as [-> ->]. apply is_name_iff in N2. repeat split; auto. congruence.
      + left. apply is_name_iff in N2. split; [right; auto|].
        eapply (fire_ok E w0 w H0 Hr _ _ _ _ _ _ _ Hs _ _ x (i1 ++ [R (RdCur (ap_mach (apps E p)) c)]) o i2); [|exact Hl]. rewrite Hi'. lst.
      + right. right. destruct Hl as [-> ->]. rewrite app_name_map. repeat split; auto. rewrite <- is_name_iff. congruence.
      + right. right. destruct Hl as [-> ->]. rewrite app_name_map. repeat split; auto. rewrite <- is_name_iff. congruence.
  Qed.
  Lemma app_stop_call t a b its d p v : span t T a (OInv (AAppStop p)) b its (ORet (AAppStop p) v) d ->
    exists h, during t a (OInv (AAppStop p)) b h /\ let n := app_state E p h in
      ((n = Some "STARTED" \/ (restartable E p /\ n = Some "STOPPED")) /\
         exists x, v = outcome x /\ fired E w0 (ap_mach (apps E p)) (ELife LStop) t a (OInv (AAppStop p)) b x (shown its)) \/
      (~ restartable E p /\ n = Some "STOPPED" /\ v = RvUnit /\ shown its = []) \/
      (n <> Some "STARTED" /\ n <> Some "STOPPED" /\ v = RvErr (XIllegalState (RAppStop n)) /\ shown its = []).
  Proof.
    intros Hs. pose proof (span_node E w0 w H0 Hr _ _ _ _ _ _ _ (FApi (AAppStop p)) Hs eq_refl) as [_ (x & -> & Hl)].
    assert (Hi : its = [] ++ its ++ []) by (rewrite app_nil_r; reflexivity).
    destruct (stop_ok _ _ _ _ _ _ _ _ _ _ _ _ Hs Hi Hl) as (h & Hd & [(Hn & Hf)|[(H1 & H2 & -> & H3)|(H1 & H2 & -> & H3)]]);
      exists h; (split; [exact Hd|]); cbv zeta.
    - left. split; [exact Hn|]. exists x. auto.
    - right. left. auto.
    - right. right. auto.
  Qed.
  Lemma app_start_again t a b its d p v : span t T a (OInv (AAppStart p)) b its (ORet (AAppStart p) v) d ->
    started_at (ap_mach (apps E p)) a = true ->
    exists h, during t a (OInv (AAppStart p)) b h /\ let n := app_state E p h in
      (restartable E p /\ n = Some "STOPPED" /\
         exists x, v = outcome x /\ fired E w0 (ap_mach (apps E p)) (ELife LStart) t a (OInv (AAppStart p)) b x (shown its)) \/
      (~ (restartable E p /\ n = Some "STOPPED") /\ v = RvErr (XIllegalState (RAppStart n)) /\ shown its = []).
  Proof.
    intros Hs Hst. pose proof (span_node E w0 w H0 Hr _ _ _ _ _ _ _ (FApi (AAppStart p)) Hs eq_refl) as [_ (x & -> & Hl)].
    destruct Hl as (c & o & Hi & Hl).
    destruct (rd1 E w0 w H0 Hr _ _ _ _ _ _ _ Hs [] _ _ Hi) as (h & Hd & [Hrd _] & _). simpl in Hrd.
    exists h. split; [exact Hd|]. unfold app_state, restartable. rewrite <- Hrd. cbv zeta.
    destruct Hl as [(o' & -> & _)|(o' & -> & Hl)].
    - exfalso. assert (Hi2 : its = [R (RdCur (ap_mach (apps E p)) c)] ++ R (RdStarted (ap_mach (apps E p)) false) :: o') by (rewrite Hi; reflexivity).
      destruct (rd1 E w0 w H0 Hr _ _ _ _ _ _ _ Hs _ _ _ Hi2) as (h2 & (b1 & b2 & -> & ->) & [Hrd2 _] & _). simpl in Hrd2.
      rewrite (started_app _ _ _ Hst) in Hrd2. discriminate.
    - destruct (ap_exit (apps E p)) eqn:Hx; simpl in Hl.
      + right. destruct Hl as [-> ->]. rewrite app_name_map, Hi. split; [intros [? _]; discriminate|]. auto.
      + destruct (is_name E c "STOPPED") eqn:N.
        * left. split; [reflexivity|]. apply is_name_iff in N. split; [exact N|]. exists x. split; [reflexivity|].
          rewrite Hi. change (fired E w0 (ap_mach (apps E p)) (ELife LStart) t a (OInv (AAppStart p)) b x (shown o')).
          eapply (fire_ok E w0 w H0 Hr _ _ _ _ _ _ _ Hs _ _ x [R (RdCur (ap_mach (apps E p)) c); R (RdStarted (ap_mach (apps E p)) true)] o' []); [|exact Hl].
          rewrite Hi, app_nil_r. lst.
        * right. destruct Hl as [-> ->]. rewrite app_name_map, Hi. split; [|auto].
          intros [_ Hn]. apply is_name_iff in Hn. congruence.
  Qed.

  (** ** C37 *)
  Lemma latch_of_in p h : latch_of p false h = true -> exists t, In (t, OWr (WrLatch p)) h.
  Proof.
    induction h as [|[t o] h IH] using rev_ind; [discriminate|]. unfold latch_of. rewrite replay_snoc. simpl. intro H.
    assert (Hc : latch_of p false h = true \/ o = OWr (WrLatch p)).
    { destruct o; auto. destruct w1; auto. destruct (Nat.eqb_spec p0 p) as [->|]; auto. }
    destruct Hc as [Hc| ->]; [destruct (IH Hc) as [t' Hi]; exists t'; apply in_or_app; auto|].
    exists t. apply in_or_app. right. left. reflexivity.
  Qed.
  Lemma latch_place t h r p : T = h ++ r -> In (t, OWr (WrLatch p)) h ->
    ap_exit (apps E p) = true /\ exists c e m its, performs c (AAppStopped p) e m /\ bracket t h (FCall c) its /\ In (OWr (WrLatch p)) its.
  Proof.
    intros HT Hi. destruct (reach_prefix E w0 w (im_tr _ _ H0) Hr _ _ HT) as (w1 & Hr1 & Hw1). rewrite <- Hw1 in *.
    destruct (placed E w0 w1 _ _ H0 Hr1 Hi) as (k & its & Hin & Hm & Hb).
    destruct k as [|x|c|q p' c']; simpl in Hm.
    - exfalso. clear -Hm. unfold mroot in Hm. destruct t; dmay; try discriminate; simpl in *; contradiction.
    - exfalso. clear -Hm. destruct x; simpl in Hm; dmay; try discriminate; try contradiction.
    - assert (Ha : forall a e m, mact E a e m (OWr (WrLatch p)) -> a = AAppStopped p /\ ap_exit (apps E p) = true).
      { clear. intros a e m Ha. destruct a; simpl in Ha; dmay; try discriminate; try contradiction.
        match goal with H : OWr _ = OWr _ |- _ => injection H as <- end. auto. }
      assert (Hc : exists a e m, performs c a e m /\ mact E a e m (OWr (WrLatch p))).
      { clear -Hm. destruct c as [en a s e m|a e m|hh e m y|fin l m f e s|u e m|u e m y|u e m|u e m|up q i]; simpl in Hm.
        1: exists a, e, m; split; [left; eauto|exact Hm].
        1: exists a, e, m; split; [right; reflexivity|exact Hm].
        all: exfalso; try destruct hh; try destruct u; try (destruct l as [[n|n nm]|n]); dmay; try discriminate; contradiction. }
      destruct Hc as (a & e & m & Hp & Hma). destruct (Ha _ _ _ Hma) as [-> Hx]. split; [exact Hx|].
      exists c, e, m, its. auto.
    - exfalso. clear -Hm. destruct Hm as (tm & i & _ & _ & Hm). exact (take_no_latch _ _ _ _ _ _ Hm).
  Qed.
  Lemma app_start_returns t a b its d p : span t T a (OInv (AAppStart p)) b its (ORet (AAppStart p) RvUnit) d ->
    In (OStarted (ap_mach (apps E p))) its ->
    In (OLog "Main latch was interrupted") its \/
    (ap_exit (apps E p) = true /\ exists t' c e m its', performs c (AAppStopped p) e m /\
       bracket t' (a ++ (t, OInv (AAppStart p)) :: b) (FCall c) its' /\ In (OWr (WrLatch p)) its').
  Proof.
    intros Hs Hst. pose proof (span_node E w0 w H0 Hr _ _ _ _ _ _ _ (FApi (AAppStart p)) Hs eq_refl) as [_ (x & Hx & Hl)].
    destruct x; [discriminate|]. destruct Hl as (c & o & Hi & Hl).
    assert (Hnf : forall m e x out, fireL E m e x out -> ~ In (OStarted (ap_mach (apps E p))) out).
    { intros m e x out Hf Hin. apply only_fire in Hf. rewrite Forall_forall in Hf. apply Hf in Hin. dmay; discriminate. }
    destruct Hl as [(o' & -> & Hl)|(o' & -> & Hl)].
    - destruct Hl as [(y & Hy & _)|(o1 & o2 & -> & _ & [(y & Hy & _)|(o3 & o4 & -> & _ & [(y & Hy & _)|(o5 & o6 & -> & Haw & _)])])];
        try discriminate.
      destruct Haw as [_ [->| ->]].
      + right. assert (Hin : exists i1 i2, its = i1 ++ OWr (WrAwait p false) :: i2).
        { exists (R (RdCur (ap_mach (apps E p)) c) :: R (RdStarted (ap_mach (apps E p)) false) :: o1 ++ o3), o6. rewrite Hi. lst. }
        destruct Hin as (i1 & i2 & Hin).
        destruct (item_moment w _ _ _ _ _ _ _ _ _ _ Hs Hin eq_refl) as (b1 & b2 & -> & _ & HT).
        destruct (truth E w0 w (im_tr _ _ H0) Hr) as [_ Ht]. destruct (Ht _ _ _ _ HT) as [Hw _]. simpl in Hw.
        rewrite (im_latches _ _ H0) in Hw. apply latch_of_in in Hw. destruct Hw as [t' Hw].
        assert (Hw' : In (t', OWr (WrLatch p)) (a ++ (t, OInv (AAppStart p)) :: b1 ++ (t, OWr (WrAwait p false)) :: b2)).
        { rewrite app_comm_cons, app_assoc. apply in_or_app. left. exact Hw. }
        assert (HT2 : T = (a ++ (t, OInv (AAppStart p)) :: b1 ++ (t, OWr (WrAwait p false)) :: b2) ++ (t, ORet (AAppStart p) RvUnit) :: d).
        { destruct Hs as (HT2 & _). rewrite HT2. lst. }
        destruct (latch_place _ _ _ _ HT2 Hw') as [Hex Hpl]. split; [exact Hex|]. exists t'. exact Hpl.
      + left. rewrite Hi. simpl. right. right. repeat (apply in_or_app; right). simpl. auto.
    - exfalso. rewrite Hi in Hst. destruct Hst as [Hst|[Hst|Hst]]; try discriminate.
      destruct (andb _ _); [exact (Hnf _ _ _ _ Hl Hst)|]. destruct Hl. discriminate.
  Qed.
  Lemma restartable_blocks t a b its d p v : span t T a (OInv (AAppStart p)) b its (ORet (AAppStart p) v) d ->
    In (OStarted (ap_mach (apps E p))) its -> restartable E p -> ~ In (OLog "Main latch was interrupted") its ->
    exists y, v = RvErr y.
  Proof.
    intros Hs Hst Hre Hno. pose proof (span_node E w0 w H0 Hr _ _ _ _ _ _ _ (FApi (AAppStart p)) Hs eq_refl) as [_ (x & Hx & _)].
    destruct x as [y|]; [exists y; exact Hx|]. simpl in Hx. subst v. exfalso.
    destruct (app_start_returns _ _ _ _ _ _ Hs Hst) as [Hi|[He _]]; [auto|]. unfold restartable in Hre. congruence.
  Qed.
End Calls.

(** ** C33: lines *)
Lemma append_inj (a b c : string) : (a ++ b = a ++ c -> b = c)%string.
Proof. induction a as [|x a IH]; simpl; [auto|]. intro H. injection H as H. auto. Qed.
Lemma line_target nm fin f e t t' : log_text nm fin f e t = log_text nm fin f e t' -> t = t'.
Proof.
  destruct nm as [[|x nm]|], fin; simpl; intro H; try (injection H as H); try exact H;
    repeat (apply append_inj in H || (simpl in H; injection H as H)); try exact H.
Qed.

(** ** C45 *)
Lemma ran_unchanged (m : mid) (e : eid) (Ac : bool -> sid -> list action -> Prop) en s l x out :
  ran m e Ac en s l x out -> (forall l', Ac en s l' -> List.length l' = List.length l) ->
  one_by_one (map (fun a => KAct en a s e m) l) x out.
Proof.
  intros (l1 & l2 & -> & H) Hu. cbv zeta in H.
  assert (Hf : forall l, flat_map (fun a => called (KAct en a s e m) None) l = flat_map (fun c => called c None) (map (fun a => KAct en a s e m) l)).
  { clear. induction l as [|a l IH]; simpl; [reflexivity|]. rewrite IH. reflexivity. }
  rewrite Hf in H. destruct H as [(-> & -> & ->)|[(-> & -> & l' & Ha & Hn)|(a & r & y & -> & -> & ->)]].
  - left. rewrite app_nil_r. auto.
  - destruct Hn. apply Hu. exact Ha.
  - right. exists (map (fun a => KAct en a s e m) l1), (KAct en a s e m), (map (fun a => KAct en a s e m) r), y.
    rewrite map_app. auto.
Qed.

Definition cme_ok (L : lang) : Prop := forall x out, L x out -> forall i1 en a s e m i2,
  out = i1 ++ OBack (KAct en a s e m) None :: i2 ->
  exists i0 l0 l1 i3, i1 = i0 ++ [R (RdActs en s l0); OCall (KAct en a s e m)] /\ i2 = R (RdActs en s l1) :: i3 /\
    (List.length l1 <> List.length l0 -> i3 = [] /\ x = Some XConcurrentMod).
Definition no_back (o : obs) : Prop := match o with OBack (KAct _ _ _ _ _) None => False | _ => True end.
Lemma split_app {A} (o1 o2 i1 i2 : list A) y : o1 ++ o2 = i1 ++ y :: i2 ->
  (exists j, o1 = i1 ++ y :: j /\ i2 = j ++ o2) \/ (exists j, o2 = j ++ y :: i2 /\ i1 = o1 ++ j).
Proof.
  intro H. apply app_eq_app in H. destruct H as (l & [[-> H]|[-> H]]).
  - destruct l as [|z l].
    + right. exists []. split; [symmetry; exact H|rewrite !app_nil_r; reflexivity].
    + injection H as <- ->. left. eauto.
  - right. eauto.
Qed.
Lemma cme_none (L : lang) : (forall x out, L x out -> Forall no_back out) -> cme_ok L.
Proof.
  intros H x out Hl i1 en a s e m i2 ->. exfalso. apply H in Hl. apply Forall_app in Hl. destruct Hl as [_ Hl].
  inversion Hl; auto.
Qed.
Lemma cme_seqx L1 L2 : cme_ok L1 -> cme_ok L2 -> cme_ok (seqx L1 L2).
Proof.
  intros H1 H2 x out [(y & -> & H)|(o1 & o2 & -> & Ha & Hb)] i1 en a s e m i2 Hi; [eapply H1; eauto|].
  destruct (split_app _ _ _ _ _ Hi) as [(j & -> & ->)|(j & -> & ->)].
  - destruct (H1 _ _ Ha _ _ _ _ _ _ _ eq_refl) as (i0 & l0 & l1 & i3 & -> & -> & Hc).
    exists i0, l0, l1, (i3 ++ o2). split; [reflexivity|]. split; [reflexivity|]. intro Hn. destruct (Hc Hn). discriminate.
  - destruct (H2 _ _ Hb _ _ _ _ _ _ _ eq_refl) as (i0 & l0 & l1 & i3 & -> & -> & Hc).
    exists (o1 ++ i0), l0, l1, i3. rewrite app_assoc. auto.
Qed.
Lemma cme_run en s e m n l : forall x out, runL en s e m n l x out -> forall i1 en' a s' e' m' i2,
  out = i1 ++ OBack (KAct en' a s' e' m') None :: i2 ->
  exists i0 l0 l1 i3, i1 = i0 ++ [R (RdActs en' s' l0); OCall (KAct en' a s' e' m')] /\ i2 = R (RdActs en' s' l1) :: i3 /\
    (List.length l1 <> List.length l0 -> i3 = [] /\ x = Some XConcurrentMod).
Proof.
  intros x out H. induction H as [l l' Hn|l' Hn|a0 r l' y Hn|a0 r l' x out Hn Hrun IH]; intros i1 en' a s' e' m' i2 Hi.
  - destruct i1 as [|? i1]; simpl in Hi; [discriminate|]. injection Hi as _ Hi. destruct i1; discriminate.
  - destruct i1 as [|? i1]; simpl in Hi; [discriminate|]. injection Hi as _ Hi. destruct i1; discriminate.
  - destruct i1 as [|? i1]; simpl in Hi; [discriminate|]. injection Hi as _ Hi.
    destruct i1 as [|? i1]; simpl in Hi; [discriminate|]. injection Hi as _ Hi.
    destruct i1 as [|? i1]; simpl in Hi; [discriminate|]. injection Hi as _ Hi. destruct i1; discriminate.
  - destruct i1 as [|z i1]; simpl in Hi; [discriminate|]. injection Hi as <- Hi.
    destruct i1 as [|z i1]; simpl in Hi; [discriminate|]. injection Hi as <- Hi.
    destruct i1 as [|z i1]; simpl in Hi.
    + injection Hi as <- <- <- <- <- Hi. subst i2. inversion Hrun as [? l1 Hn1|l1 Hn1|? ? l1 y Hn1|? ? l1 ? ? Hn1 Hr1]; subst.
      * exists [], l', l1, []. auto.
      * exists [], l', l1, []. split; [reflexivity|]. split; [reflexivity|]. congruence.
      * eexists [], l', l1, _. split; [reflexivity|]. split; [reflexivity|]. congruence.
      * eexists [], l', l1, _. split; [reflexivity|]. split; [reflexivity|]. congruence.
    + injection Hi as <- Hi. destruct (IH _ _ _ _ _ _ _ Hi) as (i0 & l0 & l1 & i3 & -> & -> & Hc).
      exists (R (RdActs en s l') :: OCall (KAct en a0 s e m) :: OBack (KAct en a0 s e m) None :: i0), l0, l1, i3. auto.
Qed.
Lemma cme_cons o (L : lang) : no_back o -> cme_ok L -> cme_ok (fun x out => exists out', out = o :: out' /\ L x out').
Proof.
  intros Hn H x out (out' & -> & Hl) i1 en a s e m i2 Hi. destruct i1 as [|z i1]; injection Hi as Hz Hi; [subst o; contradiction|].
  subst z. destruct (H _ _ Hl _ _ _ _ _ _ _ Hi) as (i0 & l0 & l1 & i3 & -> & -> & Hc).
  exists (o :: i0), l0, l1, i3. auto.
Qed.
Lemma cme_acts en s e m : cme_ok (actsL en s e m).
Proof.
  intros x out (l & out' & -> & Hl) i1 en' a s' e' m' i2 Hi. destruct i1 as [|z i1]; injection Hi as Hz Hi; [discriminate|].
  destruct (cme_run _ _ _ _ _ _ _ _ Hl _ _ _ _ _ _ _ Hi) as (i0 & l0 & l1 & i3 & -> & -> & Hc).
  exists (z :: i0), l0, l1, i3. auto.
Qed.
Lemma cme_notify m fin f e t : cme_ok (notifyL m fin f e t).
Proof.
  apply cme_none. intros x out [[-> ->]|[(l & -> & ->)|(l0 & l & ->)]]; repeat (constructor; simpl; auto).
Qed.
Lemma cme_cur m f : (forall c, cme_ok (f c)) -> cme_ok (curL m f).
Proof.
  intros H x out (c & out' & -> & Hl). apply (cme_cons (R (RdCur m c)) (f c) I (H c)). eauto.
Qed.
Lemma cme_some f : (forall s, cme_ok (f s)) -> forall c, cme_ok (someL f c).
Proof. intros H [s|]; [apply H|]. apply cme_none. intros x out [_ ->]. constructor. Qed.
Lemma cme_update E m t : cme_ok (updateL E m t).
Proof.
  apply cme_none. intros x out (_ & [->| ->]); [|destruct (String.eqb _ _)]; repeat (constructor; simpl; auto).
Qed.
Lemma cme_trans E tb e m t : cme_ok (transL E tb e m t).
Proof.
  apply cme_cur. intro f.
  repeat (apply cme_seqx; [first [apply cme_notify | apply cme_update
    | apply cme_cur; intro; apply cme_some; intro; apply cme_acts]|]).
  intros x out (b & out' & -> & Hb).
  apply (cme_cons (R (RdFinal tb t b)) (fun x out => if b then updateL E m (SEnd m) x out else x = None /\ out = [])); [exact I| |eauto].
  destruct b; [apply cme_update|]. apply cme_none. intros x' out'' [_ ->]. constructor.
Qed.
Lemma cme_exec E k e m : cme_ok (executeL E k e m).
Proof.
  apply cme_cur. intros c x out (to & out' & -> & Hl).
  eapply (cme_cons (R (RdMap (s_states (strat E k)) c e to)) (fun x out => match to with
      | None => failL XNullPointer x out
      | Some None => callL (KUnmapped (s_unmapped (strat E k)) e m) x out
      | Some (Some t) => if String.eqb nm_noop (sname E t) then noopL e m t x out else transL E (s_states (strat E k)) e m t x out
      end)); [exact I| |eauto].
  destruct to as [[t|]|].
  - destruct (String.eqb _ _); [|apply cme_trans]. apply cme_seqx; apply cme_cur; intro; apply cme_notify.
  - apply cme_none. intros x' o ->. repeat (constructor; simpl; auto).
  - apply cme_none. intros x' o [_ ->]. constructor.
Qed.
(** in the processing of an event *)
Lemma cme_take E k tm p c x out i1 en a s e m i2 : takeL E k tm p c x out -> out = i1 ++ OBack (KAct en a s e m) None :: i2 ->
  exists e0 m0 i0 l0 l1 i3, c = Some (e0, m0) /\ i1 = i0 ++ [R (RdActs en s l0); OCall (KAct en a s e m)] /\ i2 = R (RdActs en s l1) :: i3 /\
    (List.length l1 <> List.length l0 -> i3 = called (KUflExn (s_ufl (strat E k)) e0 m0 XConcurrentMod) x ++ [OWr (WrGive (s_pool (strat E k)) p)]).
Proof.
  intros Hl Hi. destruct c as [[e0 m0]|]; simpl in Hl.
  2:{ destruct Hl as [_ ->]. destruct i1 as [|? i1]; [discriminate|]. injection Hi as _ Hi. destruct i1; discriminate. }
  exists e0, m0. destruct Hl as (b & o1 & o2 & -> & Hb).
  destruct i1 as [|z1 i1]; [discriminate|]. injection Hi as <- Hi. destruct i1 as [|z2 i1]; [discriminate|]. injection Hi as <- Hi.
  assert (Hlast : forall (u : list obs), u = [] \/ (exists y x', u = called (KUflExn (s_ufl (strat E k)) e0 m0 y) x') ->
     forall j r, u ++ [OWr (WrGive (s_pool (strat E k)) p)] = j ++ OBack (KAct en a s e m) None :: r -> False).
  { clear. intros u Hu j r H. assert (Hf : Forall no_back (u ++ [OWr (WrGive (s_pool (strat E k)) p)])).
    { destruct Hu as [->|(y & x' & ->)]; repeat (constructor; simpl; auto). }
    rewrite H in Hf. apply Forall_app in Hf. destruct Hf as [_ Hf]. inversion Hf; auto. }
  destruct b.
  { destruct Hb as (-> & -> & _). exfalso. apply (Hlast [] (or_introl eq_refl) _ _ Hi). }
  destruct Hb as (y & Hex & Hy).
  assert (Hu : o2 = [] \/ exists z x', o2 = called (KUflExn (s_ufl (strat E k)) e0 m0 z) x').
  { destruct y as [z|]; [destruct (is_exception z); [eauto|destruct Hy; auto]|destruct Hy; auto]. }
  destruct (split_app _ _ _ _ _ Hi) as [(j & -> & ->)|(j & Hj & ->)]; [|exfalso; exact (Hlast _ Hu _ _ Hj)].
  destruct (cme_exec _ _ _ _ _ _ Hex _ _ _ _ _ _ _ eq_refl) as (i0 & l0 & l1 & i3 & -> & -> & Hc).
  eexists (_ :: _ :: i0), l0, l1, (i3 ++ o2 ++ [OWr (WrGive (s_pool (strat E k)) p)]). split; [reflexivity|]. split; [reflexivity|]. split; [reflexivity|].
  intro Hn. destruct (Hc Hn) as [-> ->]. simpl in Hy. rewrite Hy. reflexivity.
Qed.
(** in start() *)
Lemma cme_start m : cme_ok (startL m).
Proof.
  intros x out (i & o1 & -> & Hl).
  assert (Hf : forall y, cme_ok (failL y)) by (intro; apply cme_none; intros ? ? [_ ->]; constructor).
  destruct i as [init|].
  2:{ apply (cme_cons (R (RdInit m None)) _ I (Hf (XIllegalState RNoInit))). eauto. }
  destruct Hl as (b & o2 & -> & Hl). revert Hl. 
  intros Hl i1 en a s e m0 i2 Hi. destruct i1 as [|z1 i1]; [discriminate|]. injection Hi as <- Hi.
  destruct i1 as [|z2 i1]; [discriminate|]. injection Hi as <- Hi.
  destruct b; [destruct Hl as [_ ->]; destruct i1; discriminate|].
  destruct Hl as (d & o3 & -> & Hl). destruct i1 as [|z3 i1]; [discriminate|]. injection Hi as <- Hi.
  destruct d; [destruct Hl as [_ ->]; destruct i1; discriminate|].
  destruct Hl as [[_ ->]|(o4 & -> & Hl)]; [destruct i1 as [|? i1]; [discriminate|destruct i1; discriminate]|].
  destruct i1 as [|z4 i1]; [discriminate|]. injection Hi as <- Hi. destruct i1 as [|z5 i1]; [discriminate|]. injection Hi as <- Hi.
  assert (Hk : cme_ok (seqx (notifyL m false (SNone m) (EImm m) init)
        (seqx (actsL true init (EImm m) m)
        (seqx (notifyL m true (SNone m) (EImm m) init) (emit [OUnended m]))))).
  { repeat (apply cme_seqx; [first [apply cme_notify|apply cme_acts]|]). apply cme_none. intros ? ? [_ ->]. repeat constructor. }
  destruct (Hk _ _ Hl _ _ _ _ _ _ _ Hi) as (i0 & l0 & l1 & i3 & -> & -> & Hc).
  eexists (_ :: _ :: _ :: _ :: _ :: i0), l0, l1, i3. split; [reflexivity|]. auto.
Qed.

Lemma acts_grow w0 en s h r : exists l, acts_at w0 en s (h ++ r) = acts_at w0 en s h ++ l.
Proof.
  unfold acts_at, acts_of. rewrite replay_app. induction r as [|[t o] r IH] using rev_ind; [exists []; rewrite app_nil_r; reflexivity|].
  rewrite replay_snoc. destruct IH as [l IH]. rewrite IH.
  assert (Hs : exists l' : list action, (acts_of en s (acts w0 en s) h ++ l) = (acts_of en s (acts w0 en s) h ++ l')) by eauto.
  destruct o; eauto. destruct w; eauto. destruct (andb _ _); eauto. rewrite <- app_assoc. eauto.
Qed.
Lemma acts_grow_strict w0 en s h r t l : l <> [] -> In (t, OWr (WrActs en s l)) r ->
  List.length (acts_at w0 en s (h ++ r)) <> List.length (acts_at w0 en s h).
Proof.
  intros Hl Hi. apply in_split in Hi. destruct Hi as (r1 & r2 & ->).
  assert (Hh : h ++ r1 ++ (t, OWr (WrActs en s l)) :: r2 = ((h ++ r1) ++ [(t, OWr (WrActs en s l))]) ++ r2) by (rewrite <- !app_assoc; reflexivity).
  rewrite Hh. destruct (acts_grow w0 en s ((h ++ r1) ++ [(t, OWr (WrActs en s l))]) r2) as [l2 ->].
  assert (H1 : acts_at w0 en s ((h ++ r1) ++ [(t, OWr (WrActs en s l))]) = acts_at w0 en s (h ++ r1) ++ l).
  { unfold acts_at, acts_of. rewrite replay_snoc. rewrite Bool.eqb_reflx. destruct (sid_eq_dec s s); [reflexivity|congruence]. }
  rewrite H1. destruct (acts_grow w0 en s h r1) as [l1 ->]. rewrite !app_length. destruct l; [congruence|]. simpl. lia.
Qed.

(** the marks directly inside after a nested bracket *)
Lemma inner_items t b its i1 b1 op b2 its2 z b3 k : fst (scan t b) = [(FRoot, its)] -> opens op = Some k ->
  inner_span t b i1 b1 op b2 its2 z b3 ->
  fst (scan t (b1 ++ (t, op) :: b2 ++ [(t, z)])) = [(FRoot, i1 ++ [op; z])] /\ exists i3, its = i1 ++ [op; z] ++ i3.
Proof.
  intros Hs Ho ((Hb & Hz & Hs2) & Hs1).
  assert (H1 : fst (scan t (b1 ++ (t, op) :: b2 ++ [(t, z)])) = [(FRoot, i1 ++ [op; z])]).
  { rewrite app_comm_cons, app_assoc. rewrite scan_snoc, (stack_at _ _ _ _ _ [] its2 Ho Hs2), Hs1. simpl. rewrite Hz. simpl.
    rewrite <- app_assoc. reflexivity. }
  split; [exact H1|].
  assert (Hb' : b = (b1 ++ (t, op) :: b2 ++ [(t, z)]) ++ b3) by (rewrite Hb; lst).
  rewrite Hb' in Hs. destruct (root_kept_t _ _ _ [] _ Hs) as (u1 & j1 & j2 & Hk & ->).
  rewrite H1 in Hk. destruct u1 as [|f u1]; [|injection Hk as _ Hk; destruct u1; discriminate].
  injection Hk as <-. exists j2. rewrite <- app_assoc. reflexivity.
Qed.

Section Append.
  Context (E : env) (w0 : mem) (w : world) (H0 : init_mem E w0) (Hr : reach E w0 w).
  Notation T := (tr (wm w)).

  (** the list was longer after the action than before it *)
  Lemma appended t A op B ITS z D i1 b1 c b2 its2 b3 en s l0 l1 i0 i3 : span t T A op B ITS z D ->
    inner_span t B i1 b1 (OCall c) b2 its2 (OBack c None) b3 ->
    i1 = i0 ++ [R (RdActs en s l0)] -> ITS = i1 ++ [OCall c; OBack c None] ++ R (RdActs en s l1) :: i3 ->
    forall t' l, In (t', OWr (WrActs en s l)) b2 -> l <> [] -> List.length l1 <> List.length l0.
  Proof.
    intros Hs Hin Hi1 HI t' l Hw Hl. pose proof Hin as ((Hb & Hz & Hs2) & Hs1).
    destruct (inner_items _ _ _ _ _ (OCall c) _ _ _ _ (FCall c) (proj2 (proj2 Hs)) eq_refl Hin) as [Hx _].
    (* the read before *)
    rewrite Hi1 in Hs1. destruct (item_inv t b1 [] i0 (R (RdActs en s l0)) [] Hs1 eq_refl) as (p1 & p2 & Hb1 & _).
    assert (R0 : l0 = acts_at w0 en s (A ++ (t, op) :: p1)).
    { apply (read_true E w0 w H0 Hr t _ (RdActs en s l0) (p2 ++ (t, OCall c) :: b2 ++ (t, OBack c None) :: b3 ++ (t, z) :: D)).
      destruct Hs as (HT & _). rewrite HT, Hb, Hb1. lst. }
    (* the read after *)
    rewrite app_assoc in HI. destruct (item_moment w _ _ _ _ _ _ _ _ _ _ Hs HI eq_refl) as (q & q' & HB & Hq & HT).
    assert (R1 : l1 = acts_at w0 en s (A ++ (t, op) :: q)) by exact (read_true E w0 w H0 Hr t _ _ _ HT).
    (* the second is after the bracket *)
    assert (Hpre : exists g, q = b1 ++ (t, OCall c) :: b2 ++ (t, OBack c None) :: g).
    { rewrite Hb in HB. assert (HB' : (b1 ++ (t, OCall c) :: b2 ++ [(t, OBack c None)]) ++ b3 = q ++ (t, R (RdActs en s l1)) :: q')
        by (rewrite <- HB; lst).
      apply app_eq_app in HB'. destruct HB' as (g & [[HX Hg]|[HX Hg]]).
      - destruct g as [|[tz oz] g].
        + exists []. rewrite app_nil_r in HX. rewrite <- HX. lst.
        + exfalso. injection Hg as <- <- _. rewrite HX in Hx.
          assert (Hx' : fst (scan t ((q ++ [(t, R (RdActs en s l1))]) ++ g)) = [] ++ [(FRoot, i1 ++ [OCall c; OBack c None])])
            by (rewrite <- app_assoc; exact Hx).
          destruct (root_kept_t _ _ _ [] _ Hx') as (u1 & j1 & j2 & Hk & Hj).
          rewrite scan_snoc, Hq in Hk. simpl in Hk. destruct u1 as [|f u1]; [|injection Hk as _ Hk; destruct u1; discriminate].
          injection Hk as <-. apply (f_equal (@List.length obs)) in Hj. rewrite !app_length in Hj. simpl in Hj. lia.
      - exists g. rewrite HX. lst. }
    destruct Hpre as [g Hg]. rewrite R0, R1, Hg, Hb1.
    match goal with |- List.length (acts_at _ _ _ ?X) <> _ =>
      replace X with ((A ++ (t, op) :: p1) ++ ((t, R (RdActs en s l0)) :: p2 ++ (t, OCall c) :: b2 ++ (t, OBack c None) :: g)) by lst end.
    apply (acts_grow_strict w0 en s _ _ t' l Hl).
    right. apply in_or_app. right. right. apply in_or_app. left. exact Hw.
  Qed.

  Lemma append_take t A q p co B ITS x D i1 b1 en a s e m b2 its2 b3 t' l :
    let c := KAct en a s e m in
    span t T A (OTake q p co) B ITS (ODone q p x) D ->
    inner_span t B i1 b1 (OCall c) b2 its2 (OBack c None) b3 ->
    In (t', OWr (WrActs en s l)) b2 -> l <> [] ->
    exists tm e0 m0, taker E q t tm /\ co = Some (e0, m0) /\
      shown ITS = shown i1 ++ called c None ++ called (KUflExn (flow_of E tm) e0 m0 XConcurrentMod) x.
  Proof.
    intros c Hs Hin Hw Hl. pose proof (span_node E w0 w H0 Hr _ _ _ _ _ _ _ (FTake q p co) Hs eq_refl) as (_ & _ & tm & i & Ht & Hq & Htk).
    destruct (inner_items _ _ _ _ _ (OCall c) _ _ _ _ (FCall c) (proj2 (proj2 Hs)) eq_refl Hin) as [_ [i3 HI]].
    assert (HI' : ITS = (i1 ++ [OCall c]) ++ OBack c None :: i3) by (rewrite HI; lst).
    destruct (cme_take _ _ _ _ _ _ _ _ _ _ _ _ _ _ Htk HI') as (e0 & m0 & i0 & l0 & l1 & i4 & -> & Hi1 & -> & Hc).
    assert (Hi1' : i1 = i0 ++ [R (RdActs en s l0)]).
    { change [R (RdActs en s l0); OCall (KAct en a s e m)] with ([R (RdActs en s l0)] ++ [OCall c]) in Hi1.
      rewrite app_assoc in Hi1. apply app_inj_tail in Hi1. apply Hi1. }
    pose proof (appended _ _ _ _ _ _ _ _ _ _ _ _ _ _ _ _ _ _ _ Hs Hin Hi1' HI _ _ Hw Hl) as Hn. specialize (Hc Hn).
    exists tm, e0, m0. split; [split; [symmetry; exact Hq|exists i; exact Ht]|]. split; [reflexivity|].
    rewrite HI, !shown_app, Hc. simpl. reflexivity.
  Qed.
  Lemma append_start t A m' B ITS v D i1 b1 en a s e m b2 its2 b3 t' l :
    let c := KAct en a s e m in
    span t T A (OInv (AStart m')) B ITS (ORet (AStart m') v) D ->
    inner_span t B i1 b1 (OCall c) b2 its2 (OBack c None) b3 ->
    In (t', OWr (WrActs en s l)) b2 -> l <> [] ->
    v = RvErr XConcurrentMod /\ shown ITS = shown i1 ++ called c None.
  Proof.
    intros c Hs Hin Hw Hl. pose proof (span_node E w0 w H0 Hr _ _ _ _ _ _ _ (FApi (AStart m')) Hs eq_refl) as (_ & x & -> & Hst).
    destruct (inner_items _ _ _ _ _ (OCall c) _ _ _ _ (FCall c) (proj2 (proj2 Hs)) eq_refl Hin) as [_ [i3 HI]].
    assert (HI' : ITS = (i1 ++ [OCall c]) ++ OBack c None :: i3) by (rewrite HI; lst).
    destruct (cme_start _ _ _ Hst _ _ _ _ _ _ _ HI') as (i0 & l0 & l1 & i4 & Hi1 & -> & Hc).
    assert (Hi1' : i1 = i0 ++ [R (RdActs en s l0)]).
    { change [R (RdActs en s l0); OCall (KAct en a s e m)] with ([R (RdActs en s l0)] ++ [OCall c]) in Hi1.
      rewrite app_assoc in Hi1. apply app_inj_tail in Hi1. apply Hi1. }
    pose proof (appended _ _ _ _ _ _ _ _ _ _ _ _ _ _ _ _ _ _ _ Hs Hin Hi1' HI _ _ Hw Hl) as Hn. destruct (Hc Hn) as [-> ->].
    split; [reflexivity|]. rewrite HI, !shown_app. reflexivity.
  Qed.
End Append.
