(** * DetProofs.v: the same events, the same behaviour *)
From Verif Require Import Sched MemInv Truth Copies ExactProofs FlowProofs2 DetSpec.

Section Det.
  Notation bl := (map no_event_mark).
  Definition obeys (G : list obs -> call -> option exn) (o : list obs) : Prop :=
    forall a c x b, o = a ++ OBack c x :: b -> x = G a c.
  Lemma obeys_l G o1 o2 : obeys G (o1 ++ o2) -> obeys G o1.
  Proof. intros H a c x b ->. apply (H a c x (b ++ o2)). rewrite <- app_assoc. reflexivity. Qed.
  Lemma obeys_r G o1 o2 : obeys G (o1 ++ o2) -> obeys (fun a => G (o1 ++ a)) o2.
  Proof. intros H a c x b ->. apply (H (o1 ++ a) c x b). rewrite <- app_assoc. reflexivity. Qed.

  (** two scripts that agree whenever callbacks end alike *)
  Definition det (A1 A2 : tscript) : Prop := forall G s x1 o1 s1 x2 o2 s2,
    A1 s x1 o1 s1 -> A2 s x2 o2 s2 -> obeys G (bl o1) -> obeys G (bl o2) ->
    bl o1 = bl o2 /\ x1 = x2 /\ s1 = s2.

  Lemma det_seq A1 A2 B1 B2 : det A1 A2 -> det B1 B2 -> det (seq A1 B1) (seq A2 B2).
  Proof.
    intros HA HB G s x1 o1 s1 x2 o2 s2 [(y1 & -> & H1)|(t1 & a1 & b1 & -> & H1 & K1)] [(y2 & -> & H2)|(t2 & a2 & b2 & -> & H2 & K2)] G1 G2.
    - exact (HA _ _ _ _ _ _ _ _ H1 H2 G1 G2).
    - rewrite map_app in G2. destruct (HA _ _ _ _ _ _ _ _ H1 H2 G1 (obeys_l _ _ _ G2)) as (_ & Hx & _). discriminate.
    - rewrite map_app in G1. destruct (HA _ _ _ _ _ _ _ _ H1 H2 (obeys_l _ _ _ G1) G2) as (_ & Hx & _). discriminate.
    - rewrite map_app in G1, G2. destruct (HA _ _ _ _ _ _ _ _ H1 H2 (obeys_l _ _ _ G1) (obeys_l _ _ _ G2)) as (Ho & _ & ->).
      apply obeys_r in G1, G2. rewrite Ho in G1. destruct (HB _ _ _ _ _ _ _ _ K1 K2 G1 G2) as (Ho' & -> & ->).
      rewrite !map_app, Ho, Ho'. auto.
  Qed.
  Lemma called_det G c1 c2 x1 x2 : no_event c1 = no_event c2 -> obeys G (bl (called c1 x1)) -> obeys G (bl (called c2 x2)) ->
    x1 = x2 /\ bl (called c1 x1) = bl (called c2 x2).
  Proof.
    intros Hc G1 G2. assert (x1 = x2) as ->.
    { rewrite (G1 [OCall (no_event c1)] (no_event c1) x1 [] eq_refl), (G2 [OCall (no_event c2)] (no_event c2) x2 [] eq_refl), Hc. reflexivity. }
    split; [reflexivity|]. simpl. rewrite Hc. reflexivity.
  Qed.
  Lemma det_notice m l e1 e2 fin f t : det (notice m l e1 fin f t) (notice m l e2 fin f t).
  Proof.
    intros G s x1 o1 s1 x2 o2 s2 [-> H1] [-> H2] G1 G2. destruct l as [li|].
    - subst o1 o2. destruct (called_det G _ _ x1 x2 eq_refl G1 G2) as [-> Ho]. auto.
    - destruct H1 as [-> ->], H2 as [-> ->]. auto.
  Qed.
  Lemma acted_det m e1 e2 en st as_ : forall G x1 o1 x2 o2, acted m e1 en st as_ x1 o1 -> acted m e2 en st as_ x2 o2 ->
    obeys G (bl o1) -> obeys G (bl o2) -> bl o1 = bl o2 /\ x1 = x2.
  Proof.
    induction as_ as [|a r IH]; intros G x1 o1 x2 o2 H1 H2 G1 G2; cbn [acted] in H1, H2.
    - destruct H1 as [-> ->], H2 as [-> ->]. auto.
    - assert (Hc : forall c1 c2 y1 y2 r1 r2, no_event c1 = no_event c2 -> obeys G (bl (called c1 y1 ++ r1)) -> obeys G (bl (called c2 y2 ++ r2)) ->
        y1 = y2 /\ bl (called c1 y1) = bl (called c2 y2)).
      { intros c1 c2 y1 y2 r1 r2 Hc K1 K2. rewrite map_app in K1, K2. eapply called_det; eauto using obeys_l. }
      destruct H1 as [(y1 & -> & ->)|(r1 & -> & H1)], H2 as [(y2 & -> & ->)|(r2 & -> & H2)].
      + destruct (called_det G _ _ (Some y1) (Some y2) (eq_refl : no_event (KAct en a st e1 m) = no_event (KAct en a st e2 m)) G1 G2) as [-> Ho]. auto.
      + rewrite <- (app_nil_r (called (KAct en a st e1 m) (Some y1))) in G1.
        destruct (Hc _ _ _ _ _ _ (eq_refl : no_event (KAct en a st e1 m) = no_event (KAct en a st e2 m)) G1 G2). discriminate.
      + rewrite <- (app_nil_r (called (KAct en a st e2 m) (Some y2))) in G2.
        destruct (Hc _ _ _ _ _ _ (eq_refl : no_event (KAct en a st e1 m) = no_event (KAct en a st e2 m)) G1 G2). discriminate.
      + destruct (Hc _ _ _ _ _ _ (eq_refl : no_event (KAct en a st e1 m) = no_event (KAct en a st e2 m)) G1 G2) as [_ Ho].
        rewrite map_app in G1, G2. apply obeys_r in G1, G2. rewrite Ho in G1.
        destruct (IH _ _ _ _ _ H1 H2 G1 G2) as [Hb ->]. rewrite !map_app, Ho, Hb. auto.
  Qed.
  Lemma acted_ac m e en st as_ as_' x o : as_ = as_' -> acted m e en st as_ x o -> acted m e en st as_' x o.
  Proof. intros <-. auto. Qed.
  Lemma det_actions m ac1 ac2 e1 e2 en : (forall en s, ac1 en s = ac2 en s) -> det (actions m ac1 e1 en) (actions m ac2 e2 en).
  Proof.
    intros Hac G s x1 o1 s1 x2 o2 s2 [-> H1] [-> H2] G1 G2. destruct (fst s) as [st|].
    - rewrite Hac in H1. destruct (acted_det _ _ _ _ _ _ _ _ _ _ _ H1 H2 G1 G2) as [Ho ->]. auto.
    - destruct H1 as [-> ->], H2 as [-> ->]. auto.
  Qed.
  Section Two.
  Context (E1 E2 : env) (m : mid) (Hset : same_setup E1 E2 m).
  Lemma det_move t : det (move E1 m t) (move E2 m t).
  Proof.
    destruct Hset as (Hn & _). intros G s x1 o1 s1 x2 o2 s2 [-> H1] [-> H2] _ _. rewrite Hn in H1. destruct (snd s).
    - destruct H1 as [-> ->], H2 as [-> ->]. auto.
    - destruct H1 as [-> ->], H2 as [-> ->]. auto.
  Qed.
  Lemma det_closing conf t : det (closing E1 m conf t) (closing E2 m conf t).
  Proof.
    intros G s x1 o1 s1 x2 o2 s2 H1 H2 G1 G2. destruct Hset as (Hn & Ht & _). unfold closing in H1, H2. rewrite Hn, Ht in H1.
    destruct H1 as [[F1 H1]|[F1 H1]], H2 as [[F2 H2]|[F2 H2]]; try contradiction.
    - eapply det_move; eauto.
    - destruct H1 as (-> & -> & ->), H2 as (-> & -> & ->). auto.
  Qed.
  Lemma det_react l ac1 ac2 conf h e1 e2 r : (forall en s, ac1 en s = ac2 en s) ->
    det (react E1 m l ac1 conf h e1 r) (react E2 m l ac2 conf h e2 r).
  Proof.
    intro Hac. destruct r as [| |t].
    - intros G s x1 o1 s1 x2 o2 s2 (-> & -> & ->) (-> & -> & ->) _ _. auto.
    - intros G s x1 o1 s1 x2 o2 s2 (-> & ->) (-> & ->) G1 G2.
      destruct (called_det G _ _ x1 x2 (eq_refl : no_event (KUnmapped h e1 m) = no_event (KUnmapped h e2 m)) G1 G2) as [-> Ho]. auto.
    - intros G s x1 o1 s1 x2 o2 s2 H1 H2. unfold react in H1, H2. cbv zeta in H1, H2. rewrite (proj1 Hset) in H1.
      destruct (String.eqb _ _); revert H1 H2.
      + apply (det_seq _ _ _ _ (det_notice m l e1 e2 false _ _) (det_notice m l e1 e2 true _ _)).
      + apply det_seq; [apply det_notice|]. apply det_seq; [apply det_actions; exact Hac|].
        apply det_seq; [apply det_move|]. apply det_seq; [apply det_actions; exact Hac|].
        apply det_seq; [apply det_notice|]. apply det_closing.
  Qed.
  Lemma det_event l ac1 ac2 conf e1 e2 n : (forall en s, ac1 en s = ac2 en s) ->
    det (event E1 m l ac1 conf (handler_of E1 m) e1 n (flow_of E1 m)) (event E2 m l ac2 conf (handler_of E2 m) e2 n (flow_of E2 m)).
  Proof.
    intros Hac G s x1 o1 s1 x2 o2 s2 (y1 & P1 & R1 & -> & Hr1 & H1) (y2 & P2 & R2 & -> & Hr2 & H2) G1 G2.
    destruct Hset as (Hn & Ht & Hh & Hf). rewrite Hn, Hh in H1. rewrite Hf in Hr1.
    rewrite map_app in G1, G2.
    assert (HP : bl P1 = bl P2 /\ y1 = y2 /\ s1 = s2).
    { destruct (snd s).
      - destruct H1 as (-> & -> & ->), H2 as (-> & -> & ->). auto.
      - eapply det_react; eauto using obeys_l. }
    destruct HP as (HP & -> & ->). apply obeys_r in G1, G2. rewrite HP in G1. rewrite !map_app, HP.
    unfold reported in Hr1, Hr2. destruct y2 as [v|].
    - destruct (is_exception v).
      + subst R1 R2. destruct (called_det _ _ _ x1 x2 (eq_refl : no_event (KUflExn (flow_of E2 m) e1 m v) = no_event (KUflExn (flow_of E2 m) e2 m v)) G1 G2) as [-> Ho].
        rewrite Ho. auto.
      + destruct Hr1 as [-> ->], Hr2 as [-> ->]. auto.
    - destruct Hr1 as [-> ->], Hr2 as [-> ->]. auto.
  Qed.

  Lemma answers_l F a b : answers F (a ++ b) -> answers F a.
  Proof. intros H vs1 n os z vs2 ->. apply (H vs1 n os z (vs2 ++ b)). rewrite <- app_assoc. reflexivity. Qed.
  Lemma answers_last F a n os z : answers F (a ++ [(n, os, z)]) -> obeys (F a n) os.
  Proof. intro H. exact (H a n os z [] eq_refl). Qed.

  Lemma arun_det l ac1 ac2 conf (N1 N2 : eid -> string -> Prop) (nm1 nm2 : eid -> string) F s ns1 s1 :
    (forall en s, ac1 en s = ac2 en s) -> (forall e n, N1 e n -> n = nm1 e) -> (forall e n, N2 e n -> n = nm2 e) ->
    arun E1 m l ac1 conf N1 s ns1 s1 -> forall ns2 s2, arun E2 m l ac2 conf N2 s ns2 s2 ->
    map (fun v => name_of_view (view_of nm1 v)) ns1 = map (fun v => name_of_view (view_of nm2 v)) ns2 ->
    answers F (map (view_of nm1) ns1) -> answers F (map (view_of nm2) ns2) ->
    map (view_of nm1) ns1 = map (view_of nm2) ns2 /\ s1 = s2.
  Proof.
    intros Hac HN1 HN2 H1. induction H1 as [s|s ns1 t1 p1 e1 its1 x1 n1 u1 H1 IH K1 V1]; intros ns2 s2 H2 Hnm A1 A2.
    - inversion H2 as [s' Hs' Hn|s' ns' t2 p2 e2 its2 x2 n2 u2 H2' K2 V2 Hs' Hn]; subst.
      + auto.
      + rewrite map_app in Hnm. destruct ns'; discriminate.
    - inversion H2 as [s' Hs' Hn|s' ns' t2 p2 e2 its2 x2 n2 u2 H2' K2 V2 Hs' Hn]; subst.
      + rewrite map_app in Hnm. destruct ns1; discriminate.
      + rewrite !map_app in Hnm. simpl in Hnm. apply app_inj_tail in Hnm. destruct Hnm as [Hnm Hlast].
        unfold name_of_view in Hlast. simpl in Hlast.
        rewrite map_app in A1, A2. destruct (IH _ _ H2' Hnm (answers_l _ _ _ A1) (answers_l _ _ _ A2)) as [Hv ->].
        simpl in A1, A2. apply answers_last in A1, A2. rewrite Hv in A1.
        rewrite (HN1 _ _ K1) in V1. rewrite (HN2 _ _ K2) in V2. rewrite Hlast in V1, A1.
        destruct (det_event l ac1 ac2 conf e1 e2 (nm2 e2) Hac _ _ _ _ _ _ _ _ V1 V2 A1 A2) as (Ho & -> & ->).
        rewrite !map_app, Hv. simpl. rewrite Ho, Hlast. auto.
  Qed.
  End Two.

  Lemma period_arun E w0 w m h r conf vs : init_mem E w0 -> reach E w0 w -> tr (wm w) = h ++ r ->
    private_queue E m -> one_thread E m -> period E w0 m h r conf vs ->
    exists new, vs = map (view_of (fun e => name_at E w0 e (h ++ r))) new /\
      taken (queue_of E m) (h ++ r) = taken (queue_of E m) h ++ map event_of new /\
      arun E m (listener_at w0 m h) (fun en s => acts_at w0 en s h) conf (fun e n => n = name_at E w0 e (h ++ r)) (mstate_at m h) new (mstate_at m (h ++ r)).
  Proof.
    intros H0 Hr HT Hp Ho (Hc & Hex & Hcf & R1 & R2 & new & Hcomp & ->).
    destruct (all_events E w0 w H0 Hr m h r conf Hp Ho HT Hc Hcf R1 R2) as (new' & Hcomp' & Htk & Ha).
    rewrite Hcomp in Hcomp'. apply app_inv_head in Hcomp'. subst new'. exists new. split; [reflexivity|]. split; [exact Htk|].
    assert (HN : forall e n, (exists h', upto h' (h ++ r) /\ (exists t p, In (t, OTake (queue_of E m) p (Some (e, m))) h') /\ n = name_at E w0 e h') ->
      n = name_at E w0 e (h ++ r)).
    { intros e n (h' & [r' Hr'] & (t & p & Hi) & ->). apply in_split in Hi. destruct Hi as (a & b & ->).
      assert (Hm : made e a) by (apply (Hex a t p e (b ++ r')); rewrite Hr', <- app_assoc; reflexivity).
      rewrite (name_fixed E w0 w H0 Hr e a ((t, OTake (queue_of E m) p (Some (e, m))) :: b) r').
      2: { rewrite HT, Hr', <- !app_assoc. reflexivity. } 2: { exact Hm. }
      rewrite Hr', <- app_assoc. rewrite (name_fixed E w0 w H0 Hr e a (((t, OTake (queue_of E m) p (Some (e, m))) :: b) ++ r') []); [reflexivity| |exact Hm].
      rewrite HT, Hr', app_nil_r, <- !app_assoc. reflexivity. }
    clear Hcomp Htk. revert Ha. generalize (mstate_at m h) (mstate_at m (h ++ r)). intros s s' Ha.
    induction Ha as [|s ns s1 p e its x n s2 Ha IH Hn Hev]; [constructor|].
    apply (arun_snoc E m _ _ conf _ s ns s1 p e its x n s2 IH (HN _ _ Hn) Hev).
  Qed.

  Lemma same_events E1 E2 w01 w02 w1 w2 : init_mem E1 w01 -> reach E1 w01 w1 -> init_mem E2 w02 -> reach E2 w02 w2 ->
    forall m, same_setup E1 E2 m -> private_queue E1 m -> one_thread E1 m -> private_queue E2 m -> one_thread E2 m ->
    forall h1 r1 h2 r2 conf vs1 vs2, tr (wm w1) = h1 ++ r1 -> tr (wm w2) = h2 ++ r2 ->
      period E1 w01 m h1 r1 conf vs1 -> period E2 w02 m h2 r2 conf vs2 -> same_start w01 w02 m h1 h2 ->
      map name_of_view vs1 = map name_of_view vs2 ->
    forall F, answers F vs1 -> answers F vs2 ->
      vs1 = vs2 /\ mstate_at m (h1 ++ r1) = mstate_at m (h2 ++ r2).
  Proof.
    intros H01 Hr1 H02 Hr2 m Hset P1 O1 P2 O2 h1 r1 h2 r2 conf vs1 vs2 T1 T2 Q1 Q2 (Hl & Hac & Hst) Hnm F A1 A2.
    destruct (period_arun _ _ _ _ _ _ _ _ H01 Hr1 T1 P1 O1 Q1) as (n1 & -> & _ & R1).
    destruct (period_arun _ _ _ _ _ _ _ _ H02 Hr2 T2 P2 O2 Q2) as (n2 & -> & _ & R2).
    rewrite Hl, Hst in R1. rewrite !map_map in Hnm.
    apply (arun_det E1 E2 m Hset _ _ _ _ _ _ (fun e => name_at E1 w01 e (h1 ++ r1)) (fun e => name_at E2 w02 e (h2 ++ r2)) F _ _ _ Hac (fun _ _ H => H) (fun _ _ H => H) R1 _ _ R2 Hnm A1 A2).
  Qed.

  (** no callback throws *)
  Lemma same_events_no_throw E1 E2 w01 w02 w1 w2 : init_mem E1 w01 -> reach E1 w01 w1 -> init_mem E2 w02 -> reach E2 w02 w2 ->
    forall m, same_setup E1 E2 m -> private_queue E1 m -> one_thread E1 m -> private_queue E2 m -> one_thread E2 m ->
    forall h1 r1 h2 r2 conf vs1 vs2, tr (wm w1) = h1 ++ r1 -> tr (wm w2) = h2 ++ r2 ->
      period E1 w01 m h1 r1 conf vs1 -> period E2 w02 m h2 r2 conf vs2 -> same_start w01 w02 m h1 h2 ->
      map name_of_view vs1 = map name_of_view vs2 ->
      (forall n os z c x, In (n, os, z) (vs1 ++ vs2) -> In (OBack c x) os -> x = None) ->
      vs1 = vs2 /\ mstate_at m (h1 ++ r1) = mstate_at m (h2 ++ r2).
  Proof.
    intros H01 Hr1 H02 Hr2 m Hset P1 O1 P2 O2 h1 r1 h2 r2 conf vs1 vs2 T1 T2 Q1 Q2 Hs Hnm Hno.
    apply (same_events E1 E2 w01 w02 w1 w2 H01 Hr1 H02 Hr2 m Hset P1 O1 P2 O2 h1 r1 h2 r2 conf vs1 vs2 T1 T2 Q1 Q2 Hs Hnm (fun _ _ _ _ => None)).
    - intros a n os z b -> c k x d ->. eapply (Hno n); [apply in_or_app; left; apply in_or_app; right; left; reflexivity|].
      apply in_or_app. right. left. reflexivity.
    - intros a n os z b -> c k x d ->. eapply (Hno n); [apply in_or_app; right; apply in_or_app; right; left; reflexivity|].
      apply in_or_app. right. left. reflexivity.
  Qed.
  (** the names of the views are those of the accepted events *)
  Lemma arun_view_names E m l ac conf N s ns s' (nm : eid -> string) : arun E m l ac conf N s ns s' ->
    map (fun v => name_of_view (view_of nm v)) ns =
    map (fun pc => match snd pc with Some (e, _) => nm e | None => EmptyString end) (map event_of ns).
  Proof. induction 1; [reflexivity|]. rewrite !map_app, IHarun. reflexivity. Qed.
  Lemma period_names E w0 w m h r conf vs : init_mem E w0 -> reach E w0 w -> tr (wm w) = h ++ r ->
    private_queue E m -> one_thread E m -> period E w0 m h r conf vs ->
    none_waiting (queue_of E m) h -> none_waiting (queue_of E m) (h ++ r) ->
    map name_of_view vs = accepted_names (fun e => name_at E w0 e (h ++ r)) (queue_of E m) r.
  Proof.
    intros H0 Hr HT Hp Ho Hq W1 W2. destruct (period_arun _ _ _ _ _ _ _ _ H0 Hr HT Hp Ho Hq) as (new & -> & Htk & Ha).
    unfold none_waiting in W1, W2. rewrite <- W2, <- W1 in Htk. unfold accepted in Htk. rewrite flat_map_app in Htk.
    apply app_inv_head in Htk. unfold accepted_names, accepted. rewrite Htk, map_map. eapply arun_view_names. exact Ha.
  Qed.
  Lemma same_acceptance E1 E2 w01 w02 w1 w2 : init_mem E1 w01 -> reach E1 w01 w1 -> init_mem E2 w02 -> reach E2 w02 w2 ->
    forall m, same_setup E1 E2 m -> private_queue E1 m -> one_thread E1 m -> private_queue E2 m -> one_thread E2 m ->
    forall h1 r1 h2 r2 conf vs1 vs2, tr (wm w1) = h1 ++ r1 -> tr (wm w2) = h2 ++ r2 ->
      period E1 w01 m h1 r1 conf vs1 -> period E2 w02 m h2 r2 conf vs2 -> same_start w01 w02 m h1 h2 ->
      none_waiting (queue_of E1 m) h1 -> none_waiting (queue_of E1 m) (h1 ++ r1) ->
      none_waiting (queue_of E2 m) h2 -> none_waiting (queue_of E2 m) (h2 ++ r2) ->
      accepted_names (fun e => name_at E1 w01 e (h1 ++ r1)) (queue_of E1 m) r1 =
      accepted_names (fun e => name_at E2 w02 e (h2 ++ r2)) (queue_of E2 m) r2 ->
    forall F, answers F vs1 -> answers F vs2 ->
      vs1 = vs2 /\ mstate_at m (h1 ++ r1) = mstate_at m (h2 ++ r2).
  Proof.
    intros H01 Hr1 H02 Hr2 m Hset P1 O1 P2 O2 h1 r1 h2 r2 conf vs1 vs2 T1 T2 Q1 Q2 Hs N1 N1' N2 N2' Hacc F A1 A2.
    apply (same_events E1 E2 w01 w02 w1 w2 H01 Hr1 H02 Hr2 m Hset P1 O1 P2 O2 h1 r1 h2 r2 conf vs1 vs2 T1 T2 Q1 Q2 Hs) with (F := F); auto.
    rewrite (period_names _ _ _ _ _ _ _ _ H01 Hr1 T1 P1 O1 Q1 N1 N1'), (period_names _ _ _ _ _ _ _ _ H02 Hr2 T2 P2 O2 Q2 N2 N2').
    exact Hacc.
  Qed.
End Det.
