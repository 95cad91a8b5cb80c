(** * AppLive3.v: the inside of the processing of a lifecycle event (proofs) *)
From Verif Require Import Sched Logic LiveSpec Lang Tree Nodes Marks Place Moments Truth Copies QueueProofs CallProofs FireProofs StartProofs
  TokenProofs ExactProofs FlowProofs2 Live LiveProofs LiveProofs2.
From Verif Require Import ConfTruth AppLiveSpec AppLive1 AppLive2.
From Verif Require Import ConfigSpec.

(** ** Marks that only actions of the app service make *)
Ltac dcode Hm := match type of Hm with mcode _ ?c _ =>
  destruct c as [en ac st e0 m0|ac e0 m0|hh e0 m0 y0|fin ll m0 ff e0 st|uu e0 m0|uu e0 m0 y0|uu e0 m0|uu e0 m0|up0 p0 j0]; simpl in Hm end.
Ltac nocode := exfalso; first [match goal with hh : handler |- _ => destruct hh end
  |match goal with ll : listener |- _ => destruct ll as [[?|? ?]|?] end|match goal with uu : uhandler |- _ => destruct uu end
  |match goal with uu : ufl |- _ => destruct uu end|idtac]; dmay; subst; try discriminate; try contradiction.
Lemma may_handler E p t k e m y : may E t k (OCall (KHandler (HApp p) e m y)) -> exists c a', k = FCall c /\ performs c (AHandle a' (HApp p)) e m.
Proof.
  intro Hm. destruct k as [|x|c|q' pr' c]; simpl in Hm.
  - destruct t; simpl in Hm; [dmay; subst; discriminate|contradiction].
  - exfalso. destruct x; simpl in Hm; unfold mappstart, mappstop in Hm; try contradiction; dmay; subst; try discriminate.
  - exists c. assert (Ha : forall ac e0 m0, mact E ac e0 m0 (OCall (KHandler (HApp p) e m y)) -> exists a', ac = AHandle a' (HApp p) /\ e = e0 /\ m = m0).
    { intros ac e0 m0 Ha. destruct ac; simpl in Ha; dmay; subst; try discriminate; try contradiction.
      injection H; intros; subst; eauto. }
    dcode Hm.
    + destruct (Ha _ _ _ Hm) as (a' & -> & -> & ->). exists a'. split; [reflexivity|left; eauto].
    + destruct (Ha _ _ _ Hm) as (a' & -> & -> & ->). exists a'. split; [reflexivity|right; reflexivity].
    + nocode.
    + nocode.
    + nocode.
    + nocode.
    + nocode.
    + nocode.
    + nocode.
  - exfalso. dmay; subst; discriminate.
Qed.
Lemma may_sub E p t k up j : may E t k (OCall (KSub up p j)) ->
  exists c a' e m, k = FCall c /\ performs c a' e m /\ (a' = AAppStarting p \/ a' = AAppStopping p).
Proof.
  intro Hm. destruct k as [|x|c|q' pr' c]; simpl in Hm.
  - destruct t; simpl in Hm; [dmay; subst; discriminate|contradiction].
  - exfalso. destruct x; simpl in Hm; unfold mappstart, mappstop in Hm; try contradiction; dmay; subst; try discriminate.
  - exists c. assert (Ha : forall ac e0 m0, mact E ac e0 m0 (OCall (KSub up p j)) -> ac = AAppStarting p \/ ac = AAppStopping p).
    { intros ac e0 m0 Ha. destruct ac; simpl in Ha; dmay; subst; try discriminate; try contradiction;
        injection H; intros; subst; eauto. }
    dcode Hm.
    + exists ac, e0, m0. split; [reflexivity|]. split; [left; eauto|]. exact (Ha _ _ _ Hm).
    + exists ac, e0, m0. split; [reflexivity|]. split; [right; eauto|]. exact (Ha _ _ _ Hm).
    + nocode.
    + nocode.
    + nocode.
    + nocode.
    + nocode.
    + nocode.
    + nocode.
  - exfalso. dmay; subst; discriminate.
Qed.
Lemma may_latch E p t k : may E t k (OWr (WrLatch p)) -> exists c e m, k = FCall c /\ performs c (AAppStopped p) e m.
Proof.
  intro Hm. destruct k as [|x|c|q' pr' c]; simpl in Hm.
  - destruct t; simpl in Hm; [dmay; subst; discriminate|contradiction].
  - exfalso. destruct x; simpl in Hm; unfold mappstart, mappstop in Hm; try contradiction; dmay; subst; try discriminate.
  - exists c. assert (Ha : forall ac e0 m0, mact E ac e0 m0 (OWr (WrLatch p)) -> ac = AAppStopped p).
    { intros ac e0 m0 Ha. destruct ac; simpl in Ha; dmay; subst; try discriminate; try contradiction;
        injection H; intros; subst; eauto. }
    dcode Hm.
    + exists e0, m0. split; [reflexivity|]. left. rewrite <- (Ha _ _ _ Hm). eauto.
    + exists e0, m0. split; [reflexivity|]. right. rewrite <- (Ha _ _ _ Hm). eauto.
    + nocode.
    + nocode.
    + nocode.
    + nocode.
    + nocode.
    + nocode.
    + nocode.
  - exfalso. dmay; subst; discriminate.
Qed.
(** marks made directly inside a bracket *)
Lemma own_filter (f : obs -> bool) t b : (forall b1 t' o b2, b = b1 ++ (t', o) :: b2 -> f o = true -> t' = t /\
    if closes o then exists k j1 j2, fst (scan t b1) = [(k, j1); (FRoot, j2)] else exists j, fst (scan t b1) = [(FRoot, j)]) ->
  forall u its, fst (scan t b) = u ++ [(FRoot, its)] -> filter f (map snd b) = filter f its.
Proof.
  induction b as [|[t' o] b IH] using rev_ind; intros H u its Hs.
  - destruct u as [|? [|]]; [|discriminate..]. injection Hs as <-. reflexivity.
  - assert (H' : forall b1 t' o b2, b = b1 ++ (t', o) :: b2 -> f o = true -> t' = t /\
      if closes o then exists k j1 j2, fst (scan t b1) = [(k, j1); (FRoot, j2)] else exists j, fst (scan t b1) = [(FRoot, j)]).
    { intros b1 t1 o1 b2 -> Hf. apply (H b1 t1 o1 (b2 ++ [(t', o)])); [rewrite <- app_assoc; reflexivity|exact Hf]. }
    destruct (root_kept_t _ _ _ _ _ Hs) as (u1 & j1 & j2 & Hb & Hj). specialize (IH H' _ _ Hb).
    rewrite map_app, filter_app, IH. simpl.
    destruct (tid_eq_dec t' t) as [->|N].
    + rewrite Place.scan_snoc, Hb in Hs. destruct (f o) eqn:Ef.
      * destruct (H b t o [] eq_refl Ef) as [_ Hc]. unfold scan1 in Hs. destruct (closes o) eqn:Ec.
        -- destruct Hc as (k & k1 & k2 & Hc). rewrite Hb in Hc. destruct u1 as [|f1 [|f2 u1]]; [discriminate| |destruct u1; discriminate].
           injection Hc as -> ->. simpl in Hs. destruct u as [|f2 u]; [|destruct u; discriminate]. injection Hs as <-.
           rewrite filter_app. simpl. rewrite Ef. reflexivity.
        -- destruct Hc as (k & Hc). rewrite Hb in Hc. destruct u1 as [|f1 u1]; [|destruct u1; discriminate]. injection Hc as ->. simpl in Hs.
           assert (Hit : its = k ++ [o]).
           { destruct (opens o); simpl in Hs.
             - destruct u as [|f1 [|f2 u]]; [discriminate| |destruct u; discriminate]. injection Hs as _ <-. reflexivity.
             - destruct u as [|f1 u]; [|destruct u; discriminate]. injection Hs as <-. reflexivity. }
           rewrite Hit, filter_app. simpl. rewrite Ef. reflexivity.
      * rewrite app_nil_r. rewrite Hj, filter_app. replace (filter f j2) with (@nil obs); [rewrite app_nil_r; reflexivity|].
        assert (Hj2 : j2 = [] \/ j2 = [o]).
        { unfold scan1 in Hs. rewrite Hj in Hs. destruct u1 as [|[k1 i1] u1]; simpl in Hs.
          - destruct (closes o); simpl in Hs; [destruct u; discriminate|]. destruct (opens o); simpl in Hs.
            + destruct u as [|f1 [|f2 u]]; [discriminate| |destruct u; discriminate]. injection Hs as _ Hs. apply app_inv_head in Hs. auto.
            + destruct u as [|f1 u]; [|destruct u; discriminate]. injection Hs as Hs. apply app_inv_head in Hs. auto.
          - destruct (closes o); simpl in Hs.
            + destruct u1 as [|[k2 i2] u1]; simpl in Hs.
              * destruct u as [|f1 u]; [|destruct u; discriminate]. injection Hs as Hs. apply app_inv_head in Hs. auto.
              * change ((k2, i2 ++ [o]) :: u1 ++ [(FRoot, j1)]) with (((k2, i2 ++ [o]) :: u1) ++ [(FRoot, j1)]) in Hs.
                apply app_inj_tail in Hs. destruct Hs as [_ Hs]. injection Hs as Hs. rewrite <- (app_nil_r j1) in Hs at 1. apply app_inv_head in Hs. auto.
            + left. destruct (opens o) as [k|]; simpl in Hs.
              * change ((k, []) :: (k1, i1 ++ [o]) :: u1 ++ [(FRoot, j1)]) with (((k, []) :: (k1, i1 ++ [o]) :: u1) ++ [(FRoot, j1)]) in Hs.
                apply app_inj_tail in Hs. destruct Hs as [_ Hs]. injection Hs as Hs. rewrite <- (app_nil_r j1) in Hs at 1. apply app_inv_head in Hs. auto.
              * change ((k1, i1 ++ [o]) :: u1 ++ [(FRoot, j1)]) with (((k1, i1 ++ [o]) :: u1) ++ [(FRoot, j1)]) in Hs.
                apply app_inj_tail in Hs. destruct Hs as [_ Hs]. injection Hs as Hs. rewrite <- (app_nil_r j1) in Hs at 1. apply app_inv_head in Hs. auto. }
        destruct Hj2 as [->| ->]; [reflexivity|]. simpl. rewrite Ef. reflexivity.
    + rewrite (Place.scan_other t t' b o N), Hb in Hs. apply app_inj_tail in Hs. destruct Hs as [_ Hs]. injection Hs as <-.
      destruct (f o) eqn:Ef; [|apply app_nil_r]. exfalso. apply N. apply (H b t' o [] eq_refl Ef).
Qed.

(** the callbacks of the app service itself: its actions and its error handler *)
Definition ours (p : apid) (c : call) (e : eid) (m : mid) : Prop :=
  (exists a, performs c a e m /\ mentions p a) \/ exists y, c = KHandler (HApp p) e m y.

Section InTake.
  Context (E : env) (w0 : mem) (p : apid) (H0 : init_mem E w0) (Hb : app_built E w0 p).
  Context (w : world) (Hr : reach E w0 w).
  Notation T := (tr (wm w)).
  Notation m := (ap_mach (apps E p)).
  Notation q := (queue_of E m).
  Notation wkr := (worker_of E m).
  Context {f : fate} (HQ : app_quiet E p f T).

  (** the action of the state that is entered, and the callback that performs it *)
  Definition own_act (i : nat) : action :=
    match f with
    | NoStart => match i with 0 => AAppStarting p | _ => AAppStopped p end
    | Again => per (AAppStarting p) (AAppStarted p) (AAppStopping p) (AAppStopped p) i
    | _ => match i with 0 => AAppStarting p | 1 => AAppStarted p | 2 => AAppStopping p | _ => AAppStopped p end
    end.
  Definition wraps (i : nat) : bool := match f with Again => per true true true false i | _ => Nat.ltb (S i) (lastk f) end.
  Definition bad (i : nat) : bool := match f, i with NoStart, 0 => true | NoStop, 2 => true | _, _ => false end.
  Definition outer (i : nat) : call :=
    KAct true (if wraps i then AHandle (own_act i) (HApp p) else own_act i) (lst E p f (S i)) (ELife (lev f i)) m.
  Definition core (i : nat) : call := if wraps i then KInner (own_act i) (ELife (lev f i)) m else outer i.
  Definition hand (i : nat) (y : exn) : call := KHandler (HApp p) (ELife (lev f i)) m y.
  Definition stopped_items (x : option exn) (its : list obs) : Prop := x = None /\
    if ap_exit (apps E p) then exists pr n, its = log_line E p STOPPED :: fire_out E p pr n LStop ++ [OWr (WrLatch p)]
    else its = [log_line E p STOPPED].
  Definition round_items (up : bool) (x : option exn) (its : list obs) : Prop :=
    if fails f up then exists marks, round E p f up x marks /\ its = opening E p up ++ marks
    else x = None /\ exists pr n, its = opening E p up ++ subs_marks E p up ++ fire_out E p pr n LComplete.
  Definition core_items (i : nat) (x : option exn) (its : list obs) : Prop :=
    match f with
    | NoStart => match i with 0 => round_items true x its | _ => stopped_items x its end
    | Again => per (round_items true x its) (x = None /\ its = []) (round_items false x its) (stopped_items x its) i
    | _ => match i with 0 => round_items true x its | 1 => x = None /\ its = [] | 2 => round_items false x its | _ => stopped_items x its end
    end.
  Ltac plan i := clear; unfold lacts, lst, lev, inplan, tostop, isend, own_act, wraps, bad, core_items, lastk; case f; [destruct i as [|[|[|[|[|i]]]]]..|by_per i].
  Lemma lacts_one i : inplan f (S i) -> lacts E p f (S i) = [if wraps i then AHandle (own_act i) (HApp p) else own_act i].
  Proof. plan i; intro; try reflexivity; lia. Qed.
  Lemma lacts_none i : isend f i = true -> lacts E p f (S i) = [].
  Proof. plan i; intro; try discriminate; reflexivity. Qed.
  Lemma own_plain i x : ~ wrapped (own_act i) x.
  Proof. plan i; simpl; auto. Qed.
  Lemma own_handle i a h : own_act i <> AHandle a h.
  Proof. plan i; discriminate. Qed.
  Lemma own_kind i : wraps i = true -> exists k, own_action p k = Some (own_act i) /\ (f = NoStart -> k = STARTING) /\ throws f k = bad i /\
    k <> UNINIT /\ k <> STOPPED.
  Proof.
    plan i; simpl; intro; try discriminate;
    first [exists STARTING; repeat split; discriminate|exists STARTED; repeat split; discriminate
      |exists STOPPING; repeat split; discriminate|exists STARTING; repeat split; auto; discriminate].
  Qed.
  Lemma own_last i : wraps i = false -> inplan f (S i) -> own_act i = AAppStopped p /\ tostop f i = true /\ bad i = false.
  Proof. plan i; simpl; intros; try discriminate; try lia; auto. Qed.
  Lemma wraps_not i : tostop f i = true -> wraps i = false.
  Proof. plan i; simpl; intros; try discriminate; reflexivity. Qed.
  Lemma tostop_upto i : tostop f i = true -> inplan f (S i).
  Proof. plan i; simpl; intros; try discriminate; auto. Qed.
  Lemma own_items i x its : wraps i = true ->
    match own_act i with AAppStarting _ => round_items true x its | AAppStarted _ => x = None /\ its = [] | _ => round_items false x its end -> core_items i x its.
  Proof. plan i; simpl; intros; try discriminate; auto. Qed.
  Lemma own_stopped i x its : wraps i = false -> inplan f (S i) -> stopped_items x its -> core_items i x its.
  Proof. plan i; simpl; intros; try discriminate; try lia; auto. Qed.
  Lemma items_stopped i x its : tostop f i = true -> core_items i x its -> stopped_items x its.
  Proof. plan i; simpl; intros; try discriminate; try lia; auto. Qed.
  Lemma items_bad i x its : bad i = true -> core_items i x its -> exists up y, x = Some y /\ fails f up = true /\ round_items up x its.
  Proof.
    clear. unfold bad, core_items. intros Hi H.
    assert (Hx : exists up, fails f up = true /\ round_items up x its).
    { clear - Hi H. revert Hi H. unfold round_items. case f; [destruct i as [|[|[|i]]]..|]; try discriminate; intros _ H; [exists true|exists false]; split; auto. }
    destruct Hx as (up & Hf & Hx). exists up. unfold round_items in Hx |- *. rewrite Hf in *. destruct Hx as (marks & Hrd & Hits).
    pose proof Hrd as Hrd2. unfold round in Hrd2. rewrite Hf in Hrd2. destruct Hrd2 as (? & ? & ? & y & _ & -> & _). eauto 8.
  Qed.
  Lemma items_good i x its : bad i = false -> inplan f (S i) -> core_items i x its -> x = None.
  Proof.
    clear. unfold bad, inplan, lastk, core_items, round_items, stopped_items, fails. case f; [destruct i as [|[|[|[|i]]]]..|by_per i]; intros Hb Hi H; try discriminate; try lia;
      exact (proj1 H).
  Qed.

  Context (t : tid) (a : trace) (pr : pid) (b : trace) (its : list obs) (z : obs) (d : trace) (i : nat) (Hi : inplan f i).
  Notation op := (OTake q pr (Some (ELife (lev f i), m))).
  Context (Hs : span t T a op b its z d) (Ho : start_over m a) (Hst : mstate_at m a = (Some (lst E p f i), false)).

  (** the callbacks of the app service's actions inside the bracket *)
  Lemma in_take t' b1 b2 c its1 v a' e m' : b = b1 ++ b2 -> fst (scan t' (a ++ (t, op) :: b1)) = (FCall c, its1) :: v ->
    performs c a' e m' -> mentions p a' ->
    t' = t /\ m' = m /\ e = ELife (lev f i) /\ exists en ac st b0 b1' u i0 i1,
      b1 = b0 ++ (t, OCall (KAct en ac st (ELife (lev f i)) m)) :: b1' /\
      fst (scan t b0) = [(FRoot, i1)] /\ fst (scan t b1') = u ++ [(FRoot, i0)] /\
      ((u = [] /\ i0 = its1 /\ c = KAct en a' st (ELife (lev f i)) m /\ ac = a') \/
       (c = KInner a' (ELife (lev f i)) m /\ wrapped ac a' /\ ((u = [(FCall c, its1)] /\ exists h', ac = AHandle a' h') \/ exists h', wrapped ac (AHandle a' h')))).
  Proof.
    intros Hbb Hsc Hp Ha. assert (HT : T = (a ++ (t, op) :: b1) ++ b2 ++ (t, z) :: d).
    { destruct Hs as (HT & _). rewrite HT, Hbb. repeat (rewrite <- !app_assoc; simpl). reflexivity. }
    destruct (act_in_take E w0 p H0 Hb w Hr HQ t' _ _ c its1 v a' e m' HT Hsc Hp Ha)
      as (-> & Ht' & pr' & en & ac & st & h0 & b0 & b1' & u & i0 & i1 & Hh & Hb0 & Hb1 & Hc).
    assert (Ht : t = wkr).
    { assert (Hop : opened t (a ++ [(t, op)]) (FTake q pr (Some (ELife (lev f i), m))) []).
      { unfold opened. rewrite (stack_at t a op [] _ [] [] eq_refl eq_refl). left. reflexivity. }
      assert (HT2 : T = (a ++ [(t, op)]) ++ b ++ (t, z) :: d) by (destruct Hs as (HT2 & _); rewrite HT2, <- app_assoc; reflexivity).
      destruct (take_worker E w0 w H0 Hr m (ab_queue _ _ _ Hb) (ab_thread _ _ _ Hb) _ _ _ _ _ _ HT2 Hop) as [Ht _]. exact Ht. }
    rewrite <- Ht in Ht'. subst t'. split; [reflexivity|]. split; [reflexivity|].
    assert (Hsb : exists u1 j1, fst (scan t b1) = u1 ++ [(FRoot, j1)]).
    { destruct Hs as (_ & _ & Hsb). rewrite Hbb in Hsb. destruct (root_kept_t _ _ _ [] _ Hsb) as (u1 & j1 & j2 & Hj & _). eauto. }
    destruct Hsb as (u1 & j1 & Hsb).
    (* the stack on the worker: root, take, then the callbacks *)
    assert (Hst2 : fst (scan t (b0 ++ (t, OCall (KAct en ac st e m)) :: b1')) = (u ++ [(FCall (KAct en ac st e m), i0)]) ++ [(FRoot, i1 ++ [OCall (KAct en ac st e m)])]).
    { rewrite (stack_at t b0 (OCall (KAct en ac st e m)) b1' (FCall (KAct en ac st e m)) u i0 eq_refl Hb1), Hb0. simpl. rewrite <- app_assoc. reflexivity. }
    pose proof (stack_at t a op b1 (FTake q pr (Some (ELife (lev f i), m))) u1 j1 eq_refl Hsb) as S1.
    pose proof (stack_at t h0 (OTake q pr' (Some (e, m))) _ (FTake q pr' (Some (e, m))) _ _ eq_refl Hst2) as S2.
    rewrite <- Hh in S2.
    destruct (take_on_root E w0 w H0 Hr _ _ _ _ _ _ _ _ _ HT S1) as (r1 & R1).
    destruct (take_on_root E w0 w H0 Hr _ _ _ _ _ _ _ _ _ HT S2) as (r2 & R2).
    destruct (open_unique t a op b1 h0 (OTake q pr' (Some (e, m))) _ _ _ u1 _ j1 _ Hh eq_refl eq_refl Hsb Hst2) as (_ & Hope & Hbe).
    { rewrite S1, R1, R2 in S2. apply (f_equal (@List.length frame)) in S2. rewrite !app_length in S2. rewrite !app_length. simpl in S2 |- *. lia. }
    injection Hope as _ <-. split; [reflexivity|]. exists en, ac, st, b0, b1', u, i0, i1. auto.
  Qed.
  Lemma no_kact N : note E p N -> forall en ac st e m' y, ~ In (OCall (KAct en ac st e m')) N /\ ~ In (OBack (KAct en ac st e m') y) N.
  Proof. intros [->|(? & ? & ? & ? & ? & ->)] en ac st e m' y; split; auto; intros [?|[?|[]]]; discriminate. Qed.
  (** the action callbacks directly inside the bracket *)
  Lemma take_kact en ac st e : In (OCall (KAct en ac st e m)) its -> inplan f (S i) /\ KAct en ac st e m = outer i.
  Proof.
    intro Hin. destruct (take_life E w0 p H0 Hb w Hr HQ t a pr b its z d i Hi Hs Ho Hst) as (_ & _ & N1 & N2 & H1 & H2 & Hsh).
    assert (H : In (OCall (KAct en ac st e m)) (shown its)) by (apply shown_in; auto). rewrite Hsh in H.
    apply in_app_or in H. destruct H as [H|H]; [destruct (proj1 (no_kact _ H1 _ _ _ _ _ None) H)|].
    apply in_app_or in H. destruct H as [H|[H|H]]; [destruct (isend f i); [destruct H as [H|[]]; discriminate|destruct H]|discriminate|].
    apply in_app_or in H. destruct H as [H|H]; [|destruct (proj1 (no_kact _ H2 _ _ _ _ _ None) H)].
    apply in_flat_map in H. destruct H as (ac' & Ha & [H|[H|[]]]); [|discriminate].
    destruct (upto_dec i Hi) as [N4|Hi4]; [rewrite (lacts_none i N4) in Ha; destruct Ha|]. split; [exact Hi4|].
    rewrite (lacts_one i Hi4) in Ha. destruct Ha as [<-|[]]. injection H as <- <- <- <-. reflexivity.
  Qed.
  Lemma take_outer : inplan f (S i) -> exists i1 b0 bK itsK b3, inner_span t b i1 b0 (OCall (outer i)) bK itsK (OBack (outer i) None) b3 /\
    span t T (a ++ (t, op) :: b0) (OCall (outer i)) bK itsK (OBack (outer i) None) (b3 ++ (t, z) :: d) /\
    forall c1 r1 j, b = c1 ++ (t, OCall (outer i)) :: r1 -> fst (scan t c1) = [(FRoot, j)] -> c1 = b0.
  Proof.
    intro Hi4. destruct (take_life E w0 p H0 Hb w Hr HQ t a pr b its z d i Hi Hs Ho Hst) as (_ & _ & N1 & N2 & H1 & H2 & Hsh).
    rewrite (lacts_one i Hi4) in Hsh. rewrite (not_end i Hi4) in Hsh. simpl flat_map in Hsh.
    assert (Hsh2 : shown its = (N1 ++ [OState m (lst E p f (S i))]) ++ OCall (outer i) :: (OBack (outer i) None :: N2))
      by (rewrite Hsh, <- app_assoc; reflexivity).
    assert (Hbk : In (OBack (outer i) None) its).
    { apply shown_in. rewrite Hsh2. apply in_or_app. right. right. left. reflexivity. }
    destruct (item_back E w0 H0 w Hr _ _ _ _ _ _ _ _ _ Hs Hbk) as (j1 & j2 & Hj).
    destruct (item_span w _ _ _ _ _ _ _ _ _ _ _ Hs Hj) as (b0 & bK & itsK & b3 & Hin & Hsp).
    exists j1, b0, bK, itsK, b3. split; [exact Hin|]. split; [exact Hsp|].
    intros c1 r1 j Hc1 Hj1.
    destruct (shown_once its _ _ _ Hsh2) as (k1 & k2 & Hk & M1 & M2).
    { intro H. apply in_app_or in H. destruct H as [H|[H|[]]]; [|discriminate]. exact (proj1 (no_kact _ H1 _ _ _ _ _ None) H). }
    { intros [H|H]; [discriminate|]. exact (proj1 (no_kact _ H2 _ _ _ _ _ None) H). }
    destruct Hin as ((Hb3 & _) & Hs3). destruct Hs as (_ & _ & Hsb).
    destruct (same_place t b c1 b0 _ _ _ _ _ [] its k1 k2 Hc1 Hb3 Hj1 Hs3 Hsb eq_refl Hk M1 M2) as [Heq _]. exact Heq.
  Qed.
  Lemma outer_quiet b0 bK itsK b3 i1 : inplan f (S i) -> inner_span t b i1 b0 (OCall (outer i)) bK itsK (OBack (outer i) None) b3 ->
    start_over m (a ++ (t, op) :: b0) /\ forall h, during t (a ++ (t, op) :: b0) (OCall (outer i)) bK h -> ended_at m h = false.
  Proof.
    intros Hi4 Hin. split; [apply over_later; exact Ho|]. intros h Hd.
    apply (take_not_ended E w0 p H0 Hb w Hr HQ t a pr b its z d i Hs Ho Hst (take_running E w0 p H0 Hb w Hr HQ t a pr b its z d i Hi Hs Ho Hst Hi4)).
    eapply during_inner; eauto.
  Qed.
  Lemma outer_performs : performs (outer i) (if wraps i then AHandle (own_act i) (HApp p) else own_act i) (ELife (lev f i)) m.
  Proof. left. unfold outer. eauto. Qed.

  (** the callback that does the work, its items, and where the others are *)
  Record hand_at (y : exn) (X bH : trace) (itsH : list obs) (X' : trace) : Prop := {
    ha_split : b = X ++ (t, OCall (hand i y)) :: bH ++ (t, OBack (hand i y) None) :: X';
    ha_span : span t T (a ++ (t, op) :: X) (OCall (hand i y)) bH itsH (OBack (hand i y) None) (X' ++ (t, z) :: d);
    ha_items : handled_items E p itsH;
    ha_once : forall b1 b2 its1 v, b = b1 ++ (t, OCall (hand i y)) :: b2 -> fst (scan t (a ++ (t, op) :: b1)) = (FCall (outer i), its1) :: v -> b1 = X }.
  Lemma take_core : inplan f (S i) -> exists x X bC itsC X', b = X ++ (t, OCall (core i)) :: bC ++ (t, OBack (core i) x) :: X' /\
    span t T (a ++ (t, op) :: X) (OCall (core i)) bC itsC (OBack (core i) x) (X' ++ (t, z) :: d) /\ core_items i x itsC /\
    (forall y, x = Some y -> exists XH bH itsH XH', hand_at y XH bH itsH XH') /\
    forall t' b1 b2 c its1 v a' e m', b = b1 ++ b2 -> fst (scan t' (a ++ (t, op) :: b1)) = (FCall c, its1) :: v ->
      performs c a' e m' -> mentions p a' ->
      t' = t /\ ((c = core i /\ a' = own_act i /\ exists c1 c2, b1 = X ++ (t, OCall (core i)) :: c1 /\ bC = c1 ++ c2 /\ fst (scan t c1) = [(FRoot, its1)]) \/
        (wraps i = true /\ c = outer i /\ forall o b2', b2 = (t, o) :: b2' -> closes o = false ->
          o = OCall (core i) \/ exists y, x = Some y /\ o = OCall (hand i y))).
  Proof.
    intro Hi4. destruct (take_outer Hi4) as (i1 & b0 & bK & itsK & b3 & Hin & Hsp & Huniq).
    destruct (outer_quiet _ _ _ _ _ Hi4 Hin) as [Ho2 He2].
    assert (Hbeq : b = b0 ++ (t, OCall (outer i)) :: bK ++ (t, OBack (outer i) None) :: b3) by (destruct Hin as ((H & _) & _); exact H).
    assert (HsK : fst (scan t bK) = [(FRoot, itsK)]) by (destruct Hsp as (_ & _ & H); exact H).
    (* any callback lies in the outer one *)
    assert (Hloc : forall t' b1 b2 c its1 v a' e m', b = b1 ++ b2 -> fst (scan t' (a ++ (t, op) :: b1)) = (FCall c, its1) :: v ->
      performs c a' e m' -> mentions p a' -> t' = t /\ exists bx bx2 u i0, b1 = b0 ++ (t, OCall (outer i)) :: bx /\ bK = bx ++ bx2 /\
        b2 ++ (t, z) :: d = bx2 ++ (t, OBack (outer i) None) :: b3 ++ (t, z) :: d /\ fst (scan t bx) = u ++ [(FRoot, i0)] /\
        ((u = [] /\ i0 = its1 /\ c = outer i /\ performs (outer i) a' (ELife (lev f i)) m) \/
         (wraps i = true /\ c = core i /\ a' = own_act i /\ u = [(FCall c, its1)]))).
    { intros t' b1 b2 c its1 v a' e m' Hbb Hsc Hp Ha.
      destruct (in_take _ _ _ _ _ _ _ _ _ Hbb Hsc Hp Ha) as (-> & -> & -> & en & ac & st & b0' & bx & u & i0 & i1' & Hb1 & Hb0 & Hbx & Hc).
      split; [reflexivity|].
      assert (HK : In (OCall (KAct en ac st (ELife (lev f i)) m)) its).
      { destruct Hs as (_ & _ & Hsb). rewrite Hbb, Hb1, <- app_assoc in Hsb. simpl in Hsb.
        destruct (two_items t b0' _ _ i1' Hb0 [] its Hsb eq_refl) as (j & ->). apply in_or_app. right. left. reflexivity. }
      destruct (take_kact _ _ _ _ HK) as [_ HK2].
      assert (Hb0' : b0' = b0).
      { eapply (Huniq b0' (bx ++ b2) i1'); [|exact Hb0]. rewrite Hbb, Hb1, <- HK2, <- app_assoc. reflexivity. }
      subst b0'. rewrite HK2 in Hb1.
      assert (Hpre : exists b2', bK = bx ++ b2' /\ b2 ++ (t, z) :: d = b2' ++ (t, OBack (outer i) None) :: b3 ++ (t, z) :: d).
      { apply (inside_prefix t T (a ++ (t, op) :: b0) (OCall (outer i)) bK itsK _ _ bx (b2 ++ (t, z) :: d) u i0 Hsp); [|exact Hbx].
        destruct Hs as (HT & _). rewrite HT, Hbb, Hb1. repeat (rewrite <- !app_assoc; simpl). reflexivity. }
      destruct Hpre as (b2' & HbK & Hrest). exists bx, b2', u, i0. split; [exact Hb1|]. split; [exact HbK|]. split; [exact Hrest|]. split; [exact Hbx|].
      destruct Hc as [(-> & -> & -> & Hac)|(-> & Hw & Hc)].
      - left. subst a'. split; [reflexivity|]. split; [reflexivity|]. split; [exact HK2|]. rewrite <- HK2. left. eauto.
      - right. unfold outer in HK2. destruct (wraps i) eqn:Hi3.
        + injection HK2 as _ -> _. split; [reflexivity|].
          assert (Hw1 : forall x, wrapped (AHandle (own_act i) (HApp p)) x -> x = own_act i).
          { intros x Hx. simpl in Hx. destruct Hx as [->|Hx]; [reflexivity|]. destruct (own_plain i _ Hx). }
          pose proof (Hw1 _ Hw) as ->. split; [unfold core; rewrite Hi3; reflexivity|]. split; [reflexivity|].
          destruct Hc as [[-> _]|(h' & Hw')]; [reflexivity|]. exfalso. apply Hw1 in Hw'. exact (own_handle i _ _ (eq_sym Hw')).
        + injection HK2 as _ -> _. exfalso. exact (own_plain i _ Hw). }
    destruct (wraps i) eqn:Hi3.
    - pose proof outer_performs as Hpf. rewrite Hi3 in Hpf.
      destruct (own_kind i Hi3) as (k & Hk & Hup & Hth & _).
      destruct (act_handle E w0 p H0 Hb w Hr HQ _ _ _ _ _ _ _ _ k _ Hsp Ho2 He2 Hk Hpf Hup) as [_ HitsK]. rewrite Hth in HitsK.
      assert (HitsK3 : exists x, itsK = called (KInner (own_act i) (ELife (lev f i)) m) x ++ match x with None => [] | Some y => called (hand i y) None end).
      { destruct (bad i); [destruct HitsK as (y & ->); exists (Some y); reflexivity|exists None; rewrite app_nil_r; exact HitsK]. }
      clear HitsK Hth. destruct HitsK3 as (x & HitsK). pose proof HitsK as HitsK2.
      change (called (KInner (own_act i) (ELife (lev f i)) m) x ++ match x with None => [] | Some y => called (hand i y) None end)
        with ([] ++ called (KInner (own_act i) (ELife (lev f i)) m) x ++ match x with None => [] | Some y => called (hand i y) None end) in HitsK2.
      destruct (item_span w _ _ _ _ _ _ _ _ _ _ _ Hsp HitsK2) as (x0 & bC & itsC & x3 & Hin3 & Hsp3).
      assert (Hcore : core i = KInner (own_act i) (ELife (lev f i)) m) by (unfold core; rewrite Hi3; reflexivity).
      rewrite <- Hcore in *.
      assert (HbK : bK = x0 ++ (t, OCall (core i)) :: bC ++ (t, OBack (core i) x) :: x3) by (destruct Hin3 as ((H & _) & _); exact H).
      exists x, (b0 ++ (t, OCall (outer i)) :: x0), bC, itsC, (x3 ++ (t, OBack (outer i) None) :: b3).
      split; [rewrite Hbeq, HbK; repeat (rewrite <- !app_assoc; simpl); reflexivity|].
      assert (Hsp4 : span t T (a ++ (t, op) :: b0 ++ (t, OCall (outer i)) :: x0) (OCall (core i)) bC itsC (OBack (core i) x)
        ((x3 ++ (t, OBack (outer i) None) :: b3) ++ (t, z) :: d)).
      { replace (a ++ (t, op) :: b0 ++ (t, OCall (outer i)) :: x0) with ((a ++ (t, op) :: b0) ++ (t, OCall (outer i)) :: x0)
          by (rewrite <- app_assoc; reflexivity).
        replace ((x3 ++ (t, OBack (outer i) None) :: b3) ++ (t, z) :: d) with (x3 ++ (t, OBack (outer i) None) :: b3 ++ (t, z) :: d)
          by (rewrite <- app_assoc; reflexivity). exact Hsp3. }
      split; [exact Hsp4|]. split.
      + assert (Ho3 : start_over m (a ++ (t, op) :: b0 ++ (t, OCall (outer i)) :: x0)) by (apply over_later; exact Ho).
        assert (He3 : forall h, during t (a ++ (t, op) :: b0 ++ (t, OCall (outer i)) :: x0) (OCall (core i)) bC h -> ended_at m h = false).
        { intros h Hd. apply He2. eapply during_inner; [exact Hin3|]. rewrite <- app_assoc. exact Hd. }
        rewrite Hcore in Hsp4, He3. apply (own_items i x itsC Hi3). destruct k; try discriminate; injection Hk as Hk; rewrite <- Hk in Hsp4, He3 |- *.
        * apply (act_subs E w0 p H0 Hb w Hr HQ _ _ _ _ _ _ _ (ELife (lev f i)) m Hsp4 Ho3 He3 true); [right; reflexivity|auto].
        * apply (act_started E w0 p H0 w Hr _ _ _ _ _ _ _ (ELife (lev f i)) m Hsp4). right; reflexivity.
        * apply (act_subs E w0 p H0 Hb w Hr HQ _ _ _ _ _ _ _ (ELife (lev f i)) m Hsp4 Ho3 He3 false); [right; reflexivity|intro X; discriminate (Hup X)].
      + split.
        { intros y ->. assert (HitsH : itsK = called (core i) (Some y) ++ called (hand i y) None ++ []) by (rewrite app_nil_r; exact HitsK).
          destruct (item_span w _ _ _ _ _ _ _ _ _ _ _ Hsp HitsH) as (h0 & bH & itsH & h3 & HinH & HspH).
          assert (HbK2 : bK = h0 ++ (t, OCall (hand i y)) :: bH ++ (t, OBack (hand i y) None) :: h3) by (destruct HinH as ((H & _) & _); exact H).
          assert (HspH2 : span t T (a ++ (t, op) :: b0 ++ (t, OCall (outer i)) :: h0) (OCall (hand i y)) bH itsH (OBack (hand i y) None)
            ((h3 ++ (t, OBack (outer i) None) :: b3) ++ (t, z) :: d)).
          { replace (a ++ (t, op) :: b0 ++ (t, OCall (outer i)) :: h0) with ((a ++ (t, op) :: b0) ++ (t, OCall (outer i)) :: h0)
              by (rewrite <- app_assoc; reflexivity).
            replace ((h3 ++ (t, OBack (outer i) None) :: b3) ++ (t, z) :: d) with (h3 ++ (t, OBack (outer i) None) :: b3 ++ (t, z) :: d)
              by (rewrite <- app_assoc; reflexivity). exact HspH. }
          exists (b0 ++ (t, OCall (outer i)) :: h0), bH, itsH, (h3 ++ (t, OBack (outer i) None) :: b3). split.
          - rewrite Hbeq, HbK2. repeat (rewrite <- !app_assoc; simpl). reflexivity.
          - exact HspH2.
          - destruct (act_handler E w0 p H0 Hb w Hr HQ _ _ _ _ _ _ _ (ELife (lev f i)) HspH2) with (y := y) as [_ Hx]; [| |reflexivity|exact Hx].
            + apply over_later; exact Ho.
            + intros h Hd. apply He2. eapply during_inner; [exact HinH|]. rewrite <- app_assoc. exact Hd.
          - intros b1 b2 its1 v Hbb Hsc.
            destruct (Hloc t b1 _ _ _ _ _ _ _ Hbb Hsc Hpf) as (_ & bx & bx2 & u & i0 & Hb1 & Hbx & Hrest & Hscx & Hc); [right; reflexivity|].
            destruct Hc as [(-> & -> & _)|(_ & Hcc & _)]; [|unfold core in Hcc; rewrite Hi3 in Hcc; discriminate].
            destruct bx2 as [|[t1 o1] bx2]; simpl in Hrest; [injection Hrest as Hrest _; discriminate|]. injection Hrest as <- <- _.
            destruct (same_place t bK bx h0 (OCall (hand i y)) bx2 (bH ++ (t, OBack (hand i y) None) :: h3) its1 (called (core i) (Some y)) [] itsK
              (called (core i) (Some y)) [OBack (hand i y) None]) as [Heq _]; auto.
            + destruct HinH as (_ & H). exact H.
            + intros [H|[H|[]]]; [|discriminate]. injection H as H. rewrite Hcore in H. discriminate.
            + intros [H|[]]; discriminate.
            + rewrite Hb1, Heq. reflexivity. }
        intros t' b1 b2 c its1 v a' e m' Hbb Hsc Hp Ha.
        destruct (Hloc _ _ _ _ _ _ _ _ _ Hbb Hsc Hp Ha) as (-> & bx & bx2 & u & i0 & Hb1 & Hbx & Hrest & Hscx & Hc). split; [reflexivity|].
        destruct Hc as [(-> & -> & -> & _)|(_ & Hcc & -> & Hu)].
        * right. split; [reflexivity|]. split; [reflexivity|]. intros o b2' Hb2 Hcl. rewrite Hb2 in Hrest.
          destruct bx2 as [|[t1 o1] bx2]; simpl in Hrest; [injection Hrest as -> _; discriminate|]. injection Hrest as <- <- _.
          rewrite Hbx in HsK. destruct (two_items t bx o bx2 its1 Hscx [] itsK HsK Hcl) as (j & Hj). rewrite HitsK in Hj.
          destruct its1 as [|o1 [|o2 its1]]; [injection Hj as <- _; left; reflexivity|injection Hj as _ <- _; discriminate|].
          right. destruct x as [y|]; [|destruct its1; discriminate]. exists y. split; [reflexivity|].
          destruct its1 as [|o3 its1]; [injection Hj as _ _ <- _; reflexivity|]. destruct its1 as [|o4 its1]; [injection Hj as _ _ _ <- _; discriminate|destruct its1; discriminate].
        * left. split; [exact Hcc|]. split; [reflexivity|]. subst c. subst u.
          destruct (top_bracket t bx _ _ _ Hscx ltac:(discriminate)) as (y0 & op0 & y1 & Hy & Hop0 & Hy1 & Hv0).
          destruct op0; try discriminate. injection Hop0 as ->.
          assert (Hy0 : exists jy, fst (scan t y0) = [(FRoot, jy)]).
          { destruct (fst (scan t y0)) as [|[k0 j0] l0]; [discriminate|]. simpl in Hv0. injection Hv0 as <- _ <-. eauto. }
          destruct Hy0 as [jy Hy0].
          assert (Hx0 : y0 = x0).
          { destruct (same_place t bK y0 x0 (OCall (core i)) (y1 ++ bx2) (bC ++ (t, OBack (core i) x) :: x3) jy [] [] itsK [] (OBack (core i) x :: match x with None => [] | Some y => called (hand i y) None end)) as [Heq _];
              auto.
            - rewrite Hbx, Hy, <- app_assoc. reflexivity.
            - destruct Hin3 as (_ & H). exact H.
            - intros [H|H]; [discriminate|]. destruct x as [y|]; [|exact H]. destruct H as [H|[H|[]]]; [|discriminate].
              injection H as H. rewrite Hcore in H. discriminate. }
          subst y0.
          assert (Hpre : exists c2, bC = y1 ++ c2 /\ b2 ++ (t, z) :: d = c2 ++ (t, OBack (core i) x) :: (x3 ++ (t, OBack (outer i) None) :: b3) ++ (t, z) :: d).
          { apply (inside_prefix t T _ _ bC itsC _ _ y1 (b2 ++ (t, z) :: d) [] its1 Hsp4); [|exact Hy1].
            destruct Hs as (HT & _). rewrite HT, Hbb, Hb1, Hy. repeat (rewrite <- !app_assoc; simpl). reflexivity. }
          destruct Hpre as (c2 & HbC & _). exists y1, c2. split; [rewrite Hb1, Hy; repeat (rewrite <- !app_assoc; simpl); reflexivity|]. auto.
    - assert (Hcore : core i = outer i) by (unfold core; rewrite Hi3; reflexivity).
      destruct (own_last i Hi3 Hi4) as (Hown & _ & _).
      exists None, b0, bK, itsK, b3. rewrite Hcore. split; [exact Hbeq|]. split; [exact Hsp|]. split; [|split; [discriminate|]].
      + pose proof outer_performs as Hpf. rewrite Hi3, Hown in Hpf. apply (own_stopped i None itsK Hi3 Hi4).
        exact (act_stopped E w0 p H0 Hb w Hr HQ _ _ _ _ _ _ _ _ _ Hsp Ho2 He2 Hpf).
      + intros t' b1 b2 c its1 v a' e m' Hbb Hsc Hp Ha.
        destruct (Hloc _ _ _ _ _ _ _ _ _ Hbb Hsc Hp Ha) as (-> & bx & bx2 & u & i0 & Hb1 & Hbx & Hrest & Hscx & Hc). split; [reflexivity|].
        left. destruct Hc as [(-> & -> & -> & Hp2)|(Hlt & _)]; [|discriminate]. split; [reflexivity|]. split.
        * unfold outer in Hp2. rewrite Hi3 in Hp2. destruct Hp2 as [(? & ? & Hp2)|Hp2]; [injection Hp2 as _ <- _; reflexivity|discriminate].
        * exists bx, bx2. auto.
  Qed.
  (** no action of the app service in the processing of the last event *)
  Lemma take_last t' b1 b2 c its1 v a' e m' : isend f i = true -> b = b1 ++ b2 -> fst (scan t' (a ++ (t, op) :: b1)) = (FCall c, its1) :: v ->
    performs c a' e m' -> mentions p a' -> False.
  Proof.
    intros Hi4 Hbb Hsc Hp Ha.
    destruct (in_take _ _ _ _ _ _ _ _ _ Hbb Hsc Hp Ha) as (-> & -> & -> & en & ac & st & b0' & bx & u & i0 & i1' & Hb1 & Hb0 & Hbx & Hc).
    assert (HK : In (OCall (KAct en ac st (ELife (lev f i)) m)) its).
    { destruct Hs as (_ & _ & Hsb). rewrite Hbb, Hb1, <- app_assoc in Hsb. simpl in Hsb.
      destruct (two_items t b0' _ _ i1' Hb0 [] its Hsb eq_refl) as (j & ->). apply in_or_app. right. left. reflexivity. }
    destruct (take_kact _ _ _ _ HK) as [Hlt _]. exact (end_not i Hi4 Hlt).
  Qed.

  Record core_at (x : option exn) (X bC : trace) (itsC : list obs) (X' : trace) : Prop := {
    ca_split : b = X ++ (t, OCall (core i)) :: bC ++ (t, OBack (core i) x) :: X';
    ca_span : span t T (a ++ (t, op) :: X) (OCall (core i)) bC itsC (OBack (core i) x) (X' ++ (t, z) :: d);
    ca_items : core_items i x itsC;
    ca_hand : forall y, x = Some y -> exists XH bH itsH XH', hand_at y XH bH itsH XH';
    ca_mark : forall t' b1 o b2 c its1 v a' e m', b = b1 ++ (t', o) :: b2 -> fst (scan t' (a ++ (t, op) :: b1)) = (FCall c, its1) :: v ->
      closes o = false -> performs c a' e m' -> mentions p a' -> t' = t /\
      ((wraps i = true /\ c = outer i /\ (o = OCall (core i) \/ exists y, x = Some y /\ o = OCall (hand i y))) \/
       (c = core i /\ a' = own_act i /\ exists c1 c2 j, b1 = X ++ (t, OCall (core i)) :: c1 /\
        bC = c1 ++ (t, o) :: c2 /\ fst (scan t c1) = [(FRoot, its1)] /\ itsC = its1 ++ o :: j)) }.
  Lemma core_exists : inplan f (S i) -> exists x X bC itsC X', core_at x X bC itsC X'.
  Proof.
    intro Hi4. destruct (take_core Hi4) as (x & X & bC & itsC & X' & Hsplit & Hspan & Hitems & Hhand & Hloc). exists x, X, bC, itsC, X'.
    split; auto. intros t' b1 o b2 c its1 v a' e m' Hbb Hsc Hcl Hp Ha.
    destruct (Hloc _ _ _ _ _ _ _ _ _ Hbb Hsc Hp Ha) as [-> Hc]. split; [reflexivity|].
    destruct Hc as [(Hc & Hown & c1 & c2 & Hb1 & HbC & Hc1)|(Hi3 & Hc & Hex)]; [right|left; split; [exact Hi3|split; [exact Hc|eapply Hex; eauto]]].
    split; [exact Hc|]. split; [exact Hown|]. exists c1.
    assert (Hc2 : (t, o) :: b2 = c2 ++ (t, OBack (core i) x) :: X').
    { rewrite Hbb, Hb1, HbC in Hsplit. rewrite <- !app_assoc in Hsplit. apply app_inv_head in Hsplit. simpl in Hsplit. injection Hsplit as Hsplit.
      apply app_inv_head in Hsplit. exact Hsplit. }
    destruct c2 as [|y c2]; simpl in Hc2; [injection Hc2 as -> _; discriminate|]. injection Hc2 as <- _.
    destruct Hspan as (_ & _ & HsC). rewrite HbC in HsC. destruct (two_items t c1 o c2 its1 Hc1 [] itsC HsC Hcl) as (j & Hj).
    exists c2, j. auto.
  Qed.
  Lemma take_is_worker : t = wkr.
  Proof.
    assert (Hop : opened t (a ++ [(t, op)]) (FTake q pr (Some (ELife (lev f i), m))) []).
    { unfold opened. rewrite (stack_at t a op [] _ [] [] eq_refl eq_refl). left. reflexivity. }
    assert (HT3 : T = (a ++ [(t, op)]) ++ b ++ (t, z) :: d) by (destruct Hs as (H & _); rewrite H, <- app_assoc; reflexivity).
    destruct (take_worker E w0 w H0 Hr m (ab_queue _ _ _ Hb) (ab_thread _ _ _ Hb) _ _ _ _ _ _ HT3 Hop) as [Ht _]. exact Ht.
  Qed.
  (** the handler: in the bracket of the processing only if the action threw *)
  Lemma hand_frame t' b1 b2 its1 v e m' y : b = b1 ++ b2 -> fst (scan t' (a ++ (t, op) :: b1)) = (FCall (KHandler (HApp p) e m' y), its1) :: v ->
    t' = t /\ e = ELife (lev f i) /\ m' = m /\ inplan f (S i) /\ forall x X bC itsC X', core_at x X bC itsC X' -> x = Some y /\
      forall XH bH itsH XH', hand_at y XH bH itsH XH' -> exists c1 c2, b1 = XH ++ (t, OCall (hand i y)) :: c1 /\ bH = c1 ++ c2 /\
        b2 = c2 ++ (t, OBack (hand i y) None) :: XH' /\ fst (scan t c1) = [(FRoot, its1)].
  Proof.
    intros Hbb Hsc.
    assert (HT : T = (a ++ (t, op) :: b1) ++ b2 ++ (t, z) :: d).
    { destruct Hs as (HT & _). rewrite HT, Hbb. repeat (rewrite <- !app_assoc; simpl). reflexivity. }
    assert (Hpar : forall h0 r0, T = h0 ++ (t', OCall (KHandler (HApp p) e m' y)) :: r0 -> exists c0 a' its0 v0, fst (scan t' h0) = (FCall c0, its0) :: v0 /\
      performs c0 (AHandle a' (HApp p)) e m').
    { intros h0 r0 HT0. destruct (placed_at E w0 w H0 Hr _ _ _ _ HT0 eq_refl) as (k & its0 & v0 & Hsc0 & Hm).
      destruct (may_handler E p _ _ _ _ _ Hm) as (c0 & a' & -> & Hp). eauto 8. }
    destruct (top_bracket t' _ _ _ _ Hsc ltac:(discriminate)) as (a0 & op0 & y1 & Ha0 & Hop0 & Hy1 & _).
    destruct op0; try discriminate. injection Hop0 as ->.
    assert (HT0 : T = a0 ++ (t', OCall (KHandler (HApp p) e m' y)) :: (y1 ++ b2 ++ (t, z) :: d)) by (rewrite HT, Ha0, <- app_assoc; reflexivity).
    destruct (Hpar _ _ HT0) as (c0 & a' & its0 & v0 & Hsc0 & Hp).
    destruct (act_in_take E w0 p H0 Hb w Hr HQ t' _ _ c0 its0 v0 _ e m' HT0 Hsc0 Hp) as (-> & Ht' & _); [right; reflexivity|].
    rewrite <- take_is_worker in Ht'. subst t'. split; [reflexivity|].
    (* opened inside the bracket *)
    assert (Hin : exists x0, a0 = a ++ (t, op) :: x0 /\ b1 = x0 ++ (t, OCall (KHandler (HApp p) e m y)) :: y1).
    { assert (Hb1 : exists u1 j1, fst (scan t b1) = u1 ++ [(FRoot, j1)]).
      { destruct Hs as (_ & _ & Hsb). rewrite Hbb in Hsb. destruct (root_kept_t _ _ _ [] _ Hsb) as (u1 & j1 & j2 & Hj & _). eauto. }
      destruct Hb1 as (u1 & j1 & Hb1).
      apply app_eq_app in Ha0. destruct Ha0 as (l & [[L1 L2]|[L1 L2]]).
      - exfalso. destruct l as [|y0 l]; [discriminate|]. injection L2 as <- L2. rewrite L2 in Hy1.
        assert (Hl : exists v1 i1, fst (scan t l) = v1 ++ [(FRoot, i1)]).
        { destruct (root_kept_t _ _ _ [] _ Hy1) as (v1 & i1 & i2 & Hl & _). eauto. }
        destruct Hl as (v1 & i1 & Hl). rewrite (stack_at t l op b1 (FTake q pr (Some (ELife (lev f i), m))) u1 j1 eq_refl Hb1), Hl in Hy1.
        apply (f_equal (@List.length frame)) in Hy1. rewrite app_length in Hy1. simpl in Hy1.
        destruct v1 as [|[k1 i3] v1]; simpl in Hy1; [lia|]. rewrite app_length in Hy1. simpl in Hy1. lia.
      - destruct l as [|y0 l]; simpl in L2; [discriminate|]. injection L2 as <- L2. exists l. auto. }
    destruct Hin as (x0 & -> & Hx0).
    assert (Hbb0 : b = x0 ++ (t, OCall (KHandler (HApp p) e m y)) :: (y1 ++ b2)) by (rewrite Hbb, Hx0, <- app_assoc; reflexivity).
    assert (Hmen : mentions p (AHandle a' (HApp p))) by (right; reflexivity).
    destruct (in_take _ _ _ _ _ _ _ _ _ Hbb0 Hsc0 Hp Hmen) as (_ & _ & -> & _). split; [reflexivity|]. split; [reflexivity|].
    assert (Hlt : inplan f (S i)).
    { destruct (upto_dec i Hi) as [Hi4|]; [destruct (take_last _ _ _ _ _ _ _ _ _ Hi4 Hbb0 Hsc0 Hp Hmen)|assumption]. }
    split; [exact Hlt|]. intros x X bC itsC X' HC.
    destruct (ca_mark _ _ _ _ _ HC _ _ _ _ _ _ _ _ _ _ Hbb0 Hsc0 eq_refl Hp Hmen) as [_ [(Hw & Hc0 & Hx)|(_ & Hown & _)]];
      [|destruct (own_handle i _ _ (eq_sym Hown))].
    destruct Hx as [Hx|(y' & Hx & Hy)]; [unfold core in Hx; rewrite Hw in Hx; discriminate|]. injection Hy as <-.
    split; [exact Hx|]. intros XH bH itsH XH' HH. rewrite Hc0 in Hsc0. pose proof (ha_once _ _ _ _ _ HH _ _ _ _ Hbb0 Hsc0) as ->.
    destruct (inside_prefix t T _ _ bH itsH _ _ y1 (b2 ++ (t, z) :: d) [] its1 (ha_span _ _ _ _ _ HH)) as (c2 & HbH & Hrest).
    { rewrite HT, Hx0. repeat (rewrite <- !app_assoc; simpl). reflexivity. }
    { exact Hy1. }
    exists y1, c2. split; [exact Hx0|]. split; [exact HbH|]. split; [|exact Hy1].
    rewrite app_comm_cons, app_assoc in Hrest. apply app_inv_tail in Hrest. exact Hrest.
  Qed.

  (** *** the events the actions send *)
  Definition fire_pre (pr' : pid) (n : nat * nat * nat) (l : lifeev) : list obs :=
    [R (RdStarted m true); R (RdStarted m true); R (RdEnded m false); R (RdLook (s_queue (strat E (strat_of E m))) (fst n)); R (RdSize (s_queue (strat E (strat_of E m))) (fst n) (snd n)); OWr (WrGot pr');
       R (RdPay (ELife l) None); OWr (WrPair pr' (ELife l) m)].
  Definition fire_post : list obs := [OSubmit (exec_of E m) {| tk_strat := strat_of E m; tk_mach := m |}].
  Definition no_offer (l : list obs) : Prop := forall pr1 e1 m1 e2 m2, ~ In (OOffer q pr1 e1 m1 e2 m2) l.
  Definition one_offer (l : lifeev) (its : list obs) : Prop := exists j1 pr' j2,
    its = j1 ++ OOffer q pr' (ELife l) m (ELife l) m :: j2 /\ no_offer j1 /\ no_offer j2.
  Lemma subs_no_offer up l : no_offer (flat_map (fun j => called (KSub up p j) None) l).
  Proof. intros pr1 e1 m1 e2 m2 Hin. apply in_flat_map in Hin. destruct Hin as (x & _ & [Hin|[Hin|[]]]); discriminate. Qed.
  Lemma fire_offer l1 pr' n l l2 : no_offer l1 -> no_offer l2 -> one_offer l (l1 ++ fire_out E p pr' n l ++ l2).
  Proof.
    intros N1 N2. exists (l1 ++ fire_pre pr' n l), pr', (fire_post ++ l2). split; [rewrite <- !app_assoc; reflexivity|].
    split; intros pr1 e1 m1 e2 m2 Hin.
    - apply in_app_or in Hin. destruct Hin as [Hin|Hin]; [exact (N1 _ _ _ _ _ Hin)|]. repeat (destruct Hin as [Hin|Hin]; [discriminate|]). exact Hin.
    - destruct Hin as [Hin|Hin]; [discriminate|exact (N2 _ _ _ _ _ Hin)].
  Qed.
  Ltac noo := intros ? ? ? ? ?; try match goal with up : bool |- context [if ?up then STARTING else STOPPING] => destruct up end; discriminate.
  Lemma cons_no_offer o l : (forall pr1 e1 m1 e2 m2, o <> OOffer q pr1 e1 m1 e2 m2) -> no_offer l -> no_offer (o :: l).
  Proof. intros Ho' Hl pr1 e1 m1 e2 m2 [Hin|Hin]; [exact (Ho' _ _ _ _ _ Hin)|exact (Hl _ _ _ _ _ Hin)]. Qed.
  Lemma nil_no_offer : no_offer [].
  Proof. intros pr1 e1 m1 e2 m2 []. Qed.
  Lemma app_no_offer l1 l2 : no_offer l1 -> no_offer l2 -> no_offer (l1 ++ l2).
  Proof. intros H1 H2 pr1 e1 m1 e2 m2 Hin. apply in_app_or in Hin. destruct Hin as [Hin|Hin]; [exact (H1 _ _ _ _ _ Hin)|exact (H2 _ _ _ _ _ Hin)]. Qed.
  Lemma opening_no_offer up : no_offer (opening E p up).
  Proof. apply cons_no_offer; [noo|]. apply cons_no_offer; [discriminate|apply nil_no_offer]. Qed.
  (** an event is sent in every step but the one to STARTED; in the last but one if the app ends the system *)
  Definition stays (j : nat) : bool := match f with NoStart => false | Again => per false true false true j | _ => Nat.eqb j 1 end.
  Definition sends : Prop := stays i = false /\ inplan f (S i) /\ (tostop f i = true -> ap_exit (apps E p) = true).
  Lemma lev_next : inplan f (S i) -> stays i = false -> lev f (S i) = if bad i then LError else if wraps i then LComplete else LStop.
  Proof. clear. unfold lev, inplan, stays, bad, wraps, lastk. case f; [destruct i as [|[|[|[|]]]]..|by_per i]; simpl; intros; try discriminate; try lia; reflexivity. Qed.
  Lemma bad_sends : bad i = true -> sends.
  Proof. clear. unfold sends, inplan, tostop, stays, bad, wraps, lastk. case f; [destruct i as [|[|[|[|]]]]..|]; simpl; intros; try discriminate; repeat split; try lia; discriminate. Qed.
  Lemma core_offers x itsC : core_items i x itsC -> inplan f (S i) -> bad i = false ->
    (sends /\ one_offer (lev f (S i)) itsC) \/ (~ sends /\ no_offer itsC).
  Proof.
    intros Hc Hi4 Hbad. destruct (wraps i) eqn:Hw.
    - assert (Hl : lev f (S i) = LComplete \/ stays i = true) by (destruct (stays i) eqn:Hre; [auto|left; rewrite (lev_next Hi4 Hre), Hbad, Hw; reflexivity]).
      assert (Hk : (stays i = true /\ itsC = []) \/ (stays i = false /\ exists up, round_items up x itsC /\ fails f up = false)).
      { clear - Hc Hi4 Hbad Hw. revert Hc Hi4 Hbad Hw. unfold core_items, round_items, bad, wraps, stays, fails, inplan, lastk.
        case f; [destruct i as [|[|[|[|]]]]..|by_per i]; simpl; intros Hc Hi4 Hbad Hw; try discriminate; try lia;
        first [left; split; [reflexivity|exact (proj2 Hc)]|right; split; [reflexivity|]; exists true; split; [exact Hc|reflexivity]
          |right; split; [reflexivity|]; exists false; split; [exact Hc|reflexivity]]. }
      destruct Hk as [[Hre ->]|[Hre (up & Hrd & Hf)]].
      + right. split; [intros (H & _); congruence|apply nil_no_offer].
      + left. destruct Hl as [->|]; [|congruence]. split.
        * split; [exact Hre|]. split; [exact Hi4|]. intro Hl. rewrite (wraps_not i Hl) in Hw. discriminate.
        * unfold round_items in Hrd. rewrite Hf in Hrd. destruct Hrd as (_ & pr' & n & ->).
          rewrite app_assoc, <- (app_nil_r (fire_out _ _ _ _ _)). apply fire_offer; [|apply nil_no_offer].
          apply app_no_offer; [apply opening_no_offer|apply subs_no_offer].
    - destruct (own_last i Hw Hi4) as (_ & Hl & _). apply (items_stopped i x itsC Hl) in Hc. destruct Hc as [_ Hc].
      destruct (ap_exit (apps E p)) eqn:Hex.
      + left. assert (Hre : stays i = false).
        { clear - Hl HQ Hex. destruct (stays i) eqn:Hre; [exfalso|reflexivity]. pose proof (aq_stop _ _ _ _ HQ) as Hpl. revert Hl Hre Hpl. unfold stays, tostop, stop_plan, lastk.
          case f; [destruct i as [|[|[|[|]]]]..|]; simpl; intros; try discriminate; try lia; congruence. }
        split; [split; [exact Hre|]; split; [exact Hi4|intros _; first [exact Hex|reflexivity]]|].
        destruct Hc as (pr' & n & ->). rewrite (lev_next Hi4 Hre), Hbad, Hw.
        change (log_line E p STOPPED :: fire_out E p pr' n LStop ++ [OWr (WrLatch p)]) with ([log_line E p STOPPED] ++ fire_out E p pr' n LStop ++ [OWr (WrLatch p)]).
        apply fire_offer; (apply cons_no_offer; [noo|apply nil_no_offer]).
      + right. split; [intros (_ & _ & H); specialize (H Hl); congruence|]. subst itsC. apply cons_no_offer; [noo|apply nil_no_offer].
  Qed.
  Lemma bad_offers x itsC : core_items i x itsC -> bad i = true -> no_offer itsC.
  Proof.
    intros Hc Hbad. destruct (items_bad i x itsC Hbad Hc) as (up & y & -> & Hf & Hrd). unfold round_items, round in Hrd. rewrite Hf in Hrd.
    destruct Hrd as (marks & (l1 & j & l2 & v & _ & _ & _ & ->) & ->).
    apply app_no_offer; [apply opening_no_offer|]. apply app_no_offer; [apply subs_no_offer|]. apply cons_no_offer; [noo|]. apply cons_no_offer; [discriminate|apply nil_no_offer].
  Qed.
  Lemma hand_offers itsH : handled_items E p itsH -> bad i = true -> one_offer (lev f (S i)) itsH.
  Proof.
    intros (st & pr' & n & ->) Hbad. destruct (bad_sends Hbad) as (Hre & Hi4 & _). rewrite (lev_next Hi4 Hre), Hbad.
    change (one_offer LError ([R (RdCur m st); OLog ("Error while " ++ ap_name (apps E p) ++ " is in [" ++ show_state E st ++ "] state")%string] ++ fire_out E p pr' n LError)).
    rewrite <- (app_nil_r (fire_out _ _ _ _ _)). apply fire_offer; [|apply nil_no_offer]. apply cons_no_offer; [noo|].
    apply cons_no_offer; [noo|apply nil_no_offer].
  Qed.
  (** one offer among the items of a bracket: where it is *)
  Lemma offer_place a' c' bC itsC zz dd l : span t T a' c' bC itsC zz dd -> one_offer l itsC ->
    exists c0 d0 pr', bC = c0 ++ (t, OOffer q pr' (ELife l) m (ELife l) m) :: d0 /\
      forall c1 pr1 e1 m1 e2 m2 c2 its1, bC = c1 ++ (t, OOffer q pr1 e1 m1 e2 m2) :: c2 -> fst (scan t c1) = [(FRoot, its1)] ->
       c1 = c0 /\ e1 = ELife l /\ m1 = m /\ e2 = ELife l /\ m2 = m.
  Proof.
    intros Hsp (j1 & pr' & j2 & Hits & N1 & N2).
    destruct (item_moment w _ _ _ _ _ _ _ _ _ _ Hsp Hits eq_refl) as (c0 & d0 & Hc0 & Hs0 & _).
    exists c0, d0, pr'. split; [exact Hc0|]. intros c1 pr1 e1 m1 e2 m2 c2 its1 HbC Hsc1. destruct Hsp as (_ & _ & HsC).
    pose proof HsC as HsC'. rewrite HbC in HsC'. destruct (two_items t c1 _ c2 its1 Hsc1 [] itsC HsC' eq_refl) as (j & Hj).
    assert (Hu : its1 = j1 /\ OOffer q pr1 e1 m1 e2 m2 = OOffer q pr' (ELife l) m (ELife l) m).
    { rewrite Hj in Hits. apply app_eq_app in Hits. destruct Hits as (ll & [[L1 L2]|[L1 L2]]); destruct ll as [|y ll].
      - rewrite app_nil_r in L1. injection L2; intros; subst; auto.
      - injection L2 as <- L2. exfalso. eapply (N2 pr1). rewrite L2. apply in_or_app. right. left. reflexivity.
      - rewrite app_nil_r in L1. simpl in L2. injection L2; intros; subst; auto.
      - injection L2 as <- L2. exfalso. eapply (N1 pr1). rewrite L1. apply in_or_app. right. left. reflexivity. }
    destruct Hu as [Hu1 Hu2]. rewrite Hu2 in HbC.
    destruct (same_place t bC c1 c0 _ c2 d0 its1 j1 [] itsC j1 j2 HbC Hc0 Hsc1 Hs0 HsC eq_refl Hits (N1 _ _ _ _ _) (N2 _ _ _ _ _)) as [-> _].
    split; [reflexivity|]. injection Hu2; intros; subst; auto 10.
  Qed.
  Lemma take_offers : exists X0, (sends -> exists pr' b2, b = X0 ++ (t, OOffer q pr' (ELife (lev f (S i))) m (ELife (lev f (S i))) m) :: b2) /\
    forall t' b1 b2 c its1 v e m' pr1 e1 m1 e2 m2,
    b = b1 ++ (t', OOffer q pr1 e1 m1 e2 m2) :: b2 -> fst (scan t' (a ++ (t, op) :: b1)) = (FCall c, its1) :: v ->
    ours p c e m' -> sends /\ b1 = X0 /\ e1 = ELife (lev f (S i)) /\ m1 = m /\ e2 = ELife (lev f (S i)) /\ m2 = m.
  Proof.
    destruct (upto_dec i Hi) as [Hi4|Hi4].
    { exists []. split; [intros (_ & ? & _); destruct (end_not i Hi4); assumption|]. intros t' b1 b2 c its1 v e m' pr1 e1 m1 e2 m2 Hbb Hsc [(a' & Hp & Ha)|(y & ->)].
      - destruct (take_last _ _ _ _ _ _ _ _ _ Hi4 Hbb Hsc Hp Ha).
      - destruct (hand_frame _ _ _ _ _ _ _ _ Hbb Hsc) as (_ & _ & _ & Hlt & _). destruct (end_not i Hi4 Hlt). }
    assert (Hlt : inplan f (S i)) by exact Hi4. destruct (core_exists Hlt) as (x & X & bC & itsC & X' & HC).
    destruct (bad i) eqn:Hbad.
    - destruct (items_bad i x itsC Hbad (ca_items _ _ _ _ _ HC)) as (up & y & Hx & _ & _).
      destruct (ca_hand _ _ _ _ _ HC y Hx) as (XH & bH & itsH & XH' & HH).
      pose proof (bad_offers _ _ (ca_items _ _ _ _ _ HC) Hbad) as Hno. pose proof (hand_offers _ (ha_items _ _ _ _ _ HH) Hbad) as Hone.
      destruct (offer_place _ _ _ _ _ _ _ (ha_span _ _ _ _ _ HH) Hone) as (c0 & d0 & pr' & Hc0 & Hpl).
      exists (XH ++ (t, OCall (hand i y)) :: c0). split.
      { intros _. exists pr', (d0 ++ (t, OBack (hand i y) None) :: XH'). rewrite (ha_split _ _ _ _ _ HH), Hc0.
        repeat (rewrite <- !app_assoc; simpl). reflexivity. }
      intros t' b1 b2 c its1 v e m' pr1 e1 m1 e2 m2 Hbb Hsc [(a' & Hp & Ha)|(y' & ->)].
      + exfalso. destruct (ca_mark _ _ _ _ _ HC _ _ _ _ _ _ _ _ _ _ Hbb Hsc eq_refl Hp Ha) as [_ [(_ & _ & [Hx'|(? & _ & Hx')])|(_ & _ & c1 & c2 & j & Hb1 & HbC & Hsc1 & Hj)]]; try discriminate.
        eapply Hno. rewrite Hj. apply in_or_app. right. left. reflexivity.
      + split; [exact (bad_sends Hbad)|].
        destruct (hand_frame _ _ _ _ _ _ _ _ Hbb Hsc) as (-> & _ & _ & _ & Hfr). destruct (Hfr _ _ _ _ _ HC) as [Hx' Hfr2].
        rewrite Hx in Hx'. injection Hx' as <-. destruct (Hfr2 _ _ _ _ HH) as (c1 & c2 & Hb1 & HbH & Hb2 & Hsc1).
        destruct c2 as [|o2 c2]; [discriminate|]. injection Hb2 as <- _.
        destruct (Hpl _ _ _ _ _ _ _ _ HbH Hsc1) as (-> & Hrest). split; [exact Hb1|exact Hrest].
    - pose proof (items_good i x itsC Hbad Hlt (ca_items _ _ _ _ _ HC)) as Hx.
      assert (Hnoh : forall t' b1 b2 its1 v e m' y, b = b1 ++ b2 -> fst (scan t' (a ++ (t, op) :: b1)) = (FCall (KHandler (HApp p) e m' y), its1) :: v -> False).
      { intros t' b1 b2 its1 v e m' y Hbb Hsc. destruct (hand_frame _ _ _ _ _ _ _ _ Hbb Hsc) as (_ & _ & _ & _ & Hfr).
        destruct (Hfr _ _ _ _ _ HC) as [Hx' _]. congruence. }
      destruct (core_offers x itsC (ca_items _ _ _ _ _ HC) Hlt Hbad) as [[Hse Hone]|[Hse Hno]].
      + destruct (offer_place _ _ _ _ _ _ _ (ca_span _ _ _ _ _ HC) Hone) as (c0 & d0 & pr' & Hc0 & Hpl).
        exists (X ++ (t, OCall (core i)) :: c0). split.
        { intros _. exists pr', (d0 ++ (t, OBack (core i) x) :: X'). rewrite (ca_split _ _ _ _ _ HC), Hc0.
          repeat (rewrite <- !app_assoc; simpl). reflexivity. }
        intros t' b1 b2 c its1 v e m' pr1 e1 m1 e2 m2 Hbb Hsc [(a' & Hp & Ha)|(y & ->)]; [|destruct (Hnoh _ _ _ _ _ _ _ _ Hbb Hsc)].
        split; [exact Hse|].
        destruct (ca_mark _ _ _ _ _ HC _ _ _ _ _ _ _ _ _ _ Hbb Hsc eq_refl Hp Ha) as [_ [(_ & _ & [Hx'|(? & _ & Hx')])|(_ & _ & c1 & c2 & j & Hb1 & HbC & Hsc1 & Hj)]]; try discriminate.
        destruct (Hpl _ _ _ _ _ _ _ _ HbC Hsc1) as (-> & Hrest). split; [exact Hb1|exact Hrest].
      + exists []. split; [intro H; destruct (Hse H)|].
        intros t' b1 b2 c its1 v e m' pr1 e1 m1 e2 m2 Hbb Hsc [(a' & Hp & Ha)|(y & ->)]; [|destruct (Hnoh _ _ _ _ _ _ _ _ Hbb Hsc)]. exfalso.
        destruct (ca_mark _ _ _ _ _ HC _ _ _ _ _ _ _ _ _ _ Hbb Hsc eq_refl Hp Ha) as [_ [(_ & _ & [Hx'|(? & _ & Hx')])|(_ & _ & c1 & c2 & j & Hb1 & HbC & Hsc1 & Hj)]]; try discriminate.
        eapply Hno. rewrite Hj. apply in_or_app. right. left. reflexivity.
  Qed.

  (** *** the subsystems *)
  Lemma sub_open t' b1 up j b2 : b = b1 ++ (t', OCall (KSub up p j)) :: b2 -> inplan f (S i) -> forall x X bC itsC X', core_at x X bC itsC X' ->
    t' = t /\ exists c1 c2 i1, b1 = X ++ (t, OCall (core i)) :: c1 /\ bC = c1 ++ (t, OCall (KSub up p j)) :: c2 /\ fst (scan t c1) = [(FRoot, i1)].
  Proof.
    intros Hbb Hlt x X bC itsC X' HC. assert (HT : T = (a ++ (t, op) :: b1) ++ (t', OCall (KSub up p j)) :: b2 ++ (t, z) :: d).
    { destruct Hs as (HT & _). rewrite HT, Hbb. repeat (rewrite <- !app_assoc; simpl). reflexivity. }
    destruct (placed_at E w0 w H0 Hr _ _ _ _ HT eq_refl) as (k & its1 & v & Hsc & Hm).
    destruct (may_sub E p _ _ _ _ Hm) as (c & a' & e & m' & -> & Hp & Ha').
    assert (Hmen : mentions p a') by (destruct Ha' as [->| ->]; reflexivity).
    destruct (ca_mark _ _ _ _ _ HC _ _ _ _ _ _ _ _ _ _ Hbb Hsc eq_refl Hp Hmen) as [-> [(Hi3 & _ & [Hx|(? & _ & Hx)])|(_ & Hown & c1 & c2 & jj & H1 & H2 & H3 & _)]].
    - unfold core in Hx. rewrite Hi3 in Hx. discriminate.
    - discriminate.
    - split; [reflexivity|]. exists c1, c2, its1. auto.
  Qed.
  (** a callback that returned in the bracket, if made by the app service, was called there *)
  Lemma sub_back t' b1 up j y b2 : b = b1 ++ (t', OBack (KSub up p j) y) :: b2 ->
    t' = t /\ exists x1 x2 its2, b1 = x1 ++ (t, OCall (KSub up p j)) :: x2 /\ fst (scan t x2) = [(FRoot, its2)].
  Proof.
    intros Hbb. assert (HT : T = (a ++ (t, op) :: b1) ++ (t', OBack (KSub up p j) y) :: b2 ++ (t, z) :: d).
    { destruct Hs as (HT & _). rewrite HT, Hbb. repeat (rewrite <- !app_assoc; simpl). reflexivity. }
    destruct (back_inv E w0 H0 w Hr _ _ _ _ _ HT) as (a0 & b0 & its0 & Hh & Hsp).
    assert (HT2 : T = a0 ++ (t', OCall (KSub up p j)) :: (b0 ++ (t', OBack (KSub up p j) y) :: b2 ++ (t, z) :: d)) by (destruct Hsp as (H & _); exact H).
    destruct (placed_at E w0 w H0 Hr _ _ _ _ HT2 eq_refl) as (k & its1 & v & Hsc & Hm).
    destruct (may_sub E p _ _ _ _ Hm) as (c & a' & e & m' & -> & Hp & Ha').
    assert (Hmen : mentions p a') by (destruct Ha' as [->| ->]; reflexivity).
    destruct (act_in_take E w0 p H0 Hb w Hr HQ t' _ _ c its1 v a' e m' HT2 Hsc Hp Hmen) as (_ & Ht' & _).
    rewrite <- take_is_worker in Ht'. subst t'. split; [reflexivity|].
    assert (Hsb0 : fst (scan t b0) = [(FRoot, its0)]) by (destruct Hsp as (_ & _ & H); exact H).
    apply app_eq_app in Hh. destruct Hh as (l & [[L1 L2]|[L1 L2]]).
    - (* opened before the take: impossible *)
      exfalso. destruct l as [|y0 l]; [discriminate|]. injection L2 as <- L2.
      assert (Hb1 : exists u1 j1, fst (scan t b1) = u1 ++ [(FRoot, j1)]).
      { destruct Hs as (_ & _ & Hsb). rewrite Hbb in Hsb. destruct (root_kept_t _ _ _ [] _ Hsb) as (u1 & j1 & j2 & Hj & _). eauto. }
      destruct Hb1 as (u1 & j1 & Hb1). rewrite L2 in Hsb0.
      assert (Hl : exists v1 i1, fst (scan t l) = v1 ++ [(FRoot, i1)]).
      { destruct (root_kept_t _ _ _ [] _ Hsb0) as (v1 & i1 & i2 & Hl & _). eauto. }
      destruct Hl as (v1 & i1 & Hl). rewrite (stack_at t l op b1 (FTake q pr (Some (ELife (lev f i), m))) u1 j1 eq_refl Hb1), Hl in Hsb0.
      apply (f_equal (@List.length frame)) in Hsb0. rewrite app_length in Hsb0. simpl in Hsb0.
      destruct v1 as [|[k1 i3] v1]; simpl in Hsb0; [lia|]. rewrite app_length in Hsb0. simpl in Hsb0. lia.
    - destruct l as [|y0 l]; simpl in L2.
      + discriminate.
      + injection L2 as <- L2. exists l, b0, its0. auto.
  Qed.
  Lemma core_not_sub x : inplan f (S i) -> is_sub p (OCall (core i)) = false /\ is_sub p (OBack (core i) x) = false.
  Proof. intro. unfold core, outer. destruct (wraps i); split; reflexivity. Qed.
  Lemma sub_mark t' b1 o b2 : b = b1 ++ (t', o) :: b2 -> is_sub p o = true -> inplan f (S i) -> forall x X bC itsC X', core_at x X bC itsC X' ->
    t' = t /\ exists c1 c2, b1 = X ++ (t, OCall (core i)) :: c1 /\ bC = c1 ++ (t, o) :: c2 /\
      if closes o then exists k j1 j2, fst (scan t c1) = [(k, j1); (FRoot, j2)] else exists j, fst (scan t c1) = [(FRoot, j)].
  Proof.
    intros Hbb Hsub Hlt x X bC itsC X' HC.
    assert (Ho' : exists up j, o = OCall (KSub up p j) \/ exists y, o = OBack (KSub up p j) y).
    { destruct o as [| |c|c y| | | | | | | | | | | |]; try discriminate; destruct c; try discriminate; simpl in Hsub; apply Nat.eqb_eq in Hsub; subst; eauto. }
    destruct Ho' as (up & j & [->|[y ->]]).
    - destruct (sub_open _ _ _ _ _ Hbb Hlt _ _ _ _ _ HC) as (-> & c1 & c2 & i1 & H1 & H2 & H3). split; [reflexivity|]. exists c1, c2. simpl. eauto.
    - destruct (sub_back _ _ _ _ _ _ Hbb) as (-> & x1 & x2 & its2 & Hx & Hsx). split; [reflexivity|].
      destruct (sub_open t x1 up j (x2 ++ (t, OBack (KSub up p j) y) :: b2)) with (x := x) (X := X) (bC := bC) (itsC := itsC) (X' := X')
        as (_ & c1 & c2 & i1 & H1 & H2 & H3); [rewrite Hbb, Hx, <- app_assoc; reflexivity|exact Hlt|exact HC|].
      assert (Hst2 : fst (scan t (c1 ++ (t, OCall (KSub up p j)) :: x2)) = [(FCall (KSub up p j), its2)] ++ [(FRoot, i1 ++ [OCall (KSub up p j)])]).
      { rewrite (stack_at t c1 (OCall (KSub up p j)) x2 (FCall (KSub up p j)) [] its2 eq_refl Hsx), H3. reflexivity. }
      destruct (inside_prefix t T _ _ bC itsC _ _ (c1 ++ (t, OCall (KSub up p j)) :: x2) ((t, OBack (KSub up p j) y) :: b2 ++ (t, z) :: d) [(FCall (KSub up p j), its2)] (i1 ++ [OCall (KSub up p j)]) (ca_span _ _ _ _ _ HC))
        as (b2' & HbC & Hrest); [|exact Hst2|].
      { destruct Hs as (HT & _). rewrite HT, Hbb, Hx, H1. repeat (rewrite <- !app_assoc; simpl). reflexivity. }
      destruct b2' as [|y0 b2']; simpl in Hrest.
      + exfalso. injection Hrest as Hk _. unfold core, outer in Hk. destruct (wraps i); discriminate.
      + injection Hrest as <- _. exists (c1 ++ (t, OCall (KSub up p j)) :: x2), b2'.
        split; [rewrite Hx, H1; repeat (rewrite <- !app_assoc; simpl); reflexivity|]. split; [exact HbC|]. simpl. rewrite Hst2. simpl. eauto.
  Qed.
  (** the marks of the round made in step i *)
  Definition round_marks (up : bool) (l : list obs) : Prop := if fails f up then broken_off E p up l else l = subs_marks E p up.
  Definition step_marks (j : nat) (l : list obs) : Prop :=
    match f with
    | Again => per (round_marks true l) (l = []) (round_marks false l) (l = []) j
    | _ => match j with 0 => round_marks true l | 2 => match f with NoStart => l = [] | _ => round_marks false l end | _ => l = [] end
    end.
  Lemma step_last j : isend f j = true -> step_marks j [].
  Proof. unfold step_marks. plan j; intro; try discriminate; reflexivity. Qed.
  Lemma take_subs : step_marks i (filter (is_sub p) (map snd b)).
  Proof.
    assert (Hnil : forall l : trace, (forall b1 t' o b2, l = b1 ++ (t', o) :: b2 -> is_sub p o = true -> False) -> filter (is_sub p) (map snd l) = []).
    { induction l as [|[t' o] l IH]; intro H; [reflexivity|]. simpl. destruct (is_sub p o) eqn:Eo; [destruct (H [] t' o l eq_refl Eo)|].
      apply IH. intros b1 t1 o1 b2 ->. apply (H ((t', o) :: b1) t1 o1 b2 eq_refl). }
    destruct (upto_dec i Hi) as [Hi4|Hi4].
    { rewrite Hnil; [exact (step_last i Hi4)|]. intros b1 t' o b2 Hbb Hsub.
      assert (Hopen : forall t' b1 up j b2, b = b1 ++ (t', OCall (KSub up p j)) :: b2 -> False).
      { clear - H0 Hr Hb HQ Hi Hs Ho Hst Hi4. intros t' b1 up j b2 Hbb.
        assert (HT : T = (a ++ (t, op) :: b1) ++ (t', OCall (KSub up p j)) :: b2 ++ (t, z) :: d).
        { destruct Hs as (HT & _). rewrite HT, Hbb. repeat (rewrite <- !app_assoc; simpl). reflexivity. }
        destruct (placed_at E w0 w H0 Hr _ _ _ _ HT eq_refl) as (k & its1 & v & Hsc & Hm).
        destruct (may_sub E p _ _ _ _ Hm) as (c & a' & e & m' & -> & Hp & Ha').
        assert (Hmen : mentions p a') by (destruct Ha' as [->| ->]; reflexivity).
        exact (take_last _ _ _ _ _ _ _ _ _ Hi4 Hbb Hsc Hp Hmen). }
      assert (Ho' : exists up j, o = OCall (KSub up p j) \/ exists y, o = OBack (KSub up p j) y).
      { destruct o as [| |c|c y| | | | | | | | | | | |]; try discriminate; destruct c; try discriminate; simpl in Hsub; apply Nat.eqb_eq in Hsub; subst; eauto. }
      destruct Ho' as (up & j & [->|[y ->]]); [exact (Hopen _ _ _ _ _ Hbb)|].
      destruct (sub_back _ _ _ _ _ _ Hbb) as (-> & x1 & x2 & its2 & Hx & _). eapply (Hopen t x1 up j). rewrite Hbb, Hx, <- app_assoc. reflexivity. }
    assert (Hlt : inplan f (S i)) by exact Hi4. destruct (core_exists Hlt) as (x & X & bC & itsC & X' & HC). destruct (core_not_sub x Hlt) as [C1 C2].
    assert (Hskip : forall (tx : tid) o (l : trace), is_sub p o = false -> filter (is_sub p) (map snd ((tx, o) :: l)) = filter (is_sub p) (map snd l)).
    { intros tx o l Hx. cbn [map snd filter]. rewrite Hx. reflexivity. }
    rewrite (ca_split _ _ _ _ _ HC), map_app, filter_app, (Hskip _ _ _ C1), map_app, filter_app, (Hskip _ _ _ C2).
    assert (HX : filter (is_sub p) (map snd X) = []).
    { apply Hnil. intros b1 t' o b2 HX Hsub.
      destruct (sub_mark t' b1 o (b2 ++ (t, OCall (core i)) :: bC ++ (t, OBack (core i) x) :: X')) with (x := x) (X := X) (bC := bC) (itsC := itsC) (X' := X')
        as (_ & c1 & c2 & H1 & _); auto.
      - rewrite (ca_split _ _ _ _ _ HC), HX at 1. rewrite <- app_assoc. reflexivity.
      - apply (f_equal (@List.length (tid * obs))) in H1, HX. rewrite app_length in H1, HX. simpl in H1, HX. lia. }
    assert (HX' : filter (is_sub p) (map snd X') = []).
    { apply Hnil. intros b1 t' o b2 HX' Hsub.
      destruct (sub_mark t' (X ++ (t, OCall (core i)) :: bC ++ (t, OBack (core i) x) :: b1) o b2) with (x := x) (X := X) (bC := bC) (itsC := itsC) (X' := X')
        as (_ & c1 & c2 & H1 & H2 & _); auto.
      - rewrite (ca_split _ _ _ _ _ HC), HX' at 1. repeat (rewrite <- !app_assoc; simpl). reflexivity.
      - apply (f_equal (@List.length (tid * obs))) in H1, H2. repeat (rewrite !app_length in H1; simpl in H1). rewrite app_length in H2. simpl in H2. lia. }
    rewrite HX, HX', app_nil_r. simpl.
    assert (HC2 : filter (is_sub p) (map snd bC) = filter (is_sub p) itsC).
    { destruct (ca_span _ _ _ _ _ HC) as (_ & _ & HsC). apply (own_filter (is_sub p) t bC) with (u := []); [|exact HsC].
      intros b1 t' o b2 HbC Hsub.
      destruct (sub_mark t' (X ++ (t, OCall (core i)) :: b1) o (b2 ++ (t, OBack (core i) x) :: X')) with (x := x) (X := X) (bC := bC) (itsC := itsC) (X' := X')
        as (Ht' & c1 & c2 & H1 & H2 & H3); auto.
      - rewrite (ca_split _ _ _ _ _ HC), HbC at 1. repeat (rewrite <- !app_assoc; simpl). reflexivity.
      - apply app_inv_head in H1. injection H1 as <-. auto. }
    rewrite HC2.
    assert (Hall : forall up l, filter (is_sub p) (flat_map (fun j => called (KSub up p j) None) l) = flat_map (fun j => called (KSub up p j) None) l).
    { intros up l. induction l as [|y l IH]; [reflexivity|]. simpl. rewrite Nat.eqb_refl, IH. reflexivity. }
    assert (Hfo : forall pr' n l, filter (is_sub p) (fire_out E p pr' n l) = []) by reflexivity.
    assert (Hrd : forall up, round_items up x itsC -> round_marks up (filter (is_sub p) itsC)).
    { intros up H. unfold round_items, round in H. unfold round_marks. destruct (fails f up).
      - destruct H as (marks & (l1 & j & l2 & y & Hl & Hx & Hy & ->) & ->). exists l1, j, l2, y. split; [exact Hl|]. split; [exact Hy|].
        assert (Hlog : filter (is_sub p) (opening E p up ++ flat_map (fun i0 => called (KSub up p i0) None) l1 ++ called (KSub up p j) (Some y))
          = filter (is_sub p) (flat_map (fun i0 => called (KSub up p i0) None) l1 ++ called (KSub up p j) (Some y))) by (clear; destruct up; reflexivity).
        rewrite Hlog, filter_app, Hall. simpl. rewrite Nat.eqb_refl. reflexivity.
      - destruct H as (_ & pr' & n & ->).
        assert (Hlog : filter (is_sub p) (opening E p up ++ subs_marks E p up ++ fire_out E p pr' n LComplete)
          = filter (is_sub p) (subs_marks E p up ++ fire_out E p pr' n LComplete)) by (clear; destruct up; reflexivity).
        rewrite Hlog, filter_app, Hfo, app_nil_r. apply Hall. }
    assert (Hst' : stopped_items x itsC -> filter (is_sub p) itsC = []).
    { intros [_ H]. destruct (ap_exit (apps E p)); [destruct H as (pr' & n & ->)|subst itsC]; reflexivity. }
    pose proof (ca_items _ _ _ _ _ HC) as Hci. clear - Hci Hrd Hst' Hlt. unfold core_items in Hci. unfold step_marks. revert Hci Hlt Hrd Hst'. unfold inplan, lastk.
    case f; [destruct i as [|[|[|[|]]]]..|by_per i]; intros Hci Hlt Hrd Hst'; try lia; first [exact (Hrd _ Hci)|exact (Hst' Hci)|destruct Hci as [_ ->]; reflexivity].
  Qed.
  (** *** the latch *)
  Lemma take_latch t' b1 b2 : b = b1 ++ (t', OWr (WrLatch p)) :: b2 -> tostop f i = true /\ ap_exit (apps E p) = true.
  Proof.
    intro Hbb. assert (HT : T = (a ++ (t, op) :: b1) ++ (t', OWr (WrLatch p)) :: b2 ++ (t, z) :: d).
    { destruct Hs as (HT & _). rewrite HT, Hbb. repeat (rewrite <- !app_assoc; simpl). reflexivity. }
    destruct (placed_at E w0 w H0 Hr _ _ _ _ HT eq_refl) as (k & its1 & v & Hsc & Hm).
    destruct (may_latch E p _ _ Hm) as (c & e & m' & -> & Hp). assert (Hmen : mentions p (AAppStopped p)) by reflexivity.
    destruct (upto_dec i Hi) as [Hi4|Hi4]; [destruct (take_last _ _ _ _ _ _ _ _ _ Hi4 Hbb Hsc Hp Hmen)|].
    assert (Hlt : inplan f (S i)) by exact Hi4. destruct (core_exists Hlt) as (x & X & bC & itsC & X' & HC).
    destruct (ca_mark _ _ _ _ _ HC _ _ _ _ _ _ _ _ _ _ Hbb Hsc eq_refl Hp Hmen) as [_ [(_ & _ & [Hx|(? & _ & Hx)])|(_ & Hown & c1 & c2 & jj & _ & _ & _ & Hj)]]; try discriminate.
    assert (Hl : tostop f i = true).
    { clear - Hown Hlt. revert Hown Hlt. unfold own_act, tostop, inplan, lastk. case f; [destruct i as [|[|[|[|]]]]..|by_per i]; intros; try discriminate; try lia; reflexivity. }
    split; [exact Hl|]. pose proof (items_stopped i _ _ Hl (ca_items _ _ _ _ _ HC)) as [_ Hci]. destruct (ap_exit (apps E p)); [reflexivity|].
    rewrite Hci in Hj. destruct its1 as [|? [|]]; discriminate.
  Qed.
  Lemma take_latched : tostop f i = true -> ap_exit (apps E p) = true -> exists b1 b2, b = b1 ++ (t, OWr (WrLatch p)) :: b2.
  Proof.
    intros Hl Hex. assert (Hlt : inplan f (S i)) by (apply tostop_upto; exact Hl). destruct (core_exists Hlt) as (x & X & bC & itsC & X' & HC).
    pose proof (items_stopped i _ _ Hl (ca_items _ _ _ _ _ HC)) as [_ Hci]. rewrite Hex in Hci. destruct Hci as (pr' & n & Hci).
    rewrite app_comm_cons in Hci.
    destruct (item_moment w _ _ _ _ _ _ _ _ _ _ (ca_span _ _ _ _ _ HC) Hci eq_refl) as (c0 & d0 & Hc0 & _).
    exists (X ++ (t, OCall (core i)) :: c0), (d0 ++ (t, OBack (core i) x) :: X'). rewrite (ca_split _ _ _ _ _ HC), Hc0.
    repeat (rewrite <- !app_assoc; simpl). reflexivity.
  Qed.
End InTake.
Arguments own_act p f i : clear implicits.
Arguments stays f j : clear implicits.
Arguments sends E p f i : clear implicits.
Arguments round_marks E p f up l : clear implicits.
Arguments step_marks E p f j l : clear implicits.
