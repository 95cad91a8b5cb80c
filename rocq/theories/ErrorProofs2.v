(** * ErrorProofs2.v: the state of an app service between events (proofs for C67) *)
From Verif Require Import Sched MemInv Logic LiveSpec Lang Tree Nodes Marks Place Moments Truth Copies ConfTruth QueueProofs CallProofs FireProofs StartProofs
  TokenProofs ExactProofs FlowProofs2 ReachProofs Live LiveProofs LiveProofs2 AppLive1 AppLive2 AppLive3 AppLive4 AppLive5 ErrorProofs.
From Verif Require Import ErrorSpec.
From Verif Require Import ConfigSpec.

(** a bracket is closed or still open *)
Lemma closed_or_open t a op k : forall r2 b u its, opens op = Some k -> fst (scan t b) = u ++ [(FRoot, its)] ->
  (exists u' its', fst (scan t (b ++ r2)) = u' ++ [(FRoot, its')]) \/
  exists b' its' z d, span t (a ++ (t, op) :: b ++ r2) a op b' its' z d.
Proof.
  induction r2 as [|[t' o] r2 IH]; intros b u its Ho Hs.
  - left. rewrite app_nil_r. eauto.
  - assert (Hnext : forall u' its', fst (scan t (b ++ [(t', o)])) = u' ++ [(FRoot, its')] ->
      (exists u' its', fst (scan t (b ++ (t', o) :: r2)) = u' ++ [(FRoot, its')]) \/
      exists b' its' z d, span t (a ++ (t, op) :: b ++ (t', o) :: r2) a op b' its' z d).
    { intros u' its' Hs'. replace (b ++ (t', o) :: r2) with ((b ++ [(t', o)]) ++ r2) in * by (rewrite <- app_assoc; reflexivity).
      eapply IH; eauto. }
    rewrite Tree.scan_snoc in Hnext. destruct (tid_eq_dec t' t) as [->|N]; [|eapply Hnext; exact Hs].
    destruct (scan t b) as [st ns] eqn:Eb. simpl in Hs. subst st.
    unfold scan1 in Hnext. destruct (closes o) eqn:Ec.
    + destruct u as [|[k1 i1] u].
      * right. exists b, its, o, r2. split; [reflexivity|]. split; [exact Ec|]. rewrite Eb. reflexivity.
      * simpl in Hnext. destruct u as [|[k2 i2] u]; [apply (Hnext [] (its ++ [o]) eq_refl)|apply (Hnext ((k2, i2 ++ [o]) :: u) its eq_refl)].
    + destruct (opens o) as [k1|]; simpl in Hnext.
      * destruct u as [|[k2 i2] u]; [apply (Hnext [(k1, [])] (its ++ [o]) eq_refl)|apply (Hnext ((k1, []) :: (k2, i2 ++ [o]) :: u) its eq_refl)].
      * destruct u as [|[k2 i2] u]; [apply (Hnext [] (its ++ [o]) eq_refl)|apply (Hnext ((k2, i2 ++ [o]) :: u) its eq_refl)].
Qed.

(** the state of the machine of app service p after event l, in state k *)
Definition next_state (p : apid) (m : mid) (k : appst) (l : lifeev) : mstate :=
  match k, l with
  | UNINIT, LStart | STOPPED, LStart => (Some (SApp p STARTING), false)
  | STARTING, LComplete => (Some (SApp p STARTED), false)
  | STARTED, LStop => (Some (SApp p STOPPING), false)
  | STOPPING, LComplete | STARTING, LError | STARTED, LError | STOPPING, LError => (Some (SApp p STOPPED), false)
  | STOPPED, LStop => (Some (SEnd m), true)
  | _, _ => (Some (SApp p k), false)
  end.

Section Open.
  Context (E : env) (w0 : mem) (p : apid) (H0 : init_mem E w0) (Hb : app_built E w0 p).
  Context (w : world) (Hr : reach E w0 w).
  Notation T := (tr (wm w)).
  Notation m := (ap_mach (apps E p)).
  Notation q := (queue_of E m).
  Notation wkr := (worker_of E m).
  Context (HQ : only_through_app E p T).

  (** ** Processing one event *)
  Section Take.
  Context (t : tid) (a : trace) (pr : pid) (l : lifeev) (b : trace) (its : list obs) (z : obs) (d : trace).
  Notation op := (OTake q pr (Some (ELife l, m))).
  Context (Hs : span t T a op b its z d) (Ho : start_over m a).
  Lemma t_event : exists x, ExactSpec.event E m (listener_at w0 m a) (fun en s => acts_at w0 en s a) (life_conf E p m) (handler_of E m)
    (ELife l) (lifeev_name l) (flow_of E m) (mstate_at m a) x (shown its) (mstate_at m (a ++ (t, op) :: b ++ [(t, z)])).
  Proof.
    assert (HT : T = a ++ (t, op) :: b ++ (t, z) :: d) by (destruct Hs as (HT & _); exact HT).
    assert (Hu : undisturbed E w m t a pr (ELife l) b its z d).
    { split; [exact (ab_queue _ _ _ Hb)|]. split; [exact (ab_thread _ _ _ Hb)|]. split; [exact Hs|].
      apply (o_calm E w0 p Hb w HQ a ((t, op) :: b) ((t, z) :: d)); [rewrite HT; reflexivity|exact Ho]. }
    destruct (one_event E w0 w H0 Hr m t a pr _ b its z d _ Hu (o_conf E w0 p H0 Hb w Hr HQ a _ HT)) as (x & h & Hz & (b1 & b2 & Hbb & Hh) & Hev).
    rewrite (o_name E w0 H0 w Hr h ((b2 ++ (t, z) :: d)) l) in Hev
      by (rewrite Hh, HT, Hbb; repeat (rewrite <- !app_assoc; simpl); reflexivity).
    exists x. exact Hev.
  Qed.
  Lemma t_ended c : mstate_at m a = (c, true) -> mstate_at m (a ++ (t, op) :: b ++ [(t, z)]) = (c, true).
  Proof. intro Hst. destruct t_event as (x & y & P & Rep & _ & _ & He). rewrite Hst in He. simpl in He. apply He. Qed.
  Lemma t_none : mstate_at m a = (None, false) -> mstate_at m (a ++ (t, op) :: b ++ [(t, z)]) = (None, false).
  Proof. intro Hst. destruct t_event as (x & y & P & Rep & _ & _ & He). rewrite Hst in He. simpl in He. apply He. Qed.
  Lemma t_state k : mstate_at m a = (Some (SApp p k), false) ->
    mstate_at m (a ++ (t, op) :: b ++ [(t, z)]) = next_state p m k l.
  Proof.
    intro Hst. destruct t_event as (x & y & P & Rep & Hsh & _ & He).
    assert (HT : T = a ++ (t, op) :: b ++ (t, z) :: d) by (destruct Hs as (HT & _); exact HT).
    rewrite Hst in He. cbv [snd fst] in He. rewrite life_reacts in He.
    set (s' := mstate_at m (a ++ (t, op) :: b ++ [(t, z)])) in *. clearbody s'.
    assert (Hno : forall f s x0 out s0 s1 rest, notice m (listener_at w0 m a) (ELife l) false f s s0 x0 out s1 -> P = out ++ rest -> s1 = s0 /\ x0 = None).
    { intros f s x0 out s0 s1 rest (-> & Hn) HP. split; [reflexivity|]. destruct (listener_at w0 m a) as [li|]; [|tauto].
      destruct x0 as [v|]; [exfalso|reflexivity]. eapply (oa_begin _ _ _ HQ). eapply span_in; [exact Hs|].
      apply (shown_in _ its). rewrite Hsh, HP, Hn. right. left. reflexivity. }
    assert (Htgt : forall tg, String.eqb (sname E tg) "_NOOP_" = false ->
      (String.eqb (sname E tg) "_END_" = true \/ forall tb, ~ final_state (sname E) tb (life_conf E p m) tg) ->
      react E m (listener_at w0 m a) (fun en s => acts_at w0 en s a) (life_conf E p m) (handler_of E m) (ELife l) (Target tg) (Some (SApp p k), false) y P s' ->
      s' = (Some tg, String.eqb (sname E tg) "_END_")).
    { intros tg Hn Hfin Hre. unfold react in Hre. rewrite Hn in Hre. cbv zeta in Hre.
      destruct Hre as [(v & -> & Hnt)|(s1 & N1 & o2 & HP & Hnt & Hre)].
      { destruct (Hno _ _ _ _ _ _ [] Hnt) as [_ ?]; [rewrite app_nil_r; reflexivity|discriminate]. }
      destruct (Hno _ _ _ _ _ _ _ Hnt HP) as [-> _].
      assert (Hex : acts_at w0 false (SApp p k) a = []).
      { rewrite (o_acts E w0 p H0 w Hr HQ a _ _ _ HT). apply (ab_exit _ _ _ Hb). }
      destruct Hre as [(v & -> & (_ & Ha))|(s1 & o3 & o4 & -> & (-> & Ha) & Hre)]; cbv [fst] in Ha; rewrite Hex in Ha; destruct Ha as [Ha1 ->]; [discriminate|].
      destruct Hre as [(v & -> & (? & _))|(s1 & o3 & o5 & -> & (_ & Hmv) & Hre)]; [discriminate|]. cbv [snd] in Hmv.
      destruct Hmv as [-> ->].
      destruct Hre as [(v & -> & (-> & _))|(s1 & o3 & o6 & -> & (-> & _) & Hre)]; [reflexivity|].
      destruct Hre as [(v & -> & (-> & _))|(s1 & o8 & o9 & -> & (-> & _) & Hre)]; [reflexivity|].
      destruct Hre as [(Hf & _ & Hmv)|(_ & -> & _)]; [|reflexivity]. cbv [snd] in Hmv.
      destruct Hfin as [Hfin|Hfin]; [rewrite Hfin in *; destruct Hmv as [-> _]; reflexivity|destruct (Hfin _ Hf)]. }
    assert (Hun : forall rc, rc = Unmapped \/ rc = NoRow ->
      react E m (listener_at w0 m a) (fun en s => acts_at w0 en s a) (life_conf E p m) (handler_of E m) (ELife l) rc (Some (SApp p k), false) y P s' ->
      s' = (Some (SApp p k), false)).
    { intros rc [->| ->] Hre; apply Hre. }
    match type of He with react _ _ _ _ _ _ _ ?x _ _ _ _ => remember x as rc eqn:Erc end. clear Hno Hsh HT Hst.
    assert (Hcase : (exists tg, rc = Target tg /\ String.eqb (sname E tg) "_NOOP_" = false /\
        (String.eqb (sname E tg) "_END_" = true \/ forall tb, ~ final_state (sname E) tb (life_conf E p m) tg) /\ next_state p m k l = (Some tg, String.eqb (sname E tg) "_END_")) \/
      ((rc = Unmapped \/ rc = NoRow) /\ next_state p m k l = (Some (SApp p k), false))).
    { clear - Erc. subst rc. destruct k, l; first [right; split; [auto; fail|reflexivity]|
        left; eexists; split; [reflexivity|]; split; [reflexivity|]; split; [first [left; reflexivity|right; intro; apply life_not_final]|reflexivity]]. }
    destruct Hcase as [(tg & -> & N1 & N2 & ->)|(Hrc & ->)]; [exact (Htgt tg N1 N2 He)|exact (Hun rc Hrc He)].
  Qed.
  End Take.

  (** ** Between events *)
  Lemma o_gap h r r' : T = (h ++ r) ++ r' -> start_over m h -> rests q wkr h -> rests q wkr (h ++ r) -> taken q r = [] ->
    mstate_at m (h ++ r) = mstate_at m h.
  Proof.
    intros HT Ho R1 R2 Ht.
    assert (HT' : T = h ++ r ++ r') by (rewrite app_assoc; exact HT).
    pose proof (o_calm E w0 p Hb w HQ h r r' HT' Ho) as Hc.
    destruct (reach_prefix E w0 w (im_tr _ _ H0) Hr _ _ HT) as (w1 & Hr1 & Hw1).
    destruct (all_events E w0 w1 H0 Hr1 m h r (life_conf E p m) (ab_queue _ _ _ Hb) (ab_thread _ _ _ Hb) Hw1 Hc) as (new & _ & Htk & Har); auto.
    { exact (o_conf E w0 p H0 Hb w Hr HQ h (r ++ r') HT'). }
    rewrite taken_app, Ht, app_nil_r in Htk. assert (Hn : new = []).
    { destruct new as [|n new]; [reflexivity|]. apply (f_equal (@List.length _)) in Htk. rewrite app_length in Htk. simpl in Htk. lia. }
    subst new. inversion Har as [s Hs1 Hs2|s ns s1 pr e its x n s2 _ _ _ Hs1 Hs2]; [unfold mstate_at; congruence|]. destruct ns; discriminate.
  Qed.
  Lemma t_life t pr c h r : T = h ++ (t, OTake q pr c) :: r -> t = wkr /\ exists l, c = Some (ELife l, m).
  Proof.
    intro HT. assert (HT' : T = (h ++ [(t, OTake q pr c)]) ++ r) by (rewrite <- app_assoc; exact HT).
    destruct (take_worker E w0 w H0 Hr m (ab_queue _ _ _ Hb) (ab_thread _ _ _ Hb) (h ++ [(t, OTake q pr c)]) r t pr c [] HT') as [-> [e ->]].
    { unfold opened. rewrite (stack_at t h (OTake q pr c) [] (FTake q pr c) [] [] eq_refl eq_refl). left. reflexivity. }
    split; [reflexivity|]. assert (Hin : In (wkr, OTake q pr (Some (e, m))) T) by (rewrite HT; apply in_or_app; right; left; reflexivity).
    destruct (taken_accepted E w0 w _ _ _ _ H0 Hr Hin) as (t' & e0 & e' & m' & [= <- <-] & _ & Hoff).
    apply in_split in Hoff. destruct Hoff as (ha & hb & Ha).
    destruct (o_offer E w0 p H0 Hb w Hr HQ _ _ _ _ _ _ _ _ Ha) as (_ & _ & _ & _ & _ & _ & -> & l & -> & _). exists l. reflexivity.
  Qed.
  Definition early (h : trace) : Prop := ended_at m h = false /\ (cur_at m h = None \/ cur_at m h = Some (SApp p UNINIT)).
  Definition lstarted (h : trace) : Prop := exists a t pr r, h = a ++ (t, OTake q pr (Some (ELife LStart, m))) :: r.
  Lemma lstarted_app h r : lstarted h -> lstarted (h ++ r).
  Proof. intros (a & t & pr & r1 & ->). exists a, t, pr, (r1 ++ r). rewrite <- app_assoc. reflexivity. Qed.
  Definition late (h : trace) : Prop := (start_over m h /\ lstarted h) /\
    ((exists k, k <> UNINIT /\ mstate_at m h = (Some (SApp p k), false)) \/ mstate_at m h = (Some (SEnd m), true)).
  Lemma not_begun h r : T = h ++ r -> ~ begun E p h -> early h.
  Proof.
    revert r. induction h as [|[t o] h IH] using rev_ind; intros r HT Hn; [split; [reflexivity|left; reflexivity]|].
    rewrite <- app_assoc in HT. simpl in HT.
    destruct (IH _ HT) as [He Hc]; [intro Hbg; apply Hn; apply begun_app; exact Hbg|].
    assert (Hns : forall s, o = OState m s -> s = SApp p UNINIT).
    { intros s ->. destruct (sid_eq_dec s (SApp p UNINIT)) as [->|Hne]; [reflexivity|]. exfalso. apply Hn, begun_app.
      eapply (o_late E w0 p H0 Hb w Hr HQ (S (List.length h))); [lia|exact HT|right; eauto|congruence]. }
    assert (Hne : o <> OEnded m).
    { intros ->. apply Hn, begun_app. eapply (o_late E w0 p H0 Hb w Hr HQ (S (List.length h))); [lia|exact HT|left; reflexivity|discriminate]. }
    unfold early, ended_at, ended_of, cur_at, cur_of in *. rewrite !replay_snoc.
    destruct o; try (split; assumption); match goal with |- context [Nat.eqb ?a ?b] => destruct (Nat.eqb_spec a b) as [->|] end; try (split; assumption).
    all: try congruence.
    all: try (split; [reflexivity|assumption]).
    all: split; [assumption|]; right; rewrite (Hns _ eq_refl); reflexivity.
  Qed.
  Lemma unended_dec (h : trace) : (exists t, In (t, OUnended m) h) \/ ~ (exists t, In (t, OUnended m) h).
  Proof.
    induction h as [|[t o] h [[t' IH]|IH]]; [right; intros [? []]|left; exists t'; right; exact IH|].
    assert (Hd : o = OUnended m \/ o <> OUnended m).
    { destruct o; try (right; discriminate). match goal with |- OUnended ?x = OUnended ?y \/ _ => destruct (Nat.eq_dec x y) as [Ex|N] end; [left; f_equal; exact Ex|right; congruence]. }
    destruct Hd as [->|Hd]; [left; exists t; left; reflexivity|right]. intros [t' [[= _ ->]|Hi]]; [congruence|eauto].
  Qed.
  Lemma rest_inv n : forall h r, List.length h < n -> T = h ++ r -> rests q wkr h -> early h \/ late h.
  Proof.
    induction n as [|n IH]; [lia|]. intros h r Hl HT Hre.
    assert (Hdec : taken q h = [] \/ taken q h <> []) by (destruct (taken q h); [left|right; discriminate]; reflexivity).
    destruct Hdec as [Ht|Ht].
    { left. apply (not_begun h r HT). intros (a1 & t1 & pr & c & r1 & -> & _). rewrite taken_app, taken_cons in Ht.
      destruct (taken q a1); discriminate. }
    destruct (last_take E p h Ht) as (a & t & pr & c & b & Hh & Hb0).
    assert (HT1 : T = a ++ (t, OTake q pr c) :: b ++ r) by (rewrite HT, Hh, <- app_assoc; reflexivity).
    destruct (t_life _ _ _ _ _ HT1) as [-> [l ->]]. set (op := OTake q pr (Some (ELife l, m))) in *.
    destruct (unended_dec a) as [Hu|Hu].
    2:{ left. apply (not_begun h r HT). intros (a1 & t1 & pr1 & c1 & r1 & Hh1 & t2 & H2). apply Hu. exists t2.
        rewrite Hh in Hh1. apply app_eq_app in Hh1. destruct Hh1 as (x & [[X1 X2]|[X1 X2]]).
        - rewrite X1. apply in_or_app. left. exact H2.
        - destruct x as [|y x]; [rewrite app_nil_r in X1; rewrite X1 in H2; exact H2|]. exfalso. injection X2 as _ X2.
          exact (taken_nil E p b t1 pr1 c1 Hb0 ltac:(rewrite X2; apply in_or_app; right; left; reflexivity)). }
    assert (Ho : start_over m a) by (left; exact Hu).
    destruct (closed_or_open wkr a op (FTake q pr (Some (ELife l, m))) b [] [] [] eq_refl eq_refl) as [(u & its & Hop)|(b' & its & z & d & Hsp)].
    { exfalso. apply (Hre pr (Some (ELife l, m)) its). unfold opened. rewrite Hh. simpl in Hop.
      rewrite (stack_at wkr a op b (FTake q pr (Some (ELife l, m))) u its eq_refl Hop). apply in_or_app. right. left. reflexivity. }
    simpl in Hsp.
    assert (HTa : T = (a ++ [(wkr, op)]) ++ b ++ r) by (rewrite HT1, <- app_assoc; reflexivity).
    destruct (reach_prefix E w0 w (im_tr _ _ H0) Hr _ _ HTa) as (w1 & Hr1 & Hw1).
    assert (Hroot : exists i, fst (scan wkr a) = [(FRoot, i)]).
    { destruct (placed_at E w0 w1 H0 Hr1 wkr a op [] Hw1 eq_refl) as (k & its0 & u & Hs & Hm). apply may_take in Hm. subst k.
      assert (Hst : fst (scan wkr (a ++ [(wkr, op)])) = [] ++ (FTake q pr (Some (ELife l, m)), []) :: add_item op (fst (scan wkr a))).
      { exact (stack_at wkr a op [] (FTake q pr (Some (ELife l, m))) [] [] eq_refl eq_refl). }
      assert (Hw' : tr (wm w1) = (a ++ [(wkr, op)]) ++ []) by (rewrite app_nil_r; exact Hw1).
      destruct (take_on_root E w0 w1 H0 Hr1 _ _ _ _ _ _ _ _ _ Hw' Hst) as (i & Hi). rewrite Hs in Hi. simpl in Hi. injection Hi as _ ->.
      exists its0. exact Hs. }
    destruct Hroot as [i Hi].
    assert (Hra : rests q wkr a) by (eapply (root_rests E p); exact Hi).
    assert (Hsp' : span wkr T a op b' its z (d ++ r)).
    { destruct Hsp as (X1 & X2 & X3). split; [|split; assumption]. rewrite HT, Hh, X1. repeat (rewrite <- app_assoc; simpl). reflexivity. }
    set (h1 := a ++ (wkr, op) :: b' ++ [(wkr, z)]).
    assert (Hh1 : h = h1 ++ d).
    { destruct Hsp as (X1 & _). rewrite Hh, X1. unfold h1. repeat (rewrite <- app_assoc; simpl). reflexivity. }
    assert (Hr1' : rests q wkr h1).
    { destruct (after_span E p a op b' its z i Hi ltac:(eexists; reflexivity) ltac:(apply Hsp) ltac:(apply Hsp)) as [j Hj]. eapply (root_rests E p); exact Hj. }
    assert (Htd : taken q d = []).
    { destruct Hsp as (X1 & _). apply app_inv_head in X1. injection X1 as X1. rewrite X1 in Hb0.
      change ((wkr, z) :: d) with ([(wkr, z)] ++ d) in Hb0. rewrite !taken_app in Hb0.
      apply app_eq_nil in Hb0. destruct Hb0 as [_ Hb0]. apply app_eq_nil in Hb0. apply Hb0. }
    assert (Ho1 : start_over m h1) by (apply over_later; exact Ho).
    assert (Hg : mstate_at m h = mstate_at m h1).
    { rewrite Hh1. apply (o_gap h1 d r); [rewrite <- Hh1; exact HT|exact Ho1|exact Hr1'|rewrite <- Hh1; exact Hre|exact Htd]. }
    assert (Hoh : start_over m h) by (rewrite Hh1; apply over_later; exact Ho1).
    assert (Hla : List.length a < n) by (rewrite Hh, app_length in Hl; simpl in Hl; lia).
    destruct (IH a ((wkr, op) :: b ++ r) Hla HT1 Hra) as [[He Hc]|[[_ Hls] [(k & Hk & Hst)|Hst]]].
    - destruct Hc as [Hc|Hc].
      + left. pose proof (t_none _ _ _ _ _ _ _ _ Hsp' Ho ltac:(unfold mstate_at; congruence)) as Hst. fold op h1 in Hst. rewrite <- Hg in Hst.
        injection Hst as X1 X2. split; [exact X2|left; exact X1].
      + pose proof (t_state _ _ _ _ _ _ _ _ Hsp' Ho UNINIT ltac:(unfold mstate_at; congruence)) as Hst. fold op h1 in Hst. rewrite <- Hg in Hst.
        destruct l; simpl in Hst; try (left; injection Hst as X1 X2; split; [exact X2|right; exact X1]).
        right. split; [split; [exact Hoh|exists a, wkr, pr, b; exact Hh]|]. left. exists STARTING. split; [discriminate|exact Hst].
    - right. split; [split; [exact Hoh|rewrite Hh; apply lstarted_app; exact Hls]|]. pose proof (t_state _ _ _ _ _ _ _ _ Hsp' Ho k Hst) as Hs2. fold op h1 in Hs2. rewrite <- Hg in Hs2.
      destruct k, l; simpl in Hs2; try congruence; first [right; exact Hs2|left; eexists; split; [|exact Hs2]; discriminate].
    - right. split; [split; [exact Hoh|rewrite Hh; apply lstarted_app; exact Hls]|]. right. pose proof (t_ended _ _ _ _ _ _ _ _ Hsp' Ho _ Hst) as Hs2. fold op h1 in Hs2. rewrite <- Hg in Hs2. exact Hs2.
  Qed.
  Lemma life_no_uninit c n : reacts (sname E) (life_conf E p m) c n <> Target (SApp p UNINIT).
  Proof.
    destruct c as [st|]; [|discriminate]. unfold reacts. destruct (known (life_conf E p m) (sname E st)); [|discriminate].
    generalize (sname E st) as sn. intros sn H.
    assert (H' : table (life_conf E p m) sn (Some n) = Some (Some (SApp p UNINIT))).
    { destruct (table (life_conf E p m) sn (Some n)) as [[u|]|]; try discriminate. injection H as ->. reflexivity. }
    clear H. unfold life_conf, lifecycle_calls in H'. simpl in H'. unfold close, set_entry in H'. simpl in H'.
    repeat match type of H' with context [if ?b then _ else _] => destruct b; try discriminate end.
  Qed.
  (** the machine does not return to UNINITIALISED *)
  Lemma no_uninit h t r : T = h ++ (t, OState m (SApp p UNINIT)) :: r -> start_over m h -> False.
  Proof.
    intros HT Ho. destruct (o_sets_all E w0 p H0 Hb w Hr HQ h t _ r HT ltac:(right; eauto)) as [(_ & its & u & Hs)|
      (a1 & pr & e & b & its & cc & s0 & l & r' & Hh & Hsb & Hi & Hst)].
    - eapply (start_quiet E w0 w H0 Hr m h [] r t (OState m (SApp p UNINIT)) (AAppStart p) its u); rewrite ?app_nil_r; auto.
      all: try (unfold starts; reflexivity). all: try (simpl; apply Nat.eqb_refl).
    - destruct (Hst _ eq_refl) as [Hs0|Hs0]; [subst s0|discriminate].
      assert (HTa : T = a1 ++ (t, OTake q pr (Some (e, m))) :: b ++ (t, OState m (SApp p UNINIT)) :: r) by (rewrite HT, Hh, <- app_assoc; reflexivity).
      destruct (t_life _ _ _ _ _ HTa) as [-> [lv [= ->]]].
      change (R (RdCur m cc) :: R (RdMap m cc (ELife lv) (Some (Some (SApp p UNINIT)))) :: r') with ([R (RdCur m cc)] ++ R (RdMap m cc (ELife lv) (Some (Some (SApp p UNINIT)))) :: r') in Hi.
      rewrite app_assoc in Hi. rewrite Hi in Hsb.
      destruct (item_inv wkr b [] _ (R (RdMap m cc (ELife lv) (Some (Some (SApp p UNINIT))))) r' Hsb eq_refl) as (b2 & b3 & -> & _).
      assert (HT2 : T = (a1 ++ (wkr, OTake q pr (Some (ELife lv, m))) :: b2) ++ (wkr, R (RdMap m cc (ELife lv) (Some (Some (SApp p UNINIT))))) :: b3 ++ (wkr, OState m (SApp p UNINIT)) :: r).
      { rewrite HTa. repeat (rewrite <- app_assoc; simpl). reflexivity. }
      pose proof (o_map E w0 p H0 Hb w Hr HQ _ _ _ _ _ _ HT2) as Hmap. simpl in Hmap. symmetry in Hmap. exact (life_no_uninit _ _ Hmap).
  Qed.
  Lemma left_over a s r : T = a ++ r -> cur_at m a = Some s -> s <> SApp p UNINIT -> start_over m a.
  Proof.
    intros HT Hc Hns. left. apply (begun_over E p). destruct (cur_mark E p _ _ Hc) as (h1 & t1 & h2 & ->). apply begun_app.
    rewrite <- app_assoc in HT. eapply (o_late E w0 p H0 Hb w Hr HQ (S (List.length h1))); [lia|exact HT|right; eauto|congruence].
  Qed.
  Lemma left_stays a h2 s r : T = (a ++ h2) ++ r -> cur_at m a = Some s -> s <> SApp p UNINIT ->
    exists s', cur_at m (a ++ h2) = Some s' /\ s' <> SApp p UNINIT.
  Proof.
    intros HT Hc Hns. assert (Ho : start_over m a) by (eapply left_over; [rewrite <- app_assoc in HT; exact HT|exact Hc|exact Hns]).
    revert r HT. induction h2 as [|[t o] h2 IH] using rev_ind; intros r HT; [rewrite app_nil_r; eauto|].
    assert (HT2 : T = (a ++ h2) ++ (t, o) :: r) by (rewrite HT; repeat (rewrite <- app_assoc; simpl); reflexivity).
    destruct (IH _ HT2) as (s' & Hc' & Hn'). rewrite app_assoc. unfold cur_at, cur_of in *. rewrite replay_snoc, Hc'.
    destruct o; eauto. match goal with |- context [Nat.eqb ?a ?b] => destruct (Nat.eqb_spec a b) as [->|] end; eauto.
    eexists. split; [reflexivity|]. intros ->. eapply no_uninit; [exact HT2|]. apply over_later. exact Ho.
  Qed.
  Lemma left_rest a h2 s r : T = (a ++ h2) ++ r -> cur_at m a = Some s -> s <> SApp p UNINIT -> rests q wkr (a ++ h2) -> late (a ++ h2).
  Proof.
    intros HT Hc Hns Hre. destruct (left_stays _ _ _ _ HT Hc Hns) as (s' & Hc' & Hn').
    destruct (rest_inv (S (List.length (a ++ h2))) (a ++ h2) _ (Nat.lt_succ_diag_r _) HT Hre) as [[_ [X|X]]|H]; [congruence..|exact H].
  Qed.
  Lemma take_rests a pr c r : T = a ++ (wkr, OTake q pr c) :: r -> rests q wkr a.
  Proof.
    intro HT. assert (HTa : T = (a ++ [(wkr, OTake q pr c)]) ++ r) by (rewrite HT, <- app_assoc; reflexivity).
    destruct (reach_prefix E w0 w (im_tr _ _ H0) Hr _ _ HTa) as (w1 & Hr1 & Hw1).
    destruct (placed_at E w0 w1 H0 Hr1 wkr a (OTake q pr c) [] Hw1 eq_refl) as (k & its0 & u & Hs & Hm). apply may_take in Hm. subst k.
    assert (Hst : fst (scan wkr (a ++ [(wkr, OTake q pr c)])) = [] ++ (FTake q pr c, []) :: add_item (OTake q pr c) (fst (scan wkr a))).
    { exact (stack_at wkr a (OTake q pr c) [] (FTake q pr c) [] [] eq_refl eq_refl). }
    assert (Hw' : tr (wm w1) = (a ++ [(wkr, OTake q pr c)]) ++ []) by (rewrite app_nil_r; exact Hw1).
    destruct (take_on_root E w0 w1 H0 Hr1 _ _ _ _ _ _ _ _ _ Hw' Hst) as (i & Hi). rewrite Hs in Hi. simpl in Hi. injection Hi as _ ->.
    eapply (root_rests E p); exact Hs.
  Qed.
  Lemma span_rests a pr c b its z d : span wkr T a (OTake q pr c) b its z d -> rests q wkr (a ++ (wkr, OTake q pr c) :: b ++ [(wkr, z)]).
  Proof.
    intros (HT & Hz & Hs). assert (HTa : T = (a ++ [(wkr, OTake q pr c)]) ++ b ++ (wkr, z) :: d) by (rewrite HT, <- app_assoc; reflexivity).
    destruct (reach_prefix E w0 w (im_tr _ _ H0) Hr _ _ HTa) as (w1 & Hr1 & Hw1).
    destruct (placed_at E w0 w1 H0 Hr1 wkr a (OTake q pr c) [] Hw1 eq_refl) as (k & its0 & u & Hs0 & Hm). apply may_take in Hm. subst k.
    assert (Hst : fst (scan wkr (a ++ [(wkr, OTake q pr c)])) = [] ++ (FTake q pr c, []) :: add_item (OTake q pr c) (fst (scan wkr a))).
    { exact (stack_at wkr a (OTake q pr c) [] (FTake q pr c) [] [] eq_refl eq_refl). }
    assert (Hw' : tr (wm w1) = (a ++ [(wkr, OTake q pr c)]) ++ []) by (rewrite app_nil_r; exact Hw1).
    destruct (take_on_root E w0 w1 H0 Hr1 _ _ _ _ _ _ _ _ _ Hw' Hst) as (i & Hi). rewrite Hs0 in Hi. simpl in Hi. injection Hi as _ ->.
    destruct (after_span E p a (OTake q pr c) b its z its0 Hs0 ltac:(eexists; reflexivity) Hs Hz) as [j Hj]. eapply (root_rests E p); exact Hj.
  Qed.

  (** ** error() sends its event unless the machine has ended *)
  Lemma error_sent t a b its z d : span t T a (OInv (AAppError p)) b its z d -> start_over m a ->
    (exists b1 b2, b = b1 ++ b2 /\ ended_at m (a ++ (t, OInv (AAppError p)) :: b1) = true) \/
    exists b1 b2 pr, b = b1 ++ (t, OOffer q pr (ELife LError) m (ELife LError) m) :: b2.
  Proof.
    intros Hs Ho. pose proof (span_node E w0 w H0 Hr _ _ _ _ _ _ _ (FApi (AAppError p)) Hs eq_refl) as Hnode.
    assert (Hl : exists x, appErrorL E p x its) by (destruct z; simpl in Hnode; try contradiction; destruct Hnode as [_ (x & _ & Hl)]; eauto).
    destruct Hl as [x Hl]. destruct Hl as [(y & -> & [Hx _])|(o1 & o2 & Hi & [_ ->] & Hf)]; [discriminate|].
    set (lg := OLog _) in *.
    assert (Hrd : forall j1 rd0 j2, o2 = j1 ++ ORd rd0 :: j2 -> exists b1 b2, b = b1 ++ b2 /\ read_at E w0 (a ++ (t, OInv (AAppError p)) :: b1) rd0).
    { intros j1 rd0 j2 ->. destruct (read_moment E w0 w H0 Hr _ _ _ _ _ _ _ ([lg] ++ j1) rd0 j2 Hs) as (b1 & b2 & -> & _ & Hrd).
      - rewrite Hi. repeat (rewrite <- !app_assoc; simpl). reflexivity.
      - exists b1, ((t, ORd rd0) :: b2). auto. }
    assert (Hst : forall j1 v j2, o2 = j1 ++ R (RdStarted m v) :: j2 -> v = true).
    { intros j1 v j2 Hj. destruct (Hrd _ _ _ Hj) as (b1 & b2 & -> & H). simpl in H. rewrite H. apply started_app.
      destruct Hs as (HT & _). eapply over_started; eauto. }
    destruct Hf as [Hf|[Hf|(o' & Hf & Hp)]].
    - specialize (Hst [] _ _ Hf). discriminate.
    - left. destruct (Hrd [R (RdStarted m true); R (RdStarted m true)] _ _ Hf) as (b1 & b2 & Hbb & H). simpl in H. exists b1, b2. auto.
    - destruct Hf as [Hf|Hf]; [|specialize (Hst [R (RdStarted m true)] _ _ Hf); discriminate]. right.
      unfold processL in Hp. rewrite (ab_keep _ _ _ Hb) in Hp. destruct Hp as (c & n & o4 & -> & Hp).
      assert (Hfull : full E (strat_of E m) n = false).
      { unfold full. pose proof (ab_unbounded _ _ _ Hb). destruct (Z.ltb_spec 0 (s_max (strat E (strat_of E m)))); [lia|reflexivity]. }
      rewrite Hfull in Hp. destruct Hp as (pr & o3 & Hsub & [->|(y & nm & y' & e' & ->)]).
      + assert (Hit : In (OOffer q pr (ELife LError) m (ELife LError) m) its).
        { rewrite Hi, Hf. simpl. repeat first [left; reflexivity | right]. }
        apply in_split in Hit. destruct Hit as (i1 & i2 & Hit).
        destruct (item_moment w _ _ _ _ _ _ _ _ _ _ Hs Hit eq_refl) as (b1 & b2 & Hbb & _ & _). exists b1, b2, pr. exact Hbb.
      + exfalso. destruct (Hrd ([R (RdStarted m true); R (RdStarted m true); R (RdEnded m false)] ++
          R (RdLook (s_queue (strat E (strat_of E m))) c) :: R (RdSize (s_queue (strat E (strat_of E m))) c n) :: [OWr (WrGot pr)]) (RdPay (ELife LError) (Some y)) _ Hf) as (b1 & b2 & Hbb & H).
        simpl in H. destruct Hs as (HT & _). rewrite (o_pay E w0 p H0 Hb w Hr HQ (a ++ (t, OInv (AAppError p)) :: b1) (b2 ++ (t, z) :: d) LError) in H; [discriminate|].
        rewrite HT, Hbb. repeat (rewrite <- app_assoc; simpl). reflexivity.
  Qed.
End Open.
