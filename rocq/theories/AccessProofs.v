(** * AccessProofs.v: accessors and mutators; configuration calls at any time;
    error() of an app; the default handler of unmapped events *)
From Verif Require Import AccessSpec ConfSpec Lang Tree Truth ConfTruth Nodes Marks Place Moments Copies FireProofs CallProofs Logic.
From Verif Require Import ConfigProofs2 ConfigSpec.

Section Access.
  Context (E : env) (w0 : mem) (w : world) (H0 : init_mem E w0) (Hr : reach E w0 w).
  Notation T := (tr (wm w)).

  Lemma getter q x : gets q x -> forall t a b its v d, span t T a (OInv q) b its (ORet q v) d ->
    (exists h, during t a (OInv q) b h /\ v = returned (content_at w0 x h)) /\
    forall o, In o its -> is_read o = true.
  Proof.
    intros Hg t a b its v d Hs. pose proof (span_node E w0 w H0 Hr _ _ _ _ _ _ _ (FApi q) Hs eq_refl) as [_ Hl].
    destruct q; try contradiction; simpl in Hg; subst x; destruct Hl as (r & -> & Hi);
      (split; [|intros o Ho; rewrite Hi in Ho; destruct Ho as [<-|[]]; reflexivity]);
      (destruct (read_during E w0 w H0 Hr _ _ _ _ _ _ _ _ Hs ltac:(rewrite Hi; left; reflexivity)) as (h & Hd & Hrd);
       exists h; split; [exact Hd|]; simpl in Hrd |- *; rewrite Hrd; reflexivity).
  Qed.

  (** what a mark does to the contents *)
  Lemma content_snoc x h t o : content_at w0 x (h ++ [(t, o)]) =
    match o, x with
    | OStarted m', PStarted m => if Nat.eqb m' m then CBool true else content_at w0 x h
    | OEnded m', PEnded m => if Nat.eqb m' m then CBool true else content_at w0 x h
    | OUnended m', PEnded m => if Nat.eqb m' m then CBool false else content_at w0 x h
    | OState m' s, PState m => if Nat.eqb m' m then CState (Some s) else content_at w0 x h
    | OWr (WrListener m' l), PListener m => if Nat.eqb m' m then CListener l else content_at w0 x h
    | OWr (WrActs en' s' l), PActs en s =>
        if andb (Bool.eqb en en') (if sid_eq_dec s s' then true else false) then CActs (acts_at w0 en s h ++ l) else content_at w0 x h
    | OWr (WrPay e' p), PPay e | OWr (WrCopy e' _ p), PPay e => if eid_eqb e e' then CPay p else content_at w0 x h
    | OWr (WrSubs p' l), PSubs p => if Nat.eqb p' p then CSubs l else content_at w0 x h
    | _, _ => content_at w0 x h
    end.
  Proof.
    destruct x; simpl; unfold started_at, ended_at, cur_at, listener_at, acts_at, pay_at, subsystems_at, subsystems_of,
      started_of, ended_of, cur_of, listener_of, acts_of, pay_of; rewrite replay_snoc;
      destruct o as [| | | | | | | | | | | | | | |wr]; try reflexivity; try (destruct (Nat.eqb _ _); reflexivity);
      destruct wr; try reflexivity; try (destruct (Nat.eqb _ _); reflexivity);
      try (destruct (eid_eqb _ _); reflexivity).
    destruct (andb _ _); reflexivity.
  Qed.

  Lemma set_by q : setter q -> forall t a b its v d, span t T a (OInv q) b its (ORet q v) d ->
    v = RvUnit /\ exists h o x, during t a (OInv q) b h /\ during t a (OInv q) b (h ++ [(t, o)]) /\
      sets q x (content_at w0 x h) (content_at w0 x (h ++ [(t, o)])) /\
      forall y, y <> x -> content_at w0 y (h ++ [(t, o)]) = content_at w0 y h.
  Proof.
    intros Hq t a b its v d Hs. pose proof (span_node E w0 w H0 Hr _ _ _ _ _ _ _ (FApi q) Hs eq_refl) as [_ Hl].
    assert (G : forall o x, its = [o] -> closes o = false ->
      (forall h, sets q x (content_at w0 x h) (content_at w0 x (h ++ [(t, o)])) /\
         forall y, y <> x -> content_at w0 y (h ++ [(t, o)]) = content_at w0 y h) ->
      exists h o x, during t a (OInv q) b h /\ during t a (OInv q) b (h ++ [(t, o)]) /\
        sets q x (content_at w0 x h) (content_at w0 x (h ++ [(t, o)])) /\
        forall y, y <> x -> content_at w0 y (h ++ [(t, o)]) = content_at w0 y h).
    { intros o x Hi Hc Hx. destruct (item_moment w _ _ _ _ _ _ _ [] _ [] Hs Hi Hc) as (b1 & b2 & -> & _ & HT).
      exists (a ++ (t, OInv q) :: b1), o, x.
      split; [exists b1, ((t, o) :: b2); auto|].
      split; [exists (b1 ++ [(t, o)]), b2; rewrite <- !app_assoc; auto|]. apply Hx. }
    destruct q; try contradiction; destruct Hl as [-> Hi]; (split; [reflexivity|]); eapply G; try exact Hi; try reflexivity.
    - intro h. split; [split; [reflexivity|]; rewrite content_snoc, Nat.eqb_refl; reflexivity|].
      intros y Hy. rewrite content_snoc. destruct y; try reflexivity.
      destruct (Nat.eqb_spec m m0); [congruence|reflexivity].
    - intro h. split.
      + split; [reflexivity|]. exists (acts_at w0 entry s h). split; [reflexivity|]. rewrite content_snoc.
        rewrite Bool.eqb_reflx. destruct (sid_eq_dec s s); [reflexivity|congruence].
      + intros y Hy. rewrite content_snoc. destruct y; try reflexivity.
        destruct (Bool.eqb en entry) eqn:Eb; [|reflexivity]. destruct (sid_eq_dec s0 s); [|reflexivity].
        apply Bool.eqb_prop in Eb. congruence.
    - intro h. split.
      + split; [reflexivity|]. rewrite content_snoc. unfold eid_eqb. destruct (eid_eq_dec e e); [reflexivity|congruence].
      + intros y Hy. rewrite content_snoc. destruct y; try reflexivity.
        unfold eid_eqb. destruct (eid_eq_dec e0 e); [congruence|reflexivity].
    - intro h. split; [split; [reflexivity|]; rewrite content_snoc, Nat.eqb_refl; reflexivity|].
      intros y Hy. rewrite content_snoc. destruct y; try reflexivity.
      destruct (Nat.eqb_spec p p0); [congruence|reflexivity].
  Qed.

  Definition change_of (o : obs) : option place :=
    match o with
    | OStarted m => Some (PStarted m)
    | OEnded m | OUnended m => Some (PEnded m)
    | OState m _ => Some (PState m)
    | OWr (WrListener m _) => Some (PListener m)
    | OWr (WrActs en s _) => Some (PActs en s)
    | OWr (WrPay e _) => Some (PPay e)
    | OWr (WrSubs p _) => Some (PSubs p)
    | _ => None
    end.
  Lemma mact_quiet a e m o : mact E a e m o -> change_of o = None.
  Proof.
    intro H. destruct a; simpl in H; dmay; subst; reflexivity || contradiction.
  Qed.
  Lemma mcode_quiet c o : mcode E c o -> change_of o = None.
  Proof.
    intro H. destruct c as [en a s e m|a e m|h e m x|fin l m f e s|h e m|u e m x|u e m|u e m|b p i]; simpl in H;
      try (eapply mact_quiet; exact H);
      try (destruct h; dmay; subst; reflexivity);
      try (destruct u; dmay; subst; reflexivity || contradiction);
      try (dmay; subst; reflexivity).
    destruct l as [[]|]; dmay; subst; reflexivity.
  Qed.
  Lemma mark_changes t k o x : may E t k o -> change_of o = Some x -> changes E k x.
  Proof.
    intros H Hx. destruct k as [|q|c|q p c]; simpl in H.
    - exfalso. destruct t; simpl in H; unfold witem in H; dmay; subst; try discriminate.
      all: destruct o; try contradiction; discriminate.
    - destruct q; simpl in H; dmay; subst; try discriminate; try contradiction; injection Hx as <-; simpl; auto.
    - rewrite (mcode_quiet _ _ H) in Hx. discriminate.
    - destruct H as (tm & i & _ & _ & H). dmay; subst; try discriminate; injection Hx as <-; reflexivity.
  Qed.
  Lemma changed_by t h o r x : T = h ++ (t, o) :: r ->
    content_at w0 x (h ++ [(t, o)]) <> content_at w0 x h ->
    (exists k its u, fst (scan t h) = (k, its) :: u /\ changes E k x) \/
    (exists e, x = PPay e /\ ~ made e h /\ made e (h ++ [(t, o)])).
  Proof.
    intros HT Hn.
    assert (Hc : change_of o = Some x \/ (exists e, x = PPay e /\ exists nm y, o = OWr (WrCopy e nm y))).
    { rewrite content_snoc in Hn. destruct o as [| | | | | | | | | | | | | | |wr]; try congruence; destruct x; try congruence;
      try (match type of Hn with (if Nat.eqb ?a ?b then _ else _) <> _ => destruct (Nat.eqb_spec a b); [subst|congruence] end; left; reflexivity);
      destruct wr; try congruence;
      try (match type of Hn with (if Nat.eqb ?a ?b then _ else _) <> _ => destruct (Nat.eqb_spec a b); [subst|congruence] end; left; reflexivity).
      - left. destruct (Bool.eqb en entry) eqn:Eb; [|simpl in Hn; congruence]. apply Bool.eqb_prop in Eb.
        destruct (sid_eq_dec s s0); [subst|simpl in Hn; congruence]. reflexivity.
      - left. unfold eid_eqb in Hn. destruct (eid_eq_dec e e0); [subst; reflexivity|congruence].
      - right. unfold eid_eqb in Hn. destruct (eid_eq_dec e e0); [subst; eauto|congruence]. }
    destruct Hc as [Hc|(e & -> & nm & y & ->)]; [left|right; exists e; split; [reflexivity|]].
    2:{ destruct (copy_fresh E w0 w H0 Hr _ _ _ _ _ _ HT) as (k & -> & Hf). split.
        - intros (t' & nm' & y' & Hi). exact (Hf _ _ _ Hi).
        - exists t, nm, y. apply in_or_app. right. left. reflexivity. }
    destruct (placed_at E w0 w H0 Hr _ _ _ _ HT) as (k & its & u & Hk & Hm); [destruct o; try discriminate Hc; reflexivity|].
    exists k, its, u. split; [exact Hk|]. eapply mark_changes; eauto.
  Qed.

  (** a configuration call, whatever happens meanwhile *)
  Lemma configure m o t a b its v d : span t T a (OInv (ACfg m o)) b its (ORet (ACfg m o) v) d ->
    exists h c x, during t a (OInv (ACfg m o)) b h /\ during t a (OInv (ACfg m o)) b (h ++ [(t, OWr (WrCfg m o x))]) /\
      v = outcome x /\ conf_at E w0 m h c /\
      (x = None <-> allowed (sname E) (fun e => name_at E w0 e h) o c) /\
      conf_at E w0 m (h ++ [(t, OWr (WrCfg m o x))])
        (match x with None => effect (sname E) (fun e => name_at E w0 e h) m o c | Some _ => c end) /\
      forall m' c', m' <> m -> conf_at E w0 m' h c' -> conf_at E w0 m' (h ++ [(t, OWr (WrCfg m o x))]) c'.
  Proof.
    intro Hs. pose proof (span_node E w0 w H0 Hr _ _ _ _ _ _ _ (FApi (ACfg m o)) Hs eq_refl) as [_ (x & Hv & Hi)].
    destruct (item_moment w _ _ _ _ _ _ _ [] _ [] Hs Hi eq_refl) as (b1 & b2 & -> & _ & HT).
    set (h := a ++ (t, OInv (ACfg m o)) :: b1) in *.
    destruct (im_cfg _ _ H0 m) as [os Hos]. destruct (history_total (sname E) (ename0 E) m os) as [s0 Hs0].
    assert (HC : conf0 E w0 m s0) by (exists os; auto).
    destruct (conf_truth E w0 H0 m s0 HC w Hr) as (_ & _ & Hk). specialize (Hk _ _ _ _ HT). simpl in Hk. specialize (Hk eq_refl).
    exists h, (conf_of (sname E) m (ename E w0) s0 h), x.
    split; [exists b1, ((t, OWr (WrCfg m o x)) :: b2); auto|].
    split; [exists (b1 ++ [(t, OWr (WrCfg m o x))]), b2; unfold h; rewrite <- !app_assoc; auto|].
    split; [destruct x; exact Hv|]. split; [exists os, s0; auto|]. split; [exact Hk|]. split.
    - exists os, s0. split; [exact Hos|]. split; [exact Hs0|]. rewrite conf_snoc. destruct x; [reflexivity|].
      rewrite Nat.eqb_refl. reflexivity.
    - intros m' c' Hn (os' & s' & H1 & H2 & ->). exists os', s'. split; [exact H1|]. split; [exact H2|].
      rewrite conf_snoc. destruct x; [reflexivity|]. destruct (Nat.eqb_spec m m'); [congruence|reflexivity].
  Qed.
  Definition cfg_of (o : obs) : option mid := match o with OWr (WrCfg m _ _) => Some m | _ => None end.
  Lemma mark_cfg t k o m : may E t k o -> cfg_of o = Some m -> exists c, k = FApi (ACfg m c).
  Proof.
    intros Hm Ho. destruct k as [|q|cc|q p co]; simpl in Hm.
    - exfalso. destruct t; simpl in Hm; unfold witem in Hm; dmay; subst; try discriminate; destruct o; try contradiction; discriminate.
    - destruct q; simpl in Hm; dmay; subst; try discriminate; try contradiction. injection Ho as ->. eauto.
    - exfalso. assert (Ha : forall a e m0, mact E a e m0 o -> False).
      { intros a e m0 H. destruct a; simpl in H; dmay; subst; discriminate || contradiction. }
      destruct cc as [en a s e m0|a e m0|h e m0 x|fin l m0 f e s|h e m0|u e m0 x|u e m0|u e m0|b p i]; simpl in Hm;
        try (eapply Ha; exact Hm); try (destruct h; dmay; subst; discriminate); try (destruct u; dmay; subst; discriminate || contradiction);
        try (dmay; subst; discriminate).
      destruct l as [[]|]; dmay; subst; discriminate.
    - destruct Hm as (tm & i & _ & _ & Hm). dmay; subst; discriminate.
  Qed.
  (** nothing else changes a configuration *)
  Lemma configured_by t h o r m c : T = h ++ (t, o) :: r -> conf_at E w0 m h c -> ~ conf_at E w0 m (h ++ [(t, o)]) c ->
    exists c its u, fst (scan t h) = (FApi (ACfg m c), its) :: u.
  Proof.
    intros HT (os & s0 & H1 & H2 & ->) Hn.
    assert (Hc : exists c, o = OWr (WrCfg m c None)).
    { destruct o as [| | | | | | | | | | | | | | |wr]; try (destruct Hn; exists os, s0; rewrite conf_snoc; auto; fail).
      destruct wr; try (destruct Hn; exists os, s0; rewrite conf_snoc; auto; fail).
      destruct x; [destruct Hn; exists os, s0; rewrite conf_snoc; auto|].
      destruct (Nat.eqb_spec m0 m); [subst; eauto|]. destruct Hn. exists os, s0. rewrite conf_snoc.
      destruct (Nat.eqb_spec m0 m); [congruence|]. auto. }
    destruct Hc as [c ->]. destruct (placed_at E w0 w H0 Hr _ _ _ _ HT eq_refl) as (k & its & u & Hk & Hm).
    destruct (mark_cfg _ _ _ _ Hm eq_refl) as [c' ->]. eauto.
  Qed.

  (** error() of an app service *)
  Lemma app_error_call t a b its d p v : span t T a (OInv (AAppError p)) b its (ORet (AAppError p) v) d ->
    exists x o, v = outcome x /\ shown its = OLog (ap_name (apps E p) ++ " has an error")%string :: o /\
      fired E w0 (ap_mach (apps E p)) (ELife LError) t a (OInv (AAppError p)) b x o.
  Proof.
    intro Hs. pose proof (span_node E w0 w H0 Hr _ _ _ _ _ _ _ (FApi (AAppError p)) Hs eq_refl) as [_ (x & Hv & Hl)].
    destruct Hl as [(z & -> & [? _])|(o1 & o2 & Hi & [_ ->] & Hl)]; [discriminate|].
    exists x, (shown o2). split; [destruct x; exact Hv|]. split; [rewrite Hi; reflexivity|].
    eapply (fire_ok E w0 w H0 Hr _ _ _ _ _ _ _ Hs _ _ x [OLog (ap_name (apps E p) ++ " has an error")%string] o2 []); [|exact Hl].
    rewrite Hi, app_nil_r. reflexivity.
  Qed.

  (** the default handler of unmapped events *)
  Lemma unmapped_default t a b its d e m x :
    let c := KUnmapped UDefault e m in span t T a (OCall c) b its (OBack c x) d ->
    exists h1 h2, during t a (OCall c) b h1 /\ during t a (OCall c) b h2 /\ upto h1 h2 /\
      match cur_at m h2 with
      | None => x = Some XNullPointer /\ shown its = []
      | Some s => x = None /\
          shown its = [OLog ("StateEvent [" ++ name_at E w0 e h1 ++ "] not mapped for state [" ++ sname E s ++ "], ignoring")%string]
      end.
  Proof.
    intros c Hs. pose proof (span_node E w0 w H0 Hr _ _ _ _ _ _ _ (FCall c) Hs eq_refl) as [_ (nm & st & o & Hi & Hl)].
    destruct (reads_during E w0 w H0 Hr _ _ _ _ _ _ _ [] _ [] _ _ Hs Hi) as (h1 & h2 & D1 & D2 & U & R1 & R2).
    exists h1, h2. split; [exact D1|]. split; [exact D2|]. split; [exact U|]. simpl in R1, R2. rewrite <- R1, <- R2.
    destruct st as [s|]; destruct Hl as [-> ->]; (split; [reflexivity|]); rewrite Hi; reflexivity.
  Qed.
End Access.
