(** * AppLive1.v: the parts of an app service's life (proofs) *)
From Verif Require Import Sched Logic LiveSpec Lang Tree Nodes Marks Place Moments Truth Copies QueueProofs CallProofs FireProofs StartProofs
  TokenProofs ExactProofs FlowProofs2 Live LiveProofs LiveProofs2.
From Verif Require Import AppLiveSpec.
From Verif Require Import ConfigSpec.
Notation H_ := LiveSpec.history.

(** ** Brackets *)
Lemma its_in t b : forall u k its v o, fst (scan t b) = u ++ (k, its) :: v -> In o its -> In (t, o) b.
Proof.
  induction b as [|[t' x] b IH] using rev_ind; intros u k its v o Hs Hi.
  - destruct u as [|f u]; [injection Hs as <- <- _; destruct Hi|]. destruct u; discriminate.
  - rewrite Tree.scan_snoc in Hs. apply in_or_app. destruct (tid_eq_dec t' t) as [->|]; [|left; eapply IH; eauto].
    destruct (scan t b) as [st ns]. simpl in IH.
    assert (Hadd : forall u, add_item x st = u ++ (k, its) :: v -> In (t, o) b \/ In (t, o) [(t, x)]).
    { intros u0 H. destruct st as [|[k0 i0] st]; [destruct u0; discriminate|]. simpl in H.
      destruct u0 as [|f u0]; simpl in H; injection H.
      - intros <- <- <-. apply in_app_or in Hi. destruct Hi as [Hi|[->|[]]]; [left; eapply (IH [] k0 i0); [reflexivity|exact Hi]|right; left; reflexivity].
      - intros -> <-. left. eapply (IH ((k0, i0) :: u0)); [reflexivity|exact Hi]. }
    assert (Hadd2 : forall st' u, (forall u k its v o, st' = u ++ (k, its) :: v -> In o its -> In (t, o) b) ->
      add_item x st' = u ++ (k, its) :: v -> In (t, o) b \/ In (t, o) [(t, x)]).
    { intros st' u0 IH' H. destruct st' as [|[k0 i0] st']; [destruct u0; discriminate|]. simpl in H.
      destruct u0 as [|f u0]; simpl in H; injection H.
      - intros <- <- <-. apply in_app_or in Hi. destruct Hi as [Hi|[->|[]]]; [left; eapply (IH' [] k0 i0); [reflexivity|exact Hi]|right; left; reflexivity].
      - intros -> <-. left. eapply (IH' ((k0, i0) :: u0)); [reflexivity|exact Hi]. }
    unfold scan1 in Hs. destruct (closes x).
    + destruct st as [|[k0 i0] st]; simpl in Hs; [destruct u; discriminate|]. eapply Hadd2; [|exact Hs].
      intros u0 k1 i1 v0 o0 -> Ho. eapply (IH ((k0, i0) :: u0)); [reflexivity|exact Ho].
    + destruct (opens x) as [k1|]; simpl in Hs.
      * destruct u as [|f u]; simpl in Hs; injection Hs; [intros _ <-; destruct Hi|intros Hs' <-; eapply Hadd; exact Hs'].
      * eapply Hadd. exact Hs.
Qed.
(** a callback among the marks of a bracket was a bracket of its own *)
Lemma nested_span t b its i1 c y i2 : fst (scan t b) = [(FRoot, its)] -> its = i1 ++ OCall c :: OBack c y :: i2 ->
  exists b1 b2 its2 b3, inner_span t b i1 b1 (OCall c) b2 its2 (OBack c y) b3.
Proof.
  intros Hs Hi. destruct (item_inv t b [] i1 (OCall c) (OBack c y :: i2)) as (b1 & b2 & Hb & H1); [rewrite Hs, Hi; reflexivity|reflexivity|].
  destruct (will_close t b1 (OCall c) (FCall c) b2 [] [] [] eq_refl eq_refl) as (b' & its' & z & d & Hsp).
  { exists its. simpl. rewrite <- Hb. exact Hs. }
  simpl in Hsp. rewrite <- Hb in Hsp.
  assert (Hin : inner_span t b i1 b1 (OCall c) b' its' z d) by (split; assumption).
  destruct (inner_items _ _ _ _ _ _ _ _ _ _ _ Hs (eq_refl : opens (OCall c) = Some (FCall c)) Hin) as (_ & i3 & Hi').
  rewrite Hi in Hi'. apply app_inv_head in Hi'. injection Hi' as <- _. exists b1, b', its', d. exact Hin.
Qed.
(** the span of an inner bracket in the whole trace *)
Lemma inner_outer t T a op b r i1 b1 op1 b2 its1 z1 b3 : T = a ++ (t, op) :: b ++ r -> inner_span t b i1 b1 op1 b2 its1 z1 b3 ->
  span t T (a ++ (t, op) :: b1) op1 b2 its1 z1 (b3 ++ r).
Proof.
  intros -> ((-> & Hz & Hs) & _). split; [|auto]. repeat (rewrite <- !app_assoc; simpl). reflexivity.
Qed.
(** two marks directly inside the same bracket are items of it, in order *)
Lemma two_items t b1 x r1 i1 : fst (scan t b1) = [(FRoot, i1)] -> forall u its, fst (scan t (b1 ++ (t, x) :: r1)) = u ++ [(FRoot, its)] ->
  closes x = false -> exists j, its = i1 ++ x :: j.
Proof.
  intros H1 u its H2 Hc. change ((t, x) :: r1) with ([(t, x)] ++ r1) in H2. rewrite app_assoc in H2.
  destruct (root_kept_t _ _ _ _ _ H2) as (u1 & j1 & j2 & H3 & ->).
  rewrite Tree.scan_snoc in H3. destruct (tid_eq_dec t t); [|congruence]. destruct (scan t b1) as [st ns]. simpl in H1. subst st.
  unfold scan1 in H3. rewrite Hc in H3. destruct (opens x); simpl in H3.
  - destruct u1 as [|fr [|gr u1]]; try discriminate; injection H3; [intros; subst j1|destruct u1; discriminate].
    exists j2. rewrite <- app_assoc. reflexivity.
  - destruct u1 as [|fr u1]; [injection H3 as <-|destruct u1; discriminate]. exists j2. rewrite <- app_assoc. reflexivity.
Qed.

(** the end of a bracket follows its beginning among the marks of the outer bracket *)
Lemma closing_item t b : forall u its i1 z i2, fst (scan t b) = u ++ [(FRoot, its)] -> its = i1 ++ z :: i2 -> closes z = true ->
  exists i0 b1 op b2 its2 b3 k, i1 = i0 ++ [op] /\ opens op = Some k /\ inner_span t b i0 b1 op b2 its2 z b3.
Proof.
  induction b as [|[t' x] b IH] using rev_ind; intros u its i1 z i2 Hs Hi Hz.
  - destruct u as [|f u]; [injection Hs as <-; destruct i1; discriminate|]. destruct u; discriminate.
  - assert (Hold : forall u0, fst (scan t b) = u0 ++ [(FRoot, its)] ->
      exists i0 b1 op b2 its2 b3 k, i1 = i0 ++ [op] /\ opens op = Some k /\ inner_span t (b ++ [(t', x)]) i0 b1 op b2 its2 z b3).
    { intros u0 Hu. destruct (IH _ _ _ _ _ Hu Hi Hz) as (i0 & b1 & op & b2 & its2 & b3 & k & E1 & E2 & (E3 & E4 & E5) & E6).
      exists i0, b1, op, b2, its2, (b3 ++ [(t', x)]), k. split; [exact E1|]. split; [exact E2|]. split; [|exact E6].
      split; [rewrite E3; repeat (rewrite <- !app_assoc; simpl); reflexivity|]. auto. }
    assert (Hlast : forall its0 u0, fst (scan t b) = u0 ++ [(FRoot, its0)] -> its = its0 ++ [x] -> x <> z \/ i2 <> [] ->
      exists i0 b1 op b2 its2 b3 k, i1 = i0 ++ [op] /\ opens op = Some k /\ inner_span t (b ++ [(t', x)]) i0 b1 op b2 its2 z b3).
    { intros its0 u0 Hu -> Hne. destruct i2 as [|y i2 _] using rev_ind.
      - destruct Hne as [Hne|Hne]; [|congruence]. apply app_inj_tail in Hi. destruct Hi as [_ ->]. congruence.
      - replace (i1 ++ z :: i2 ++ [y]) with ((i1 ++ z :: i2) ++ [y]) in Hi by (rewrite <- app_assoc; reflexivity).
        apply app_inj_tail in Hi. destruct Hi as [Hi _].
        destruct (IH _ _ _ _ _ Hu Hi Hz) as (i0 & b1 & op & b2 & its2 & b3 & k & E1 & E2 & (E3 & E4 & E5) & E6).
        exists i0, b1, op, b2, its2, (b3 ++ [(t', x)]), k. split; [exact E1|]. split; [exact E2|]. split; [|exact E6].
        split; [rewrite E3; repeat (rewrite <- !app_assoc; simpl); reflexivity|]. auto. }
    destruct (tid_eq_dec t' t) as [->|N].
    2: { rewrite Tree.scan_snoc in Hs. destruct (tid_eq_dec t' t); [contradiction|]. eapply Hold. exact Hs. }
    rewrite Place.scan_snoc in Hs. unfold scan1 in Hs.
    destruct (closes x) eqn:Hx.
    + destruct (fst (scan t b)) as [|[k i'] st] eqn:Eb; simpl in Hs; [destruct u; discriminate|].
      destruct st as [|[k1 j1] st]; [destruct u; discriminate|]. simpl in Hs.
      destruct u as [|f u]; simpl in Hs; injection Hs.
      * intros -> Hits ->.
        destruct i2 as [|y i2].
        -- rewrite Hi in Hits. apply app_inj_tail in Hits. destruct Hits as [-> ->].
           destruct (top_bracket t b k i' [(FRoot, i1)] Eb) as (b1 & op & b2 & -> & Hop & Hb2 & Hv).
           { intros ->. rewrite scan_eq in Eb. apply (root_bottom _ [] _ _) in Eb. destruct Eb as [Eb _]. discriminate. }
           destruct (fst (scan t b1)) as [|[k0 i0] st0] eqn:E1; simpl in Hv; [discriminate|].
           injection Hv as <- -> <-. exists i0, b1, op, b2, i', [], k. split; [reflexivity|]. split; [exact Hop|].
           split; [|exact E1]. split; [rewrite <- app_assoc; reflexivity|]. auto.
        -- apply (Hlast j1 [(k, i')]); [reflexivity|symmetry; exact Hits|right; discriminate].
      * intros -> <-. apply (Hold ((k, i') :: (k1, j1) :: u)). reflexivity.
    + assert (Hadd : forall u0, add_item x (fst (scan t b)) = u0 ++ [(FRoot, its)] ->
        exists i0 b1 op b2 its2 b3 k, i1 = i0 ++ [op] /\ opens op = Some k /\ inner_span t (b ++ [(t, x)]) i0 b1 op b2 its2 z b3).
      { intros u0 Hu. destruct (fst (scan t b)) as [|[k1 j1] st] eqn:Eb; [destruct u0; discriminate|]. simpl in Hu.
        destruct u0 as [|f u0]; simpl in Hu; injection Hu.
        - intros -> Hits ->. apply (Hlast j1 []); [reflexivity|symmetry; exact Hits|left; intros ->; congruence].
        - intros -> <-. apply (Hold ((k1, j1) :: u0)). reflexivity. }
      destruct (opens x) as [k|]; simpl in Hs; [|eapply Hadd; exact Hs].
      destruct u as [|f u]; simpl in Hs; injection Hs; [intros _ Hits _; rewrite <- Hits in Hi; destruct i1; discriminate|].
      intros Hs2 _. eapply Hadd. exact Hs2.
Qed.

(** ** Things that recur every four steps *)
Fixpoint per {A : Type} (a b c d : A) (i : nat) : A :=
  match i with 0 => a | 1 => b | 2 => c | 3 => d | S (S (S (S j))) => per a b c d j end.
Lemma per_ind (P : nat -> Prop) : P 0 -> P 1 -> P 2 -> P 3 -> (forall i, P i -> P (S (S (S (S i))))) -> forall i, P i.
Proof.
  intros P0 P1 P2 P3 HS. assert (H : forall n, P n /\ P (S n) /\ P (S (S n)) /\ P (S (S (S n)))); [|intro i; apply H].
  induction n as [|n (H0 & H1 & H2 & H3)]; auto 8.
Qed.
(** cases of an index that recurs but for the first time *)
Lemma per_cases (P : nat -> Prop) : P 0 -> P 1 -> P 2 -> P 3 -> P 4 -> (forall i, P (S i) -> P (S (S (S (S (S i)))))) -> forall i, P i.
Proof. intros P0 P1 P2 P3 P4 HS [|i]; [exact P0|]. revert i. apply per_ind; auto. Qed.
Ltac by_per i := pattern i; apply per_cases; [| | | | |intros ? IH; exact IH].

(** ** The world of an app service left alone *)
Definition stop_plan (E : env) (p : apid) (f : fate) (T : trace) : Prop :=
  match f with NoStart => ap_exit (apps E p) = true \/ asked (stops_p p) T = 0 | Again => ap_exit (apps E p) = false | _ => asked (stops_p p) T <= 1 end.
Definition start_plan (E : env) (p : apid) (f : fate) (T : trace) : Prop :=
  match f with Again => in_turn E p T | _ => ap_exit (apps E p) = true \/ asked (starts_p p) T <= 1 end.
Record app_quiet (E : env) (p : apid) (f : fate) (T : trace) : Prop := {
  aq_none : forall t x, In (t, OInv x) T -> ~ meddles E p x;
  aq_own : forall t c a e m', In (t, OCall c) T -> performs c a e m' -> mentions p a -> m' = ap_mach (apps E p);
  aq_subs : subs_fate E p f T;
  aq_listen : forall t fin l f e st y, ~ In (t, OBack (KListen fin l (ap_mach (apps E p)) f e st) (Some y)) T;
  aq_await : forall t, ~ In (t, OWr (WrAwait p true)) T;
  aq_stop : stop_plan E p f T;
  aq_start : start_plan E p f T;
  aq_open : ~ shut_at (exec_of E (ap_mach (apps E p))) T }.

(** the lifecycle configuration *)
Definition life_conf (E : env) (p : apid) (m : mid) : sstate :=
  fold_left (fun s o => effect (sname E) (ename0 E) m o s) (lifecycle_calls p) nothing_yet.
Lemma hist_fold sn en m os : (forall os1 o os2, os = os1 ++ o :: os2 ->
    allowed sn en o (fold_left (fun s o => effect sn en m o s) os1 nothing_yet)) ->
  history sn en m os (fold_left (fun s o => effect sn en m o s) os nothing_yet).
Proof.
  induction os as [|o os IH] using rev_ind; intro H; [constructor|].
  rewrite fold_left_app. simpl. apply h_accept.
  - apply IH. intros os1 o' os2 ->. apply (H os1 o' (os2 ++ [o])). rewrite <- app_assoc. reflexivity.
  - exact (H os o [] eq_refl).
Qed.
Lemma life_hist E p m : history (sname E) (ename0 E) m (lifecycle_calls p) (life_conf E p m).
Proof.
  apply hist_fold. intros os1 o os2 H.
  Ltac allow := simpl; repeat split; try discriminate; try reflexivity;
    try (let H := fresh in intros [H|[H|H]]; discriminate H); try (intro; discriminate);
    try (eexists; split; [reflexivity|]; repeat split; intros; try discriminate; intro; discriminate).
  do 27 (destruct os1 as [|c0 os1]; [injection H; intros _ <-; clear H; solve [allow]|injection H as <- H]).
  destruct os1; discriminate.
Qed.
Lemma life_reacts E p m k l : reacts (sname E) (life_conf E p m) (Some (SApp p k)) (lifeev_name l) =
  match k, l with
  | UNINIT, LStart | STOPPED, LStart => Target (SApp p STARTING)
  | STARTING, LComplete => Target (SApp p STARTED)
  | STARTED, LStop => Target (SApp p STOPPING)
  | STOPPING, LComplete | STARTING, LError | STARTED, LError | STOPPING, LError => Target (SApp p STOPPED)
  | STOPPED, LStop => Target (SEnd m)
  | _, _ => Unmapped
  end.
Proof. destruct k, l; reflexivity. Qed.
Lemma life_not_final E p m k tb : ~ final_state (sname E) tb (life_conf E p m) (SApp p k).
Proof. intros [H|H]; destruct k; discriminate. Qed.
Lemma life_initial E p m : initial (life_conf E p m) = Some (SApp p UNINIT).
Proof. reflexivity. Qed.
Lemma life_complete E p m : ~ dangling (life_conf E p m).
Proof.
  intros (n & e & H). unfold life_conf, lifecycle_calls in H. simpl in H. unfold close, set_entry in H. simpl in H.
  repeat match type of H with context [if ?b then _ else _] => destruct b; try discriminate end.
Qed.

Section Quiet.
  Context (E : env) (w0 : mem) (p : apid) (H0 : init_mem E w0) (Hb : app_built E w0 p).
  Context (w : world) (Hr : reach E w0 w).
  Notation T := (tr (wm w)).
  Notation m := (ap_mach (apps E p)).
  Notation q := (queue_of E m).
  Notation wkr := (worker_of E m).
  Context {f : fate} (HQ : app_quiet E p f T).

  Lemma open_call t h r x its : T = h ++ r -> opened t h (FApi x) its -> In (t, OInv x) T.
  Proof.
    intros HT Ho. destruct (opened_inv _ _ _ _ Ho ltac:(discriminate)) as (a & op & b & u & -> & Hop & _).
    destruct op; try discriminate. injection Hop as ->. rewrite HT. apply in_or_app. left. apply in_or_app. right. left. reflexivity.
  Qed.
  Lemma open_cb t h r c its : T = h ++ r -> opened t h (FCall c) its -> In (t, OCall c) T.
  Proof.
    intros HT Ho. destruct (opened_inv _ _ _ _ Ho ltac:(discriminate)) as (a & op & b & u & -> & Hop & _).
    destruct op; try discriminate. injection Hop as ->. rewrite HT. apply in_or_app. left. apply in_or_app. right. left. reflexivity.
  Qed.
  (** writes only API calls make *)
  Definition api_write (o : obs) : bool :=
    match o with OWr (WrCfg _ _ _) | OWr (WrActs _ _ _) | OWr (WrPay _ _) | OWr (WrListener _ _) | OWr (WrSubs _ _) => true | _ => false end.
  Lemma code_no_write c o : mcode E c o -> api_write o = false.
  Proof.
    assert (Ha : forall a e0 m0, mact E a e0 m0 o -> api_write o = false).
    { intros a e0 m0 Ha. destruct a; simpl in Ha; dmay; subst; try reflexivity; try contradiction. }
    intro H. destruct c; simpl in H; try (eapply Ha; exact H);
      try (destruct h; dmay; subst; reflexivity); try (destruct u; dmay; subst; try reflexivity; contradiction).
    - destruct l as [[n|n nm]|n]; dmay; subst; reflexivity.
    - dmay; subst; reflexivity.
  Qed.
  Lemma api_only t o : In (t, o) T -> api_write o = true -> exists x, In (t, OInv x) T /\ mapi E x o.
  Proof.
    intros Hi Hw. apply in_split in Hi. destruct Hi as (h & r & HT).
    assert (Hc : closes o = false) by (destruct o; try discriminate; reflexivity).
    destruct (placed_at E w0 w H0 Hr _ _ _ _ HT Hc) as (k & its & u & Hs & Hm).
    assert (Hop : opened t h k its) by (unfold opened; rewrite Hs; left; reflexivity).
    destruct k as [|x|c|q' pr c]; simpl in Hm.
    - exfalso. destruct t; simpl in Hm; [dmay; subst; discriminate|destruct o; try contradiction; discriminate].
    - exists x. split; [eapply open_call; eauto|exact Hm].
    - apply code_no_write in Hm. congruence.
    - exfalso. dmay; subst; discriminate.
  Qed.
  Ltac called_by Hi := destruct (api_only _ _ Hi eq_refl) as (x & Hx & Hm); apply (aq_none _ _ _ _ HQ) in Hx;
    destruct x; simpl in Hm; try contradiction; try (dmay; discriminate).
  Lemma no_cfg t o y : ~ In (t, OWr (WrCfg m o y)) T.
  Proof. intro Hi. called_by Hi. apply Hx. simpl. destruct Hm as [y' Hm]. congruence. Qed.
  Lemma no_append t en st l : ~ In (t, OWr (WrActs en st l)) T.
  Proof. intro Hi. called_by Hi; apply Hx; exact I. Qed.
  Lemma no_pay t l y : ~ In (t, OWr (WrPay (ELife l) y)) T.
  Proof. intro Hi. called_by Hi. apply Hx. injection Hm as <- <-. exact I. Qed.
  Lemma no_listen t y : ~ In (t, OWr (WrListener m y)) T.
  Proof. intro Hi. called_by Hi. apply Hx. simpl. congruence. Qed.
  Lemma no_subs t y : ~ In (t, OWr (WrSubs p y)) T.
  Proof. intro Hi. called_by Hi. apply Hx. simpl. congruence. Qed.

  (** ** What does not change *)
  Lemma in_pre h r (x : tid * obs) : T = h ++ r -> In x h -> In x T.
  Proof. intros -> Hi. apply in_or_app. left. exact Hi. Qed.
  Lemma conf_fixed h r : T = h ++ r -> conf_at E w0 (table_of E m) h (life_conf E p m).
  Proof.
    intro HT. rewrite (ab_table _ _ _ Hb). apply (conf_same E w0 m [] h).
    - intros t o Hi. eapply no_cfg. eapply in_pre; eauto.
    - exists (lifecycle_calls p), (life_conf E p m). split; [exact (ab_cfg _ _ _ Hb)|]. split; [apply life_hist|reflexivity].
  Qed.
  Lemma acts_fixed h r en st : T = h ++ r -> acts_at w0 en st h = acts w0 en st.
  Proof.
    revert r. induction h as [|[t o] h IH] using rev_ind; intros r HT; [reflexivity|].
    rewrite <- app_assoc in HT. specialize (IH _ HT). unfold acts_at, acts_of in *. rewrite replay_snoc, IH.
    destruct o; try reflexivity. destruct w1; try reflexivity. exfalso. eapply no_append.
    rewrite HT. apply in_or_app. right. left. reflexivity.
  Qed.
  Lemma pay_fixed h r l : T = h ++ r -> pay_at w0 (ELife l) h = None.
  Proof.
    revert r. induction h as [|[t o] h IH] using rev_ind; intros r HT; [exact (ab_void _ _ _ Hb l)|].
    rewrite <- app_assoc in HT. specialize (IH _ HT). unfold pay_at, pay_of in *. rewrite replay_snoc, IH.
    destruct o; try reflexivity. destruct w1; try reflexivity.
    - destruct (eid_eqb (ELife l) e) eqn:Ee; [|reflexivity]. exfalso.
      assert (e = ELife l) as -> by (destruct e; try discriminate; simpl in Ee; destruct l, l0; try discriminate; reflexivity).
      eapply no_pay. rewrite HT. apply in_or_app. right. left. reflexivity.
    - destruct (eid_eqb (ELife l) e) eqn:Ee; [|reflexivity]. exfalso.
      destruct (copies_bound E w0 H0 w Hr t e nm p0) as (k & -> & _); [rewrite HT; apply in_or_app; right; left; reflexivity|]. discriminate.
  Qed.
  Lemma subs_fixed h r : T = h ++ r -> subsystems_at w0 p h = ap_subs (apps E p).
  Proof.
    revert r. induction h as [|[t o] h IH] using rev_ind; intros r HT; [exact (im_subs _ _ H0 p)|].
    rewrite <- app_assoc in HT. specialize (IH _ HT). unfold subsystems_at, subsystems_of in *. rewrite replay_snoc, IH.
    destruct o; try reflexivity. destruct w1; try reflexivity.
    destruct (Nat.eqb_spec p0 p) as [->|]; [|reflexivity].
    exfalso. eapply no_subs. rewrite HT. apply in_or_app. right. left. reflexivity.
  Qed.
  Lemma listener_fixed h r : T = h ++ r -> listener_at w0 m h = listener_at w0 m [].
  Proof.
    revert r. induction h as [|[t o] h IH] using rev_ind; intros r HT; [reflexivity|].
    rewrite <- app_assoc in HT. specialize (IH _ HT). unfold listener_at, listener_of in *. rewrite replay_snoc, IH.
    destruct o; try reflexivity. destruct w1 as [m' l| | | | | | | | | | | | | |]; try reflexivity.
    destruct (Nat.eqb_spec m' m) as [->|]; [|reflexivity].
    exfalso. eapply no_listen. rewrite HT. apply in_or_app. right. left. reflexivity.
  Qed.
  Lemma life_name h r l : T = h ++ r -> name_at E w0 (ELife l) h = lifeev_name l.
  Proof. intro HT. change h with ([] ++ h). rewrite (name_fixed E w0 w H0 Hr (ELife l) [] h r HT I). reflexivity. Qed.
  Lemma calm_over h r r' : T = h ++ r ++ r' -> start_over m h -> calm E m h r.
  Proof.
    intros HT Ho t x Hd. assert (Hn : ~ In (t, OInv x) T).
    { intro Hi. apply (aq_none _ _ _ _ HQ) in Hi. apply Hi. destruct x; simpl in Hd |- *; try (destruct Hd; tauto); auto.
      rewrite (ab_table _ _ _ Hb) in Hd. exact Hd. }
    split.
    - intro Hi. apply Hn. rewrite HT. apply in_or_app. right. apply in_or_app. left. exact Hi.
    - intros its Hop. apply Hn. eapply open_call; eauto.
  Qed.

  (** ** Brackets of callbacks *)
  Lemma back_inv h t c y r : T = h ++ (t, OBack c y) :: r ->
    exists a b its, h = a ++ (t, OCall c) :: b /\ span t T a (OCall c) b its (OBack c y) r.
  Proof.
    intro HT. destruct (root_stack E w0 w H0 Hr t h _ HT) as (u & i & Hs).
    assert (HT2 : T = (h ++ [(t, OBack c y)]) ++ r) by (rewrite HT, <- app_assoc; reflexivity).
    destruct (root_stack E w0 w H0 Hr t _ _ HT2) as (u2 & i2 & Hs2). rewrite (scan_snoc t h) in Hs2.
    destruct u as [|[k its] u].
    - rewrite Hs in Hs2. destruct u2; discriminate.
    - assert (Hk : k <> FRoot).
      { intros ->. rewrite scan_eq in Hs. apply (root_bottom _ [] _ _) in Hs. destruct Hs as [Hs _]. destruct u; discriminate. }
      destruct (top_bracket t h k its (u ++ [(FRoot, i)]) Hs Hk) as (a & op & b & -> & Hop & Hb' & _).
      assert (Hsp : span t T a op b its (OBack c y) r).
      { split; [rewrite HT, <- app_assoc; reflexivity|]. split; [reflexivity|exact Hb']. }
      pose proof (span_node E w0 w H0 Hr _ _ _ _ _ _ _ _ Hsp Hop) as Hn.
      destruct k as [|x|c'|q' pr c']; simpl in Hn; try contradiction. destruct Hn as [-> _].
      destruct op; try discriminate. injection Hop as ->. exists a, b, its. auto.
  Qed.
  (** a callback among the items of a bracket: its span *)
  Lemma item_span t a op b its z d i1 c y i2 : span t T a op b its z d -> its = i1 ++ called c y ++ i2 ->
    exists b1 b2 its2 b3, inner_span t b i1 b1 (OCall c) b2 its2 (OBack c y) b3 /\
      span t T (a ++ (t, op) :: b1) (OCall c) b2 its2 (OBack c y) (b3 ++ (t, z) :: d).
  Proof.
    intros (HT & Hz & Hs) Hi. destruct (nested_span t b its i1 c y i2 Hs Hi) as (b1 & b2 & its2 & b3 & Hin).
    exists b1, b2, its2, b3. split; [exact Hin|]. eapply inner_outer; [exact HT|exact Hin].
  Qed.
  Lemma span_in t a op b its z d o : span t T a op b its z d -> In o its -> In (t, o) T.
  Proof.
    intros (HT & _ & Hs) Hi. rewrite HT. apply in_or_app. right. right. apply in_or_app. left.
    eapply (its_in t b []); [exact Hs|exact Hi].
  Qed.

  (** ** fire() of a lifecycle event on the running machine *)
  Definition fire_out (pr : pid) (n : nat * nat * nat) (l : lifeev) : list obs :=
    [R (RdStarted m true); R (RdStarted m true); R (RdEnded m false); R (RdLook q (fst n)); R (RdSize q (fst n) (snd n)); OWr (WrGot pr); R (RdPay (ELife l) None);
     OWr (WrPair pr (ELife l) m); OOffer q pr (ELife l) m (ELife l) m; OSubmit (exec_of E m) {| tk_strat := strat_of E m; tk_mach := m |}].
  Lemma fire_reads t a op b its z d i1 x out i2 l : span t T a op b its z d -> its = i1 ++ out ++ i2 -> fireL E m (ELife l) x out ->
    (forall j1 v j2, out = j1 ++ R (RdStarted m v) :: j2 -> v = true) -> (forall h, during t a op b h -> ended_at m h = false) ->
    x = None /\ exists pr n, out = fire_out pr n l.
  Proof.
    intros Hs Hi Hf Hst He.
    assert (Hrd : forall j1 rd0 j2, out = j1 ++ ORd rd0 :: j2 -> exists b1 b2, b = b1 ++ b2 /\ read_at E w0 (a ++ (t, op) :: b1) rd0).
    { intros j1 rd0 j2 ->. destruct (read_moment E w0 w H0 Hr _ _ _ _ _ _ _ (i1 ++ j1) rd0 (j2 ++ i2) Hs) as (b1 & b2 & -> & _ & Hrd).
      - rewrite Hi. repeat (rewrite <- !app_assoc; simpl). reflexivity.
      - exists b1, ((t, ORd rd0) :: b2). auto. }
    assert (Hen : forall j1 v j2, out = j1 ++ R (RdEnded m v) :: j2 -> v = false).
    { intros j1 v j2 Hj. destruct (Hrd _ _ _ Hj) as (b1 & b2 & -> & H). simpl in H. rewrite H. apply He. exists b1, b2. auto. }
    assert (Hpay : forall j1 v j2, out = j1 ++ R (RdPay (ELife l) v) :: j2 -> v = None).
    { intros j1 v j2 Hj. destruct (Hrd _ _ _ Hj) as (b1 & b2 & -> & H). simpl in H. rewrite H. destruct Hs as (HT & _).
      eapply pay_fixed. rewrite HT. instantiate (1 := b2 ++ (t, z) :: d). repeat (rewrite <- !app_assoc; simpl). reflexivity. }
    assert (Hrj : forall tk, In (OWr (WrReject (exec_of E m) tk)) out -> False).
    { intros tk Hin. apply (aq_open _ _ _ _ HQ). assert (Hin2 : In (OWr (WrReject (exec_of E m) tk)) its).
      { rewrite Hi. apply in_or_app. right. apply in_or_app. left. exact Hin. }
      apply in_split in Hin2. destruct Hin2 as (j1 & j2 & Hj).
      destruct (item_moment w _ _ _ _ _ _ _ _ _ _ Hs Hj eq_refl) as (b1 & b2 & _ & _ & HT).
      destruct (truth E w0 w (im_tr _ _ H0) Hr) as [_ Ht]. destruct (Ht _ _ _ _ HT) as [Hw _]. simpl in Hw.
      rewrite (im_shut _ _ H0) in Hw. apply shut_of_in in Hw. destruct Hw as [t' Hw]. exists t'. rewrite HT. apply in_or_app. left. exact Hw. }
    destruct Hf as [Hf|[Hf|(o' & Hf & Hp)]].
    - specialize (Hst [] _ _ Hf). discriminate.
    - specialize (Hen [R (RdStarted m true); R (RdStarted m true)] _ _ Hf). discriminate.
    - destruct Hf as [Hf|Hf]; [|specialize (Hst [R (RdStarted m true)] _ _ Hf); discriminate].
      unfold processL in Hp. rewrite (ab_keep _ _ _ Hb) in Hp. destruct Hp as (c & n & o2 & -> & Hp).
      assert (Hfull : full E (strat_of E m) n = false).
      { unfold full. pose proof (ab_unbounded _ _ _ Hb). destruct (Z.ltb_spec 0 (s_max (strat E (strat_of E m)))); [lia|reflexivity]. }
      rewrite Hfull in Hp. destruct Hp as (pr & o3 & Hsub & [->|(y & nm & y' & e' & ->)]).
      + destruct Hsub as [[-> ->]|[-> ->]].
        * split; [reflexivity|]. exists pr, (c, n). rewrite Hf. reflexivity.
        * exfalso. eapply Hrj. rewrite Hf. simpl. repeat first [left; reflexivity | right].
      + exfalso. specialize (Hpay ([R (RdStarted m true); R (RdStarted m true); R (RdEnded m false)] ++
          R (RdLook (s_queue (strat E (strat_of E m))) c) :: R (RdSize (s_queue (strat E (strat_of E m))) c n) :: [OWr (WrGot pr)]) (Some y) _ Hf). discriminate.
  Qed.
  Lemma fire_exact t a op b its z d i1 x out i2 l : span t T a op b its z d -> its = i1 ++ out ++ i2 -> fireL E m (ELife l) x out ->
    start_over m a -> (forall h, during t a op b h -> ended_at m h = false) ->
    x = None /\ exists pr n, out = fire_out pr n l.
  Proof.
    intros Hs Hi Hf Ho He. eapply fire_reads; eauto. intros j1 v j2 ->.
    destruct (read_moment E w0 w H0 Hr _ _ _ _ _ _ _ (i1 ++ j1) (RdStarted m v) (j2 ++ i2) Hs) as (b1 & b2 & _ & _ & H).
    - rewrite Hi. repeat (rewrite <- !app_assoc; simpl). reflexivity.
    - simpl in H. rewrite H. apply started_app. destruct Hs as (HT & _). eapply over_started; eauto.
  Qed.

  (** ** The entry actions *)
  Definition subs_of (up : bool) : list nat := if up then ap_subs (apps E p) else rev (ap_subs (apps E p)).
  Definition subs_marks (up : bool) : list obs := flat_map (fun i => called (KSub up p i) None) (subs_of up).
  Lemma subs_map up l : flat_map (fun c => called c None) (map (KSub up p) l) = flat_map (fun i => called (KSub up p i) None) l.
  Proof. induction l as [|i l IH]; simpl; [reflexivity|]. rewrite IH. reflexivity. Qed.
  (** does a round over the subsystems break off *)
  Definition fails (up : bool) : bool := match f, up with NoStart, true | NoStop, false => true | _, _ => false end.
  Definition round (up : bool) (x : option exn) (out : list obs) : Prop :=
    if fails up then exists l1 j l2 y, subs_of up = l1 ++ j :: l2 /\ x = Some y /\ is_exception y = true /\
        out = flat_map (fun i => called (KSub up p i) None) l1 ++ called (KSub up p j) (Some y)
    else x = None /\ out = subs_marks up.
  Lemma subs_exact t a op b its z d i1 x out i2 up : span t T a op b its z d -> its = i1 ++ out ++ i2 -> subsL up p x out ->
    (f = NoStart -> up = true) -> exists marks, out = R (RdSubs p (ap_subs (apps E p))) :: marks /\ round up x marks.
  Proof.
    intros Hs Hi0 (l0 & marks & Ho & H) Hup.
    assert (Hl : l0 = ap_subs (apps E p)).
    { subst out. destruct (read_moment E w0 w H0 Hr _ _ _ _ _ _ _ i1 (RdSubs p l0) (marks ++ i2) Hs Hi0) as (b1 & b2 & -> & _ & Hv).
      simpl in Hv. rewrite Hv. destruct Hs as (HT & _). eapply subs_fixed. rewrite HT.
      instantiate (1 := (t, R (RdSubs p l0)) :: b2 ++ (t, z) :: d). repeat (rewrite <- !app_assoc; simpl). reflexivity. }
    subst l0. exists marks. split; [exact Ho|].
    assert (Hi : its = (i1 ++ [R (RdSubs p (ap_subs (apps E p)))]) ++ marks ++ i2) by (rewrite Hi0, Ho, <- app_assoc; reflexivity).
    clear Hi0 Ho. revert Hi H. generalize (i1 ++ [R (RdSubs p (ap_subs (apps E p)))]). clear i1 out. rename marks into out. intros i1 Hi H.
    apply calls_one in H. destruct (aq_subs _ _ _ _ HQ) as [Hexn HF].
    assert (Hin : forall o, In o out -> In (t, o) T).
    { intros o Ho. eapply span_in; [exact Hs|]. rewrite Hi. apply in_or_app. right. apply in_or_app. left. exact Ho. }
    destruct H as [[-> Hout]|(c1 & c & c2 & y & Hc & -> & Hout)].
    - assert (Hm : out = subs_marks up) by (rewrite Hout; unfold subs_marks, subs_of; destruct up; apply subs_map).
      unfold round. destruct (fails up) eqn:Ef; [exfalso|auto].
      assert (Hback : forall i, In i (ap_subs (apps E p)) -> In (t, OBack (KSub up p i) None) T).
      { intros i Hii. apply Hin. rewrite Hm. unfold subs_marks. apply in_flat_map. exists i. split; [|simpl; auto].
        unfold subs_of. destruct up; [exact Hii|rewrite <- in_rev; exact Hii]. }
      unfold fails in Ef. destruct f, up; try discriminate.
      + destruct HF as (i & Hii & HF). exact (HF t (Hback i Hii)).
      + destruct HF as (_ & i & Hii & HF). exact (HF t (Hback i Hii)).
    - change (map (KSub up p) (subs_of up) = c1 ++ c :: c2) in Hc. apply map_eq_app in Hc. destruct Hc as (l1 & l2' & Hl & <- & Hc).
      destruct l2' as [|j l2]; [discriminate|]. injection Hc as <- <-. rewrite subs_map in Hout.
      assert (Hbk : In (t, OBack (KSub up p j) (Some y)) T).
      { apply Hin. rewrite Hout. apply in_or_app. right. right. left. reflexivity. }
      unfold round. destruct (fails up) eqn:Ef; [exists l1, j, l2, y; repeat split; auto; exact (Hexn _ _ _ _ Hbk)|exfalso].
      unfold fails in Ef. destruct f, up; try discriminate.
      + exact (HF _ _ _ _ Hbk).
      + exact (HF _ _ _ _ Hbk).
      + discriminate (Hup eq_refl).
      + exact (proj1 HF _ _ _ Hbk).
      + exact (HF _ _ _ _ Hbk).
      + exact (HF _ _ _ _ Hbk).
  Qed.
  Definition log_line (k : appst) : obs :=
    match k with STARTING => OLog ("Starting " ++ ap_name (apps E p) ++ " with args [" ++ String.concat ", " (ap_args (apps E p)) ++ "]")%string | STOPPING => OLog ("Stopping " ++ ap_name (apps E p))%string
    | _ => OLog ("Stopped " ++ ap_name (apps E p))%string end.
  (** the marks before the first subsystem *)
  Definition opening (up : bool) : list obs := [log_line (if up then STARTING else STOPPING); R (RdSubs p (ap_subs (apps E p)))].
  Section Act.
  Context (t : tid) (a : trace) (c : call) (b : trace) (its : list obs) (x : option exn) (d : trace) (e : eid) (m' : mid).
  Context (Hs : span t T a (OCall c) b its (OBack c x) d) (Ho : start_over m a).
  Context (He : forall h, during t a (OCall c) b h -> ended_at m h = false).
  Lemma act_subs (up : bool) : performs c (if up then AAppStarting p else AAppStopping p) e m' -> (f = NoStart -> up = true) ->
    if fails up then exists marks, round up x marks /\ its = opening up ++ marks
    else x = None /\ exists pr n, its = opening up ++ subs_marks up ++ fire_out pr n LComplete.
  Proof.
    intros Hp Hup. pose proof (span_node E w0 w H0 Hr _ _ _ _ _ _ _ (FCall c) Hs eq_refl) as [_ Hn].
    rewrite (performs_code _ _ _ _ _ Hp) in Hn.
    assert (Hn2 : seqx (emit [log_line (if up then STARTING else STOPPING)])
      (seqx (subsL up p) (fireL E m (ELife LComplete))) x its) by (destruct up; exact Hn). clear Hn.
    destruct Hn2 as [(y & -> & [? _])|(o1 & o2 & Hi & [_ ->] & Hn)]; [discriminate|].
    destruct Hn as [(y & -> & Hn)|(o3 & o4 & -> & Hn & Hf)].
    - pose proof (subs_exact _ _ _ _ _ _ _ [log_line (if up then STARTING else STOPPING)] (Some y) o2 [] up Hs ltac:(rewrite app_nil_r; exact Hi) Hn Hup) as (marks & Ho2 & Hrd).
      destruct (fails up) eqn:Ef; [|exfalso; unfold round in Hrd; rewrite Ef in Hrd; destruct Hrd; discriminate].
      exists marks. split; [exact Hrd|]. rewrite Hi, Ho2. reflexivity.
    - pose proof (subs_exact _ _ _ _ _ _ _ [log_line (if up then STARTING else STOPPING)] _ o3 o4 up Hs Hi Hn Hup) as (marks & Ho2 & Hrd). subst o3.
      unfold round in Hrd. destruct (fails up) eqn:Ef; [exfalso; destruct Hrd as (? & ? & ? & ? & _ & Hx & _); discriminate|]. destruct Hrd as [_ ->].
      destruct (fire_exact _ _ _ _ _ _ _ (opening up ++ subs_marks up) x o4 [] LComplete Hs) as (-> & pr & n & ->); auto.
      + rewrite app_nil_r, <- app_assoc. exact Hi.
      + split; [reflexivity|]. exists pr, n. exact Hi.
  Qed.
  (** the handler reads the state, writes a line and sends ERROR *)
  Definition handled_items (l : list obs) : Prop := exists st pr n, l = R (RdCur m st) ::
    OLog ("Error while " ++ ap_name (apps E p) ++ " is in [" ++ show_state E st ++ "] state")%string :: fire_out pr n LError.
  Lemma act_handler y : c = KHandler (HApp p) e m y -> x = None /\ handled_items its.
  Proof.
    intro Hc. pose proof (span_node E w0 w H0 Hr _ _ _ _ _ _ _ (FCall c) Hs eq_refl) as [_ Hn].
    rewrite Hc in Hn. destruct Hn as (st & o & Hi & Hn).
    destruct Hn as [(v & -> & [? _])|(o1 & o2 & -> & [_ ->] & Hf)]; [discriminate|].
    destruct (fire_exact _ _ _ _ _ _ _ [R (RdCur m st); OLog ("Error while " ++ ap_name (apps E p) ++ " is in [" ++ show_state E st ++ "] state")%string] x o2 [] LError Hs) as (-> & pr & n & ->); auto.
    - rewrite app_nil_r. exact Hi.
    - split; [reflexivity|]. exists st, pr, n. exact Hi.
  Qed.
  Lemma act_stopped : performs c (AAppStopped p) e m' ->
    x = None /\ (if ap_exit (apps E p) then exists pr n, its = log_line STOPPED :: fire_out pr n LStop ++ [OWr (WrLatch p)]
                 else its = [log_line STOPPED]).
  Proof.
    intro Hp. pose proof (span_node E w0 w H0 Hr _ _ _ _ _ _ _ (FCall c) Hs eq_refl) as [_ Hn].
    rewrite (performs_code _ _ _ _ _ Hp) in Hn. simpl in Hn.
    destruct Hn as [(y & -> & [? _])|(o1 & o2 & Hi & [_ ->] & Hn)]; [discriminate|].
    destruct (ap_exit (apps E p)).
    - destruct Hn as [(y & -> & Hf)|(o3 & o4 & -> & Hf & [-> ->])].
      + exfalso. destruct (fire_exact _ _ _ _ _ _ _ [log_line STOPPED] (Some y) o2 [] LStop Hs) as [? _]; auto; [|discriminate].
        rewrite app_nil_r. exact Hi.
      + destruct (fire_exact _ _ _ _ _ _ _ [log_line STOPPED] None o3 [OWr (WrLatch p)] LStop Hs) as (_ & pr & n & ->); auto.
        split; [reflexivity|]. exists pr, n. exact Hi.
    - destruct Hn as [-> ->]. rewrite app_nil_r in Hi. auto.
  Qed.
  Lemma act_started : performs c (AAppStarted p) e m' -> x = None /\ its = [].
  Proof.
    intro Hp. pose proof (span_node E w0 w H0 Hr _ _ _ _ _ _ _ (FCall c) Hs eq_refl) as [_ Hn].
    rewrite (performs_code _ _ _ _ _ Hp) in Hn. exact Hn.
  Qed.
  End Act.
  Lemma during_inner t a op b i1 b1 op1 b2 its1 z1 b3 h : inner_span t b i1 b1 op1 b2 its1 z1 b3 ->
    during t (a ++ (t, op) :: b1) op1 b2 h -> during t a op b h.
  Proof.
    intros ((-> & _) & _) (x1 & x2 & -> & ->). exists (b1 ++ (t, op1) :: x1), (x2 ++ (t, z1) :: b3).
    split; repeat (rewrite <- !app_assoc; simpl); reflexivity.
  Qed.
  (** the action that the app service made for state k *)
  Definition own_action (k : appst) : option action :=
    match k with STARTING => Some (AAppStarting p) | STARTED => Some (AAppStarted p) | STOPPING => Some (AAppStopping p) | _ => None end.
  (** does the action of state k throw *)
  Definition throws (k : appst) : bool := match k with STARTING => fails true | STOPPING => fails false | _ => false end.
  Lemma act_handle t a c b its x d e k a' : span t T a (OCall c) b its (OBack c x) d -> start_over m a ->
    (forall h, during t a (OCall c) b h -> ended_at m h = false) -> own_action k = Some a' -> performs c (AHandle a' (HApp p)) e m ->
    (f = NoStart -> k = STARTING) ->
    x = None /\ if throws k then exists y, its = called (KInner a' e m) (Some y) ++ called (KHandler (HApp p) e m y) None
      else its = called (KInner a' e m) None.
  Proof.
    intros Hs Ho He Hk Hp Hup. destruct (handled E w0 w H0 Hr _ _ _ _ _ _ _ _ _ _ _ Hp Hs) as (y & Hy).
    assert (Hnone : forall i2, its = called (KInner a' e m) y ++ i2 -> if throws k then exists v, y = Some v /\ is_exception v = true else y = None).
    { intros i2 Hi. destruct (item_span _ _ _ _ _ _ _ [] _ _ _ Hs Hi) as (b1 & b2 & its2 & b3 & Hin & Hsp).
      assert (Ho2 : start_over m (a ++ (t, OCall c) :: b1)) by (apply over_later; exact Ho).
      assert (He2 : forall h, during t (a ++ (t, OCall c) :: b1) (OCall (KInner a' e m)) b2 h -> ended_at m h = false).
      { intros h Hd. apply He. eapply during_inner; eauto. }
      destruct k; try discriminate; injection Hk as <-.
      - pose proof (act_subs _ _ _ _ _ _ _ e m Hsp Ho2 He2 true ltac:(right; reflexivity) ltac:(auto)) as H. simpl. unfold round in H.
        destruct (fails true); [|exact (proj1 H)]. destruct H as (marks & (l1 & j & l2 & v & _ & -> & Hv & _) & _). eauto.
      - destruct (act_started _ _ _ _ _ _ _ e m Hsp) as [H _]; [right; reflexivity|exact H].
      - assert (Hup2 : f = NoStart -> false = true) by (intro X; discriminate (Hup X)).
        pose proof (act_subs _ _ _ _ _ _ _ e m Hsp Ho2 He2 false ltac:(right; reflexivity) Hup2) as H. simpl. unfold round in H.
        destruct (fails false); [|exact (proj1 H)]. destruct H as (marks & (l1 & j & l2 & v & _ & -> & Hv & _) & _). eauto. }
    destruct y as [v|].
    - destruct (is_exception v) eqn:Ev.
      + specialize (Hnone _ Hy). destruct (throws k); [|discriminate].
        assert (Hy2 : its = called (KInner a' e m) (Some v) ++ called (KHandler (HApp p) e m v) x ++ []) by (rewrite app_nil_r; exact Hy).
        destruct (item_span _ _ _ _ _ _ _ _ _ _ _ Hs Hy2) as (b1 & b2 & its2 & b3 & Hin & Hsp).
        destruct (act_handler _ _ _ _ _ _ _ e Hsp ltac:(apply over_later; exact Ho)) with (y := v) as [-> _]; [|reflexivity|].
        { intros h Hd. apply He. eapply during_inner; eauto. }
        split; [reflexivity|]. exists v. exact Hy.
      + exfalso. destruct Hy as [Hy _]. specialize (Hnone [] ltac:(rewrite app_nil_r; exact Hy)). destruct (throws k); [|discriminate].
        destruct Hnone as (v' & [= <-] & Hv). congruence.
    - destruct Hy as [-> ->]. specialize (Hnone [] eq_refl). destruct (throws k); [destruct Hnone as (v & ? & _); discriminate|auto].
  Qed.

  (** a callback that returned inside a bracket *)
  Lemma item_back t a op b its z d c y : span t T a op b its z d -> In (OBack c y) its ->
    exists i1 i2, its = i1 ++ called c y ++ i2.
  Proof.
    intros (HT & _ & Hs) Hi. apply in_split in Hi. destruct Hi as (i1 & i2 & Hi).
    destruct (closing_item t b [] its i1 (OBack c y) i2 Hs Hi eq_refl) as (i0 & b1 & op1 & b2 & its2 & b3 & k & -> & Hop & Hin).
    pose proof (inner_outer _ _ _ _ _ _ _ _ _ _ _ _ _ HT Hin) as Hsp.
    pose proof (span_node E w0 w H0 Hr _ _ _ _ _ _ _ _ Hsp Hop) as Hn.
    destruct k as [|x|c'|q' pr c']; simpl in Hn; try contradiction. destruct Hn as [-> _].
    destruct op1; try discriminate. injection Hop as ->. exists i0, i2. rewrite Hi, <- app_assoc. reflexivity.
  Qed.

  (** ** The processing of the lifecycle events *)
  (** the state after i events, the i-th event, the number of events but the last *)
  Definition lst (i : nat) : sid :=
    match f with
    | Again => match i with 0 => SApp p UNINIT | S j => SApp p (per STARTING STARTED STOPPING STOPPED j) end
    | NoStart => match i with 0 => SApp p UNINIT | 1 => SApp p STARTING | 2 => SApp p STOPPED | _ => SEnd m end
    | _ => match i with 0 => SApp p UNINIT | 1 => SApp p STARTING | 2 => SApp p STARTED | 3 => SApp p STOPPING | 4 => SApp p STOPPED | _ => SEnd m end
    end.
  Definition lev (i : nat) : lifeev :=
    match f with
    | Again => per LStart LComplete LStop LComplete i
    | AllGo => match i with 0 => LStart | 1 => LComplete | 2 => LStop | 3 => LComplete | _ => LStop end
    | NoStart => match i with 0 => LStart | 1 => LError | _ => LStop end
    | NoStop => match i with 0 => LStart | 1 => LComplete | 2 => LStop | 3 => LError | _ => LStop end
    end.
  Definition lastk : nat := match f with NoStart => 2 | _ => 4 end.
  (** is there an i-th event, is it the last one, does it lead to STOPPED *)
  Definition inplan (i : nat) : Prop := match f with Again => True | _ => i <= lastk end.
  Definition isend (i : nat) : bool := match f with Again => false | _ => Nat.eqb i lastk end.
  Definition tostop (i : nat) : bool := match f with Again => per false false false true i | _ => Nat.eqb (S i) lastk end.
  Lemma upto_dec i : inplan i -> {isend i = true} + {inplan (S i)}.
  Proof. clear. unfold inplan, isend. case f; intro H; auto; (destruct (Nat.eqb_spec i lastk); [left; reflexivity|right; lia]). Qed.
  Lemma end_not i : isend i = true -> inplan (S i) -> False.
  Proof. clear. unfold inplan, isend. case f; intro H; try discriminate; apply Nat.eqb_eq in H; lia. Qed.
  Lemma not_end i : inplan (S i) -> isend i = false.
  Proof. intro H. destruct (isend i) eqn:Ei; [destruct (end_not i Ei H)|reflexivity]. Qed.
  Lemma upto_S i : inplan (S i) -> inplan i.
  Proof. clear. unfold inplan. case f; intro; auto; lia. Qed.
  Definition lacts (i : nat) : list action :=
    match lst i with SApp _ k => app_entry_actions p k | _ => [] end.
  Lemma lacts_ok i h r : T = h ++ r -> acts_at w0 true (lst i) h = lacts i.
  Proof.
    intro HT. rewrite (acts_fixed h r _ _ HT).
    unfold lacts, lst. destruct f; [..|destruct i; simpl; apply (ab_entry _ _ _ Hb)];
      destruct i as [|[|[|[|[|i]]]]]; simpl; try apply (ab_entry _ _ _ Hb); apply (ab_end _ _ _ Hb).
  Qed.
  Ltac by_case i := clear; unfold lacts, lst, lev, inplan, isend, lastk; case f; [destruct i as [|[|[|[|[|i]]]]]..|by_per i].
  Lemma plan_next i : inplan i -> reacts (sname E) (life_conf E p m) (Some (lst i)) (lifeev_name (lev i)) = Target (lst (S i)).
  Proof. by_case i; intro; try reflexivity; lia. Qed.
  Lemma plan_noop i : String.eqb (sname E (lst (S i))) "_NOOP_" = false.
  Proof. by_case i; reflexivity. Qed.
  Lemma plan_end i : inplan i -> String.eqb (sname E (lst (S i))) "_END_" = isend i.
  Proof. by_case i; intro; try reflexivity; lia. Qed.
  Lemma plan_state i : inplan i -> exists k, lst i = SApp p k.
  Proof. by_case i; intro; try (eexists; reflexivity); lia. Qed.
  Lemma plan_acts i : lacts (S i) = [] \/ exists ac, lacts (S i) = [ac].
  Proof. by_case i; simpl; eauto. Qed.
  Lemma plan_act i ac : inplan i -> lacts (S i) = [ac] -> isend i = false /\
    ((exists k a', own_action k = Some a' /\ ac = AHandle a' (HApp p) /\ (f = NoStart -> k = STARTING)) \/ ac = AAppStopped p).
  Proof.
    by_case i; simpl; intros Hi Hl; try discriminate; try lia; injection Hl as <-; (split; [reflexivity|]); try (right; reflexivity); left;
    first [exists STARTING; eexists; repeat split; discriminate|exists STARTED; eexists; repeat split; discriminate
      |exists STOPPING; eexists; repeat split; discriminate|exists STARTING; eexists; repeat split].
  Qed.
  Lemma plan_final i tb : inplan (S i) -> ~ final_state (sname E) tb (life_conf E p m) (lst (S i)).
  Proof. by_case i; intro; try lia; apply life_not_final. Qed.
  Definition note (out : list obs) : Prop := out = [] \/ exists fin l f e s, out = called (KListen fin l m f e s) None.
  Section Take.
  Context (t : tid) (a : trace) (pr : pid) (b : trace) (its : list obs) (z : obs) (d : trace) (i : nat) (Hi : inplan i).
  Notation op := (OTake q pr (Some (ELife (lev i), m))).
  Context (Hs : span t T a op b its z d) (Ho : start_over m a) (Hst : mstate_at m a = (Some (lst i), false)).
  Lemma take_calm : calm E m a ((t, op) :: b).
  Proof. destruct Hs as (HT & _). apply (calm_over a ((t, op) :: b) ((t, z) :: d)); [rewrite HT; reflexivity|exact Ho]. Qed.
  Lemma take_not_ended : ~ In (OEnded m) its -> forall h, during t a op b h -> ended_at m h = false.
  Proof.
    intros Hn h (b1 & b2 & Hbb & ->).
    destruct (own_marks E w0 w H0 Hr m (ab_queue _ _ _ Hb) (ab_thread _ _ _ Hb) _ _ _ _ _ _ _ _ Hs take_calm b1 b2 Hbb) as (u & i1 & Hsc & Hf).
    change (replay (endf m) false (a ++ (t, op) :: b1) = false). rewrite (value_at E m t a pr (ELife (lev i)) (endf m) false b1 i1 (endf_irr E m) Hf).
    assert (Hi1 : ~ In (OEnded m) i1).
    { intro Hin. apply Hn. destruct Hs as (_ & _ & Hsb). rewrite Hbb in Hsb.
      destruct (root_kept_t _ _ _ [] _ Hsb) as (u1 & j1 & j2 & Hj & ->). rewrite Hsc in Hj.
      apply app_inj_tail in Hj. destruct Hj as [_ [= ->]]. apply in_or_app. left. exact Hin. }
    assert (He0 : replay (endf m) false a = false) by (apply (f_equal snd) in Hst; exact Hst).
    rewrite He0. clear - Hi1. unfold play. revert Hi1. induction i1 as [|o i1 IH]; intro H; [reflexivity|]. simpl.
    assert (Ho : endf m false o = false).
    { destruct o as [| | | | | | | | | | |m'|m'| | |]; simpl; try reflexivity; [|destruct (Nat.eqb _ _); reflexivity].
      destruct (Nat.eqb_spec m' m) as [->|]; [|reflexivity]. exfalso. apply H. left. reflexivity. }
    rewrite Ho. apply IH. intro Hin. apply H. right. exact Hin.
  Qed.
  Lemma take_life : z = ODone q pr None /\ mstate_at m (a ++ (t, op) :: b ++ [(t, z)]) = (Some (lst (S i)), isend i) /\
    exists N1 N2, note N1 /\ note N2 /\ shown its = N1 ++ (if isend i then [OEnded m] else []) ++ OState m (lst (S i)) ::
      flat_map (fun ac => called (KAct true ac (lst (S i)) (ELife (lev i)) m) None) (lacts (S i)) ++ N2.
  Proof.
    assert (HT : T = a ++ (t, op) :: b ++ (t, z) :: d) by (destruct Hs as (HT & _); exact HT).
    assert (Hu : undisturbed E w m t a pr (ELife (lev i)) b its z d).
    { split; [exact (ab_queue _ _ _ Hb)|]. split; [exact (ab_thread _ _ _ Hb)|]. split; [exact Hs|exact take_calm]. }
    destruct (one_event E w0 w H0 Hr m t a pr _ b its z d _ Hu (conf_fixed a _ HT)) as (x & h & Hz & (b1 & b2 & Hbb & Hh) & Hev).
    rewrite (life_name h ((b2 ++ (t, z) :: d)) (lev i)) in Hev
      by (rewrite Hh, HT, Hbb; repeat (rewrite <- !app_assoc; simpl); reflexivity).
    destruct Hev as (y & P & Rep & Hsh & Hrep & Hre). rewrite Hst in Hre. cbv [snd] in Hre. cbv [fst] in Hre.
    assert (Htg : reacts (sname E) (life_conf E p m) (Some (lst i)) (lifeev_name (lev i)) = Target (lst (S i))) by (apply plan_next; exact Hi).
    rewrite Htg in Hre. unfold react in Hre.
    assert (Hnn : String.eqb (sname E (lst (S i))) "_NOOP_" = false) by apply plan_noop.
    rewrite Hnn in Hre. cbv zeta in Hre.
    assert (Hin : forall o, In o P -> In o its).
    { intros o Hop. apply (shown_in o its). rewrite Hsh. apply in_or_app. left. exact Hop. }
    assert (Hli : forall fin f s x0 out s0 s1, notice m (listener_at w0 m a) (ELife (lev i)) fin f s s0 x0 out s1 ->
      (forall o, In o out -> In o P) -> s1 = s0 /\ x0 = None /\ note out).
    { intros fin f0 s x0 out s0 s1 (-> & Hn) Hsub. split; [reflexivity|]. destruct (listener_at w0 m a) as [l|].
      - destruct x0 as [v|]; [exfalso|split; [reflexivity|right; exists fin, l, f0, (ELife (lev i)), s; exact Hn]].
        eapply (aq_listen _ _ _ _ HQ). eapply span_in; [exact Hs|]. apply Hin. apply Hsub. rewrite Hn. right. left. reflexivity.
      - destruct Hn as [-> ->]. split; [reflexivity|left; reflexivity]. }
    destruct Hre as [(v & -> & Hn)|(s1 & N1 & o2 & HP & Hn & Hre)].
    { destruct (Hli _ _ _ _ _ _ _ Hn) as (_ & ? & _); [auto|discriminate]. }
    destruct (Hli _ _ _ _ _ _ _ Hn) as (-> & _ & HN1); [intros o Hop; rewrite HP; apply in_or_app; auto|].
    assert (Hex : acts_at w0 false (lst i) a = []).
    { rewrite (acts_fixed a _ _ _ HT). destruct (plan_state i Hi) as (k & ->). apply (ab_exit _ _ _ Hb). }
    destruct Hre as [(v & -> & (_ & Ha))|(s1 & o3 & o4 & -> & (-> & Ha) & Hre)]; cbv [fst] in Ha; rewrite Hex in Ha; destruct Ha as [Ha1 ->]; [discriminate|].
    destruct Hre as [(v & -> & (? & _))|(s1 & o3 & o5 & -> & (_ & Hmv) & Hre)]; [discriminate|]. cbv [snd] in Hmv.
    destruct Hmv as [-> ->].
    assert (Hend : String.eqb (sname E (lst (S i))) "_END_" = isend i) by (apply plan_end; exact Hi).
    rewrite Hend in *.
    assert (Hacts : forall x0 out s0 s1, actions m (fun en s => acts_at w0 en s a) (ELife (lev i)) true s0 x0 out s1 -> fst s0 = Some (lst (S i)) ->
      s1 = s0 /\ acted m (ELife (lev i)) true (lst (S i)) (lacts (S i)) x0 out).
    { intros x0 out s0 s1 (-> & Ha) Hs0. split; [reflexivity|]. rewrite Hs0 in Ha. rewrite (lacts_ok (S i) a _ HT) in Ha. exact Ha. }
    assert (Hrep_no : ~ In (OEnded m) Rep).
    { destruct (rep_marks _ _ _ _ _ _ Hrep) as [->|(v & _ & _ & ->)]; [auto|]. intros [?|[?|[]]]; discriminate. }
    assert (HN_no : forall N, note N -> ~ In (OEnded m) N).
    { intros N [->|(? & ? & ? & ? & ? & ->)]; [auto|]. intros [?|[?|[]]]; discriminate. }
    (* the actions do not throw *)
    assert (Hdone : forall out x0, acted m (ELife (lev i)) true (lst (S i)) (lacts (S i)) x0 out -> (forall o, In o out -> In o P) ->
      (isend i = false -> ~ In (OEnded m) its) -> x0 = None /\
      out = flat_map (fun ac => called (KAct true ac (lst (S i)) (ELife (lev i)) m) None) (lacts (S i))).
    { intros out x0 Ha Hsub Hne.
      assert (Hone : lacts (S i) = [] \/ exists ac, lacts (S i) = [ac]) by apply plan_acts.
      destruct Hone as [Hl|[ac Hl]]; rewrite Hl in Ha |- *; [exact Ha|]. simpl in Ha |- *.
      destruct Ha as [(v & -> & ->)|(o & -> & -> & ->)]; [exfalso|auto].
      destruct (plan_act i ac Hi Hl) as [Hi4 Hk].
      assert (Hbk : In (OBack (KAct true ac (lst (S i)) (ELife (lev i)) m) (Some v)) its) by (apply Hin, Hsub; right; left; reflexivity).
      destruct (item_back _ _ _ _ _ _ _ _ _ Hs Hbk) as (j1 & j2 & Hj).
      destruct (item_span _ _ _ _ _ _ _ _ _ _ _ Hs Hj) as (c1 & c2 & its2 & c3 & Hinn & Hsp).
      assert (Ho2 : start_over m (a ++ (t, op) :: c1)) by (apply over_later; exact Ho).
      assert (He2 : forall h, during t (a ++ (t, op) :: c1) (OCall (KAct true ac (lst (S i)) (ELife (lev i)) m)) c2 h -> ended_at m h = false).
      { intros h0 Hd. apply (take_not_ended (Hne Hi4)). eapply during_inner; eauto. }
      assert (Hpf : performs (KAct true ac (lst (S i)) (ELife (lev i)) m) ac (ELife (lev i)) m) by (left; eauto).
      destruct Hk as [(k & a' & Hk & -> & Hup)| ->].
      - destruct (act_handle _ _ _ _ _ _ _ _ k _ Hsp Ho2 He2 Hk Hpf Hup); discriminate.
      - destruct (act_stopped _ _ _ _ _ _ _ _ _ Hsp Ho2 He2 Hpf); discriminate. }
    assert (Hacts_no : forall out x0, acted m (ELife (lev i)) true (lst (S i)) (lacts (S i)) x0 out -> ~ In (OEnded m) out).
    { intros out x0 Ha Hi0. assert (Hone : lacts (S i) = [] \/ exists ac, lacts (S i) = [ac]) by apply plan_acts.
      destruct Hone as [Hl|[ac Hl]]; rewrite Hl in Ha; simpl in Ha.
      - destruct Ha as [_ ->]. exact Hi0.
      - destruct Ha as [(v & _ & ->)|(o & -> & _ & ->)]; simpl in Hi0; repeat (destruct Hi0 as [Hi0|Hi0]; [discriminate|]); exact Hi0. }
    assert (Hits : forall o, In (OEnded m) its -> shown its = o -> In (OEnded m) o).
    { intros o Hi0 <-. apply shown_in. auto. }
    destruct Hre as [(v & -> & Ha)|(s1 & o3 & o6 & -> & Ha & Hre)].
    { exfalso. apply Hacts in Ha; [|reflexivity]. destruct Ha as [_ Ha].
      destruct (Hdone _ _ Ha) as [? _]; [| |discriminate].
      - intros o Hop. rewrite HP. simpl. repeat (apply in_or_app; right). exact Hop.
      - intros Hi4 Hin0. rewrite Hi4 in HP. simpl in HP. specialize (Hits _ Hin0 Hsh). rewrite HP in Hits.
        apply in_app_or in Hits. destruct Hits as [Hits|Hits]; [|exact (Hrep_no Hits)].
        apply in_app_or in Hits. destruct Hits as [Hits|[Hits|Hits]]; [exact (HN_no _ HN1 Hits)|discriminate|exact (Hacts_no _ _ Ha Hits)]. }
    apply Hacts in Ha; [|reflexivity]. destruct Ha as [-> Ha].
    destruct Hre as [(v & -> & Hn2)|(s2 & N2 & o7 & -> & Hn2 & Hre)].
    { destruct (Hli _ _ _ _ _ _ _ Hn2) as (_ & ? & _); [|discriminate].
      intros o Hop. rewrite HP. simpl. repeat (apply in_or_app; right). exact Hop. }
    destruct (Hli _ _ _ _ _ _ _ Hn2) as (-> & _ & HN2).
    { intros o Hop. rewrite HP. simpl. apply in_or_app; right. apply in_or_app; right. apply in_or_app. right. apply in_or_app. left. exact Hop. }
    assert (Hcl : mstate_at m (a ++ (t, op) :: b ++ [(t, z)]) = (Some (lst (S i)), isend i) /\ y = None /\ o7 = []).
    { destruct Hre as [(Hfin & -> & Hmv)|(_ & -> & -> & ->)]; [|auto]. cbv [snd] in Hmv.
      destruct (isend i) eqn:Ei.
      - destruct Hmv as [-> ->]. auto.
      - exfalso. destruct (upto_dec i Hi) as [Ej|Hj]; [congruence|]. exact (plan_final i _ Hj Hfin). }
    destruct Hcl as (Hcl & -> & ->). destruct Hrep as [-> ->].
    split; [exact Hz|]. split; [exact Hcl|]. exists N1, N2. split; [exact HN1|]. split; [exact HN2|].
    destruct (Hdone _ _ Ha) as [_ Ho3].
    - intros o Hop. rewrite HP. simpl. apply in_or_app; right. apply in_or_app; right. apply in_or_app. left. exact Hop.
    - intros Hi4 Hin0. rewrite Hi4 in HP. simpl in HP. specialize (Hits _ Hin0 Hsh). rewrite HP in Hits.
      rewrite !app_nil_r in Hits. apply in_app_or in Hits. destruct Hits as [Hits|[Hits|Hits]]; [exact (HN_no _ HN1 Hits)|discriminate|].
      apply in_app_or in Hits. destruct Hits as [Hits|Hits]; [exact (Hacts_no _ _ Ha Hits)|exact (HN_no _ HN2 Hits)].
    - rewrite Hsh, HP, Ho3, !app_nil_r. simpl. rewrite <- !app_assoc. reflexivity.
  Qed.
  Lemma take_running : inplan (S i) -> ~ In (OEnded m) its.
  Proof.
    intros Hi4 Hin. destruct take_life as (_ & _ & N1 & N2 & H1 & H2 & Hsh).
    assert (H : In (OEnded m) (shown its)) by (apply shown_in; auto). rewrite Hsh in H.
    assert (HN_no : forall N, note N -> ~ In (OEnded m) N).
    { intros N [->|(? & ? & ? & ? & ? & ->)]; [auto|]. intros [?|[?|[]]]; discriminate. }
    rewrite (not_end i Hi4) in H. simpl in H. apply in_app_or in H. destruct H as [H|[H|H]]; [exact (HN_no _ H1 H)|discriminate|].
    apply in_app_or in H. destruct H as [H|H]; [|exact (HN_no _ H2 H)]. apply in_flat_map in H. destruct H as (ac & _ & [H|[H|[]]]); discriminate.
  Qed.
  Lemma take_states b1 b2 u i1 : b = b1 ++ b2 -> fst (scan t b1) = u ++ [(FRoot, i1)] -> forall s, In (OState m s) i1 -> s = lst (S i).
  Proof.
    intros Hbb Hsc.
    intros s Hin. assert (Hin2 : In (OState m s) (shown its)).
      { apply shown_in. split; [|reflexivity]. destruct Hs as (_ & _ & Hsb). rewrite Hbb in Hsb.
        destruct (root_kept_t _ _ _ [] _ Hsb) as (u1 & j1 & j2 & Hj & ->). rewrite Hsc in Hj.
        apply app_inj_tail in Hj. destruct Hj as [_ [= ->]]. apply in_or_app. left. exact Hin. }
      destruct take_life as (_ & _ & N1 & N2 & H1 & H2 & Hsh). rewrite Hsh in Hin2.
      assert (HN_no : forall N, note N -> ~ In (OState m s) N).
      { intros N [->|(? & ? & ? & ? & ? & ->)]; [auto|]. intros [?|[?|[]]]; discriminate. }
      apply in_app_or in Hin2. destruct Hin2 as [H|H]; [destruct (HN_no _ H1 H)|].
      apply in_app_or in H. destruct H as [H|[H|H]].
      - destruct (isend i); [destruct H as [H|[]]; discriminate|destruct H].
      - injection H as <-. reflexivity.
      - apply in_app_or in H. destruct H as [H|H]; [|destruct (HN_no _ H2 H)].
        apply in_flat_map in H. destruct H as (ac & _ & [H|[H|[]]]); discriminate.
  Qed.
  Lemma take_cur h : during t a op b h -> cur_at m h = Some (lst i) \/ cur_at m h = Some (lst (S i)).
  Proof.
    intros (b1 & b2 & Hbb & ->).
    destruct (own_marks E w0 w H0 Hr m (ab_queue _ _ _ Hb) (ab_thread _ _ _ Hb) _ _ _ _ _ _ _ _ Hs take_calm b1 b2 Hbb) as (u & i1 & Hsc & Hf).
    change (replay (curf m) None (a ++ (t, op) :: b1) = Some (lst i) \/ replay (curf m) None (a ++ (t, op) :: b1) = Some (lst (S i))).
    rewrite (value_at E m t a pr (ELife (lev i)) (curf m) None b1 i1 (curf_irr E m) Hf).
    pose proof (take_states b1 b2 u i1 Hbb Hsc) as Hi1.
    assert (He0 : replay (curf m) None a = Some (lst i)) by (apply (f_equal fst) in Hst; exact Hst).
    rewrite He0. clear - Hi1. unfold play.
    assert (Hg : forall v, v = Some (lst i) \/ v = Some (lst (S i)) ->
      fold_left (curf m) i1 v = Some (lst i) \/ fold_left (curf m) i1 v = Some (lst (S i))); [|apply Hg; left; reflexivity].
    revert Hi1. induction i1 as [|o i1 IH]; intros H v Hv; [exact Hv|]. simpl. apply IH.
    - intros s Hin. apply H. right. exact Hin.
    - destruct o as [| | | | | | | | | |m' s'| | | | |]; simpl; auto. destruct (Nat.eqb_spec m' m) as [->|]; [|exact Hv]. right. f_equal. apply H. left. reflexivity.
  Qed.
  (** once it is the new state it stays so *)
  Lemma take_cur_kept h x : during t a op b h -> during t a op b (h ++ x) -> cur_at m h = Some (lst (S i)) -> cur_at m (h ++ x) = Some (lst (S i)).
  Proof.
    intros (b1 & b2 & Hbb & ->) (c1 & c2 & Hbc & Hx) Hc.
    assert (Hc1 : c1 = b1 ++ x).
    { rewrite <- app_assoc in Hx. apply app_inv_head in Hx. injection Hx as Hx. symmetry. exact Hx. }
    rewrite Hx.
    destruct (own_marks E w0 w H0 Hr m (ab_queue _ _ _ Hb) (ab_thread _ _ _ Hb) _ _ _ _ _ _ _ _ Hs take_calm c1 c2 Hbc) as (u & i1 & Hsc & Hf).
    destruct (own_marks E w0 w H0 Hr m (ab_queue _ _ _ Hb) (ab_thread _ _ _ Hb) _ _ _ _ _ _ _ _ Hs take_calm b1 b2 Hbb) as (u' & i1' & Hsc' & Hf').
    pose proof (take_states c1 c2 u i1 Hbc Hsc) as Hi1.
    rewrite Hc1 in Hsc. destruct (root_kept_t _ _ _ _ _ Hsc) as (u1 & j1 & j2 & Hj & ->). rewrite Hsc' in Hj. apply app_inj_tail in Hj. destruct Hj as [_ [= <-]].
    change (replay (curf m) None (a ++ (t, op) :: b1) = Some (lst (S i))) in Hc.
    change (replay (curf m) None (a ++ (t, op) :: c1) = Some (lst (S i))).
    rewrite (value_at E m t a pr (ELife (lev i)) (curf m) None b1 i1' (curf_irr E m) Hf') in Hc.
    rewrite (value_at E m t a pr (ELife (lev i)) (curf m) None c1 (i1' ++ j2) (curf_irr E m) Hf).
    unfold play in *. rewrite fold_left_app, Hc. assert (Hj : forall s, In (OState m s) j2 -> s = lst (S i)) by (intros s Hin; apply Hi1; apply in_or_app; right; exact Hin).
    clear - Hj. revert Hj. induction j2 as [|o j2 IH]; intro H; [reflexivity|]. simpl.
    assert (Hv : curf m (Some (lst (S i))) o = Some (lst (S i))).
    { destruct o as [| | | | | | | | | |m' s'| | | | |]; simpl; auto. destruct (Nat.eqb_spec m' m) as [->|]; [|reflexivity]. f_equal. apply H. left. reflexivity. }
    rewrite Hv. apply IH. intros s Hin. apply H. right. exact Hin.
  Qed.
  End Take.
End Quiet.
Lemma lst_0 E p f : lst E p (f := f) 0 = SApp p UNINIT.
Proof. destruct f; reflexivity. Qed.
Arguments fails f up : clear implicits.
Arguments round E p f up x out : clear implicits.
Arguments throws f k : clear implicits.
Arguments lst E p f i : clear implicits.
Arguments lev f i : clear implicits.
Arguments lastk f : clear implicits.
Arguments inplan f i : clear implicits.
Arguments isend f i : clear implicits.
Arguments tostop f i : clear implicits.
Arguments lacts E p f i : clear implicits.
