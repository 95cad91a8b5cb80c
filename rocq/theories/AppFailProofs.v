(** * AppFailProofs.v: executions that refute expectations about subsystems
    (proofs for PropsAppFail.v) *)
From Verif Require Import AppFailSpec Sched Demo14 Witness.

Lemma app6_built b cl (k : nat) : let E := demo own_strat (fun m => m) app6 b cl (fun x => if Nat.eqb x k then 1 else 0) in
  app_built E (demo_mem E (fun m => lifecycle_calls m) (fun _ => None) acts6 (fun _ => None)) k.
Proof.
  intro E. split; try reflexivity.
  - intros m' H. unfold queue_of in H. simpl in H. exact H.
  - unfold one_thread, exec_of. simpl. rewrite Nat.eqb_refl. lia.
  - intros p' H. exact H.
Qed.
(** the tests of the witnesses *)
Definition uses (p : apid) (to : tid * obs) : bool :=
  match snd to with OInv (AAppStart p') | OInv (AAppStop p') | OInv (AAppError p') => Nat.eqb p' p | OInv _ => false | _ => true end.
Lemma uses_ok p T : forallb (uses p) T = true -> proper_use p T.
Proof.
  intros H t x Hin. rewrite forallb_forall in H. specialize (H _ Hin). unfold uses in H. simpl in H.
  destruct x; try discriminate; apply Nat.eqb_eq in H; subst; auto.
Qed.
Definition not_sub (p : apid) (i : nat) (to : tid * obs) : bool :=
  match snd to with OCall (KSub _ p' i') => negb (Nat.eqb p' p && Nat.eqb i' i) | _ => true end.
Lemma runs_ok p i h1 t h2 : forallb (not_sub p i) h2 = true -> sub_runs p i (h1 ++ (t, OBack (KSub true p i) None) :: h2).
Proof.
  intro H. exists h1, t, h2. split; [reflexivity|]. intro t'. rewrite forallb_forall in H.
  split; intro Hin; specialize (H _ Hin); unfold not_sub in H; simpl in H; rewrite !Nat.eqb_refl in H; discriminate.
Qed.

(** start() of an exit-on-stop app returns while subsystem 0 runs *)
Lemma p_C59_nothing_runs_after_start_returns_refuted :
  ~ forall E w0 w, init_mem E w0 -> reach E w0 w ->
    forall p, app_built E w0 p -> proper_use p (tr (wm w)) -> ap_exit (apps E p) = true ->
    forall h t r i, tr (wm w) = h ++ (t, ORet (AAppStart p) RvUnit) :: r -> ~ sub_runs p i h.
Proof.
  intro H. pose (T := tr (wm run30)).
  apply (H E30 w30 run30 (demo_init _ _ _ _ _) (after_reach _ _ _) 1 (app6_built _ _ 1) (uses_ok 1 T eq_refl) eq_refl
    (part 0 128 T) c0 (part 129 1000 T) 0); [vm_compute; reflexivity|].
  assert (Hp : part 0 128 T = part 0 44 T ++ (wk 1, OBack (KSub true 1 0) None) :: part 45 128 T) by (vm_compute; reflexivity).
  rewrite Hp. apply runs_ok. vm_compute. reflexivity.
Qed.
(** after error() the app is STOPPED, its subsystems run *)
Lemma p_C59_nothing_runs_when_stopped_refuted :
  ~ forall E w0 w, init_mem E w0 -> reach E w0 w ->
    forall p, app_built E w0 p -> proper_use p (tr (wm w)) -> (forall t b i y, ~ In (t, OBack (KSub b p i) (Some y)) (tr (wm w))) ->
    forall h r i, tr (wm w) = h ++ r -> cur_at (ap_mach (apps E p)) h = Some (SApp p STOPPED) -> ~ sub_runs p i h.
Proof.
  intro H. pose (T := tr (wm run31)).
  apply (H E31 w31 run31 (demo_init _ _ _ _ _) (after_reach _ _ _) 2 (app6_built _ _ 2) (uses_ok 2 T eq_refl)) with (h := part 0 129 T) (r := part 129 1000 T) (i := 0);
    [|vm_compute; reflexivity..|].
  - intros t b i y Hin. assert (Hf : forallb (fun to => match snd to with OBack _ (Some _) => false | _ => true end) T = true) by (vm_compute; reflexivity).
    rewrite forallb_forall in Hf. specialize (Hf _ Hin). discriminate.
  - assert (Hp : part 0 129 T = part 0 44 T ++ (wk 2, OBack (KSub true 2 0) None) :: part 45 129 T) by (vm_compute; reflexivity).
    rewrite Hp. apply runs_ok. vm_compute. reflexivity.
Qed.
(** ... and the next start() starts them although they run *)
Lemma p_C59_started_only_when_not_running_refuted :
  ~ forall E w0 w, init_mem E w0 -> reach E w0 w ->
    forall p, app_built E w0 p -> proper_use p (tr (wm w)) -> (forall t b i y, ~ In (t, OBack (KSub b p i) (Some y)) (tr (wm w))) ->
    forall h t r i, tr (wm w) = h ++ (t, OCall (KSub true p i)) :: r -> ~ sub_runs p i h.
Proof.
  intro H. pose (T := tr (wm run31)).
  apply (H E31 w31 run31 (demo_init _ _ _ _ _) (after_reach _ _ _) 2 (app6_built _ _ 2) (uses_ok 2 T eq_refl)) with (h := part 0 163 T) (t := wk 2) (r := part 164 1000 T) (i := 0);
    [|vm_compute; reflexivity|].
  - intros t b i y Hin. assert (Hf : forallb (fun to => match snd to with OBack _ (Some _) => false | _ => true end) T = true) by (vm_compute; reflexivity).
    rewrite forallb_forall in Hf. specialize (Hf _ Hin). discriminate.
  - assert (Hp : part 0 163 T = part 0 44 T ++ (wk 2, OBack (KSub true 2 0) None) :: part 45 163 T) by (vm_compute; reflexivity).
    rewrite Hp. apply runs_ok. vm_compute. reflexivity.
Qed.
Definition is_up (b : bool) (to : tid * obs) : bool :=
  match snd to with OCall (KSub true 2 1) | OCall (KSub false 2 1) => false | OBack (KSub true 2 1) None => true | _ => b end.
(** the app is STARTED although subsystem 1 failed when it was last started *)
Lemma p_C59_started_means_running_refuted :
  ~ forall E w0 w, init_mem E w0 -> reach E w0 w ->
    forall p, app_built E w0 p -> proper_use p (tr (wm w)) ->
    cur_at (ap_mach (apps E p)) (tr (wm w)) = Some (SApp p STARTED) ->
    forall i, In i (ap_subs (apps E p)) -> sub_runs p i (tr (wm w)).
Proof.
  intro H. pose (w := run32 157). pose (T := tr (wm w)).
  assert (Hc : cur_at 2 T = Some (SApp 2 STARTED)) by (vm_compute; reflexivity).
  destruct (H E32 w32 w (demo_init _ _ _ _ _) (after_reach _ _ _) 2 (app6_built _ _ 2) (uses_ok 2 T eq_refl) Hc 1) as (h1 & t & h2 & HT & Hn); [right; left; reflexivity|].
  (* the last mark of subsystem 1 that matters *)
  assert (Hf : fold_left is_up T false = false)
    by (vm_compute; reflexivity).
  change (tr (wm w)) with T in HT. rewrite HT, fold_left_app in Hf. cbn [fold_left is_up snd] in Hf. clear - Hn Hf.
  assert (Hk : forall h, (forall t', ~ In (t', OCall (KSub true 2 1)) h /\ ~ In (t', OCall (KSub false 2 1)) h) ->
    fold_left is_up h true = true).
  { induction h as [|[t' o] h IH]; intro Hh; [reflexivity|]. cbn [fold_left].
    assert (Hrest : forall t'0, ~ In (t'0, OCall (KSub true 2 1)) h /\ ~ In (t'0, OCall (KSub false 2 1)) h).
    { intro t0. destruct (Hh t0) as [H1 H2]. split; intro Hi; [apply H1|apply H2]; right; exact Hi. }
    destruct (Hh t') as [H1 H2].
    assert (Ho : is_up true (t', o) = true).
    { destruct o as [ | | | | | | | | | | | | | | | ]; try reflexivity;
        match goal with |- is_up true (_, ?f ?c) = _ => destruct c | |- is_up true (_, ?f ?c ?y) = _ => destruct c end; try reflexivity;
        unfold is_up; cbn [snd]; repeat (match goal with |- (match ?x with _ => _ end) = true => destruct x end; try reflexivity);
        exfalso; first [apply H1; left; reflexivity|apply H2; left; reflexivity]. }
    rewrite Ho. apply IH. exact Hrest. }
  rewrite (Hk h2 Hn) in Hf. discriminate.
Qed.
Lemma stops_when_started (T : trace) :
  forallb (fun k => match nth_error T k with Some (_, OInv (AAppStart 2)) => true
    | Some (_, OInv (AAppStop 2)) => match cur_at 2 (firstn k T) with Some (SApp 2 STARTED) => true | _ => false end
    | Some (_, OInv _) => false | _ => true end) (List.seq 0 (List.length T)) = true ->
  forall k, nth_error T k <> None -> forall t x, nth_error T k = Some (t, OInv x) ->
    x = AAppStart 2 \/ (x = AAppStop 2 /\ cur_at 2 (firstn k T) = Some (SApp 2 STARTED)).
Proof.
  intros Hb k Hk t0 x0 Hx. rewrite forallb_forall in Hb. specialize (Hb k). rewrite in_seq in Hb.
  apply nth_error_Some in Hk. specialize (Hb ltac:(lia)). rewrite Hx in Hb.
  destruct x0; try discriminate; (destruct p as [|[|[|p]]]; try discriminate; auto).
  right. split; [reflexivity|]. destruct (cur_at 2 (firstn k T)) as [s|]; [|discriminate].
  destruct s as [ | | | |pp k']; try discriminate. destruct pp as [|[|[|pp]]]; try discriminate. destruct k'; try discriminate. reflexivity.
Qed.
(** two calls of stop() that were both made while the app was STARTED end the
    machine of a restartable app: it cannot be started again *)
Lemma p_C59_restartable_stays_restartable_refuted :
  ~ forall E w0 w, init_mem E w0 -> reach E w0 w ->
    forall p, app_built E w0 p -> restartable E p ->
    (forall h t x r, tr (wm w) = h ++ (t, OInv x) :: r -> x = AAppStart p \/ (x = AAppStop p /\ cur_at (ap_mach (apps E p)) h = Some (SApp p STARTED))) ->
    (forall t c y, ~ In (t, OBack c (Some y)) (tr (wm w))) ->
    ended_at (ap_mach (apps E p)) (tr (wm w)) = false.
Proof.
  intro H. pose (T := tr (wm run33)).
  assert (He : ended_at 2 T = false); [|vm_compute in He; discriminate].
  apply (H E33 w33 run33 (demo_init _ _ _ _ _) (after_reach _ _ _) 2 (app6_built _ _ 2) eq_refl).
  - intros h t x r HT. change (tr (wm run33)) with T in HT.
    pose proof (stops_when_started T ltac:(vm_compute; reflexivity)) as Hl.
    specialize (Hl (List.length h)). rewrite HT in Hl. rewrite nth_error_app2, Nat.sub_diag, firstn_app, Nat.sub_diag, firstn_all in Hl by lia.
    simpl in Hl. rewrite app_nil_r in Hl. apply (Hl ltac:(discriminate) t x eq_refl).
  - intros t c y Hin. assert (Hf : forallb (fun to => match snd to with OBack _ (Some _) => false | _ => true end) T = true) by (vm_compute; reflexivity).
    rewrite forallb_forall in Hf. specialize (Hf _ Hin). discriminate.
Qed.
