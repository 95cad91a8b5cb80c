(** * RejectRefute.v: what executors that reject tasks break (C71) *)
From Verif Require Import Demo23 Demo4 ApiSpec Witness Logic Own Tree RejectProofs.

Section AtRest.
  Context (R : xid -> world -> bool) (E : env).
  Lemma jidle w0 w x i : jreach R E w0 w -> n_workers E x <= i -> ww w x i = WIdle.
  Proof.
    intros [l ->] Hi. induction l as [|t l IH] using rev_ind; [reflexivity|].
    rewrite jrun_snoc. unfold jstep_or_stay. destruct (jstep R E _ t) as [w'|] eqn:Hs; [|exact IH]. rewrite <- IH.
    set (w := jrun R E (init_world E w0) l) in *. clearbody w.
    assert (Hset : forall y j k, Nat.ltb j (n_workers E y) = true -> set_worker (ww w) y j k x i = ww w x i).
    { intros y j k Hj. unfold set_worker. destruct (Nat.eqb_spec x y) as [->|]; [|reflexivity].
      destruct (Nat.eqb_spec i j) as [->|]; [|reflexivity]. apply Nat.ltb_lt in Hj. lia. }
    apply jstep_inv in Hs. destruct Hs as [Hs|Hs]; destruct t as [n|y j]; simpl in Hs.
    - destruct (declined R w (wc w n)) as [[[? ?] ?]|]; [|discriminate]. injection Hs as <-. reflexivity.
    - destruct (Nat.ltb j (n_workers E y)) eqn:Hj; [|discriminate]. simpl in Hs.
      destruct (ww w y j) as [|tk p]; [discriminate|]. destruct (declined R w p) as [[[? ?] ?]|]; [|discriminate].
      injection Hs as <-. apply Hset. exact Hj.
    - destruct (pstep E (wm w) (TClient n) (wc w n)) as [[? ?]|]; [|discriminate]. injection Hs as <-. reflexivity.
    - destruct (Nat.ltb j (n_workers E y)) eqn:Hj; [|discriminate]. simpl in Hs.
      destruct (ww w y j) as [|tk [[|]|e|jj k]]; [destruct (tasks (wm w) y); [discriminate|]| | | |destruct (pstep E (wm w) (TWorker y j) (Vis jj k)) as [[? ?]|]; [|discriminate]];
        injection Hs as <-; simpl; apply Hset; exact Hj.
  Qed.
  Lemma at_rest_ok w0 w q X ts : init_mem E w0 -> jreach R E w0 w ->
    (forall m, queue_of E m = q -> exec_of E m = X) -> n_workers E X = 1 -> ww w X 0 = WIdle -> tasks (wm w) X = [] ->
    by_threads ts (tr (wm w)) = true ->
    forallb (fun t => match rev (thread_obs t (tr (wm w))) with OOffer q' _ _ _ _ _ :: _ => negb (Nat.eqb q' q) | _ => true end) ts = true ->
    forallb (fun to => match snd to with OWr (WrShut _) => false | _ => true end) (tr (wm w)) = true ->
    at_rest E q w.
  Proof.
    intros H0 Hr HX Hn Hw Ht Hb Hj Hs. split; [|split; [|split]].
    - intros m i Hm. rewrite (HX m Hm). destruct i as [|i]; [exact Hw|]. apply (jidle w0); [exact Hr|lia].
    - intros x tk Hin Hq. destruct (tok_all R E w0 w H0 Hr) as (gs & (_ & Hl & _) & _). destruct (ti_tasks _ _ _ Hl x tk Hin) as [Ha Hx].
      assert (x = X) as ->; [|rewrite Ht in Hin; destruct Hin].
      rewrite <- (HX _ Hq). unfold exec_of. rewrite <- Ha. exact Hx.
    - apply not_just_queued with (ts := ts); assumption.
    - intros m _ [t Hin]. rewrite forallb_forall in Hs. specialize (Hs _ Hin). discriminate.
  Qed.
End AtRest.

Lemma none_died E q T : forallb (fun to : tid * obs => match snd to with OUncaught _ _ => false | _ => true end) T = true -> no_task_died E q T.
Proof. intros Hall t tk x Hin. rewrite forallb_forall in Hall. specialize (Hall _ Hin). discriminate. Qed.
Lemma saturated_waits n E q : rejects_when_others_wait (saturated (S n)) E q.
Proof. intros m w _ Hw Hn. unfold saturated in Hw. rewrite Hn in Hw. discriminate. Qed.
Lemma none_rejected T : forallb (fun to : tid * obs => match snd to with OWr (WrReject _ _) => false | _ => true end) T = true ->
  forall t x tk, ~ In (t, OWr (WrReject x tk)) T.
Proof. intros Hall t x tk Hin. rewrite forallb_forall in Hall. specialize (Hall _ Hin). discriminate. Qed.
Lemma rest56 : at_rest E56 0 run56.
Proof.
  apply (at_rest_ok (saturated 1) E56 w56 _ 0 0 [c0; c1; wk 0]); [apply demo_init|apply after_jreach|reflexivity|reflexivity|..]; vm_compute; reflexivity.
Qed.
Lemma rest56_1 : at_rest E56 1 run56.
Proof.
  apply (at_rest_ok (saturated 1) E56 w56 _ 1 0 [c0; c1; wk 0]); [apply demo_init|apply after_jreach|reflexivity|reflexivity|..]; vm_compute; reflexivity.
Qed.
Lemma rest57 : at_rest E56 0 run57.
Proof.
  apply (at_rest_ok (saturated 1) E56 w56 _ 0 0 [c0; c1; wk 0]); [apply demo_init|apply after_jreach|reflexivity|reflexivity|..]; vm_compute; reflexivity.
Qed.
Lemma rest55 : at_rest E1 0 run55.
Proof.
  apply (at_rest_ok (saturated 1) E1 w1 _ 0 0 [c0; c1; wk 0]); [apply demo_init|apply after_jreach| |reflexivity|..]; [|vm_compute; reflexivity..].
  intros m Hm. exact Hm.
Qed.

Lemma p_C71_nothing_stranded_refuted :
  ~ forall R E w0 w q, init_mem E w0 -> jreach R E w0 w -> rejects_when_others_wait R E q -> no_task_died E q (tr (wm w)) -> at_rest E q w ->
    accepted q (tr (wm w)) = taken q (tr (wm w)).
Proof.
  intro H. specialize (H (saturated 1) E56 w56 run56 0 (demo_init _ _ _ _ _) (after_jreach _ _ _ _)).
  assert (X : accepted 0 (tr (wm run56)) = taken 0 (tr (wm run56))).
  { apply H; [| |exact rest56].
    - apply saturated_waits.
    - apply none_died. vm_compute. reflexivity. }
  vm_compute in X. discriminate.
Qed.

Lemma p_C71_not_processed_refuted :
  ~ forall R E w0 w, init_mem E w0 -> jreach R E w0 w ->
    forall m e t a b its d q p e1 m1 e' m', span t (tr (wm w)) a (OInv (AFire m e)) b its (ORet (AFire m e) (RvErr XRejected)) d ->
      In (OOffer q p e1 m1 e' m') its -> ~ In (p, Some (e', m')) (taken q d).
Proof.
  intro H. pose (T := tr (wm run55)).
  assert (Hs : spans c0 T 33 44 (OInv (AFire 0 (EUser 1))) (ORet (AFire 0 (EUser 1)) (RvErr XRejected))) by sp.
  apply (H (saturated 1) E1 w1 run55 (demo_init _ _ _ _ _) (after_jreach _ _ _ _) 0 (EUser 1) c0 _ _ _ _ 0 1 (EUser 1) 0 (EUser 1) 0 Hs); find_in.
Qed.
