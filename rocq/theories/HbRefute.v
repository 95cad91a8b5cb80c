(** * HbRefute.v: executions with data races (proofs for PropsHb.v) *)
From Verif Require Import HbSpec ExactSpec Demo17.

Lemma p_drop_duplicates_refuted :
  ~ forall E w0 w, init_mem E w0 -> reach E w0 w ->
    forall i j t t' p, i < j -> writes_pair (tr (wm w)) i t p -> reads_pair (tr (wm w)) j t' p -> hb sw_max (tr (wm w)) i j.
Proof.
  intro H. apply (no_hb (tr (wm run41)) 66 67 (TClient 3, OWr (WrPair 0 (EUser 1) 1))).
  - vm_compute. reflexivity.
  - vm_compute. reflexivity.
  - apply (H E41 w41 run41 (demo_init _ _ _ _ _) (after_reach _ _ _) 66 67 (TClient 3) c2 0).
    + lia.
    + exists (EUser 1), 1. vm_compute. reflexivity.
    + exists (Some (EUser 1, 1)). vm_compute. reflexivity.
Qed.

Lemma own_private bh cl nw ap m : private_queue (demo own_strat (fun k => k) ap bh cl nw) m.
Proof. intros m' Hm. exact Hm. Qed.

Lemma p_current_state_query_refuted :
  ~ forall E w0 w, init_mem E w0 -> reach E w0 w ->
    forall m t0 i0, private_queue E m -> one_thread E m -> on (tr (wm w)) i0 t0 (OUnended m) -> fired_after E (tr (wm w)) m t0 i0 ->
    forall i j t t' s c its, i < j -> on (tr (wm w)) i t (OState m s) -> on (tr (wm w)) j t' (ORd (RdCur m c)) ->
      opened t' (firstn j (tr (wm w))) (FApi (AGetCur m)) its -> hb sw_max (tr (wm w)) i j.
Proof.
  intro H. apply (no_hb (tr (wm run36)) 90 96 (wk 0, OState 0 (SEnd 0))).
  - vm_compute. reflexivity.
  - vm_compute. reflexivity.
  - apply (H E36 w36 run36 (demo_init _ _ _ _ _) (after_reach _ _ _) 0 c0 13 (own_private _ _ _ _ _) (le_n 1)) with
      (t := wk 0) (t' := c1) (s := SEnd 0) (c := Some (SEnd 0)) (its := []).
    + vm_compute. reflexivity.
    + apply fired_after_ok. vm_compute. reflexivity.
    + lia.
    + vm_compute. reflexivity.
    + vm_compute. reflexivity.
    + vm_compute. auto.
Qed.

Lemma p_app_stop_refuted :
  ~ forall E w0 w, init_mem E w0 -> reach E w0 w ->
    forall p, let m := ap_mach (apps E p) in private_queue E m -> one_thread E m ->
    forall i j t t' s c its, i < j -> on (tr (wm w)) i t (OState m s) -> on (tr (wm w)) j t' (ORd (RdCur m c)) ->
      opened t' (firstn j (tr (wm w))) (FApi (AAppStop p)) its -> hb sw_max (tr (wm w)) i j.
Proof.
  intro H. apply (no_hb (tr (wm run38)) 76 92 (wk 1, OState 1 (SApp 1 STARTED))).
  - vm_compute. reflexivity.
  - vm_compute. reflexivity.
  - apply (H E38 w38 run38 (demo_init _ _ _ _ _) (after_reach _ _ _) 1 (own_private _ _ _ _ _) (le_n 1)) with
      (t := wk 1) (t' := c1) (s := SApp 1 STARTED) (c := Some (SApp 1 STARTED)) (its := []).
    + lia.
    + vm_compute. reflexivity.
    + vm_compute. reflexivity.
    + vm_compute. auto.
Qed.

Lemma p_fire_during_start_refuted :
  ~ forall E w0 w, init_mem E w0 -> reach E w0 w ->
    forall m t0 i0, private_queue E m -> one_thread E m -> on (tr (wm w)) i0 t0 (OUnended m) -> confined E (touches_state m) (tr (wm w)) m t0 i0 ->
    forall i j t t' o o', i < j -> on (tr (wm w)) i t o -> on (tr (wm w)) j t' o' -> writes_state m o -> touches_state m o' ->
      hb sw_max (tr (wm w)) i j.
Proof.
  intro H. apply (no_hb (tr (wm run39)) 17 22 (c0, OState 0 (SUser 0))).
  - vm_compute. reflexivity.
  - vm_compute. reflexivity.
  - apply (H E39 w39 run39 (demo_init _ _ _ _ _) (after_reach _ _ _) 0 c0 52 (own_private _ _ _ _ _) (le_n 1)) with
      (t := c0) (t' := wk 0) (o := OState 0 (SUser 0)) (o' := ORd (RdCur 0 (Some (SUser 0)))).
    + vm_compute. reflexivity.
    + apply confined_ok. vm_compute. reflexivity.
    + lia.
    + vm_compute. reflexivity.
    + vm_compute. reflexivity.
    + reflexivity.
    + reflexivity.
Qed.

Lemma p_two_threads_refuted :
  ~ forall E w0 w, init_mem E w0 -> reach E w0 w ->
    forall m t0 i0, private_queue E m -> on (tr (wm w)) i0 t0 (OUnended m) -> fired_after E (tr (wm w)) m t0 i0 ->
      confined E (touches_state m) (tr (wm w)) m t0 i0 ->
    forall i j t t' o o', i < j -> on (tr (wm w)) i t o -> on (tr (wm w)) j t' o' -> writes_state m o -> touches_state m o' ->
      hb sw_max (tr (wm w)) i j.
Proof.
  intro H. apply (no_hb (tr (wm run40)) 58 59 (wk 0, OState 0 (SUser 1))).
  - vm_compute. reflexivity.
  - vm_compute. reflexivity.
  - apply (H E13 w13 run40 (demo_init _ _ _ _ _) (after_reach _ _ _) 0 c0 13 (own_private _ _ _ _ _)) with
      (t := wk 0) (t' := wk2 0) (o := OState 0 (SUser 1)) (o' := ORd (RdCur 0 (Some (SUser 1)))).
    + vm_compute. reflexivity.
    + apply fired_after_ok. vm_compute. reflexivity.
    + apply confined_ok. vm_compute. reflexivity.
    + lia.
    + vm_compute. reflexivity.
    + vm_compute. reflexivity.
    + reflexivity.
    + reflexivity.
Qed.

Lemma p_queue_full_refuted :
  ~ forall E w0 w, init_mem E w0 -> reach E w0 w ->
    forall m t0 i0, private_queue E m -> one_thread E m -> (forall m', table_of E m' = m <-> m' = m) ->
      on (tr (wm w)) i0 t0 (OUnended m) -> fired_after E (tr (wm w)) m t0 i0 -> handled E (tr (wm w)) m t0 i0 ->
    forall i j t t' s c e its, i < j -> on (tr (wm w)) i t (OState m s) -> on (tr (wm w)) j t' (ORd (RdCur m c)) ->
      opened t' (firstn j (tr (wm w))) (FApi (AFire m e)) its -> hb sw_max (tr (wm w)) i j.
Proof.
  intro H. apply (no_hb (tr (wm run44)) 43 65 (wk 0, OState 0 (SUser 1))).
  - vm_compute. reflexivity.
  - vm_compute. reflexivity.
  - apply (H E44 w44 run44 (demo_init _ _ _ _ _) (after_reach _ _ _) 0 c0 13 (fun m Hm => Hm) (le_n 1) (fun m' => iff_refl (m' = 0))) with
      (t := wk 0) (t' := c1) (s := SUser 1) (c := Some (SUser 1)) (e := EUser 1)
      (its := [ORd (RdStarted 0 true); ORd (RdStarted 0 true); ORd (RdEnded 0 false); ORd (RdLook 0 (2, 1)); ORd (RdSize 0 (2, 1) 1);
               OCall (KUflExn FDefault (EUser 1) 0 (XIllegalState (RQueueFull 1)))]).
    + vm_compute. reflexivity.
    + apply fired_after_ok. vm_compute. reflexivity.
    + apply handled_ok. vm_compute. reflexivity.
    + lia.
    + vm_compute. reflexivity.
    + vm_compute. reflexivity.
    + vm_compute. auto.
Qed.
