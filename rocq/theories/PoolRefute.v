(** * PoolRefute.v: a shared queue makes pools grow (C68) *)
From Verif Require Import Demo20 Demo3 Witness.

Lemma prefixes {A} (T h r : list A) : T = h ++ r -> In h (map (fun n => firstn n T) (List.seq 0 (S (List.length T)))).
Proof.
  intros ->. apply in_map_iff. exists (List.length h). split; [rewrite firstn_app, firstn_all, Nat.sub_diag, firstn_O, app_nil_r; reflexivity|].
  apply in_seq. rewrite app_length. lia.
Qed.
Definition offers (q : qid) (p : pid) (to : tid * obs) : bool :=
  match snd to with OOffer q' p' _ _ _ _ => Nat.eqb q' q && Nat.eqb p' p | _ => false end.
Lemma offers_in q p T : existsb (offers q p) T = true -> exists t e m e' m', In (t, OOffer q p e m e' m') T.
Proof.
  intro H. apply existsb_exists in H. destruct H as ([t o] & Hin & Ho). unfold offers in Ho. destruct o; try discriminate.
  apply andb_true_iff in Ho. destruct Ho as [H1 H2]. apply Nat.eqb_eq in H1. apply Nat.eqb_eq in H2. subst. eauto 10.
Qed.
Lemma objects_ok q ps T : NoDup ps -> forallb (fun p => existsb (offers q p) T) ps = true -> pair_objects q T ps.
Proof.
  intros Hn H. split; [exact Hn|]. intros p Hp. apply offers_in. rewrite forallb_forall in H. exact (H p Hp).
Qed.
Lemma objects50 : pair_objects 0 (tr (wm run50)) (List.seq 0 11).
Proof. apply objects_ok; [apply seq_NoDup|]. vm_compute. reflexivity. Qed.
Lemma objects51 : pair_objects 1 (tr (wm run51)) [1; 2].
Proof. apply objects_ok; [repeat constructor; simpl; intuition discriminate|]. vm_compute. reflexivity. Qed.
Lemma objects16 : pair_objects 0 (tr (wm run16)) [0; 1].
Proof. apply objects_ok; [repeat constructor; simpl; intuition discriminate|]. vm_compute. reflexivity. Qed.
Lemma p_C68_shared_queue_refuted :
  ~ forall E w0 w q, init_mem E w0 -> reach E w0 w -> (forall k k', s_pool (strat E k) = s_pool (strat E k') -> k = k') ->
    forall ps, pair_objects q (tr (wm w)) ps ->
      exists h r, tr (wm w) = h ++ r /\ List.length ps <= List.length (waiting q h) + room h.
Proof.
  intro H. destruct (H E50 w50 run50 0 (demo_init _ _ _ _ _) (after_reach _ _ _) (fun k k' X => X) _ objects50) as (h & r & Ht & Hle).
  apply prefixes in Ht. rewrite seq_length in Hle.
  assert (Hb : forallb (fun h => Nat.ltb (List.length (waiting 0 h) + room h) 11) (map (fun n => firstn n (tr (wm run50))) (List.seq 0 (S (List.length (tr (wm run50)))))) = true)
    by (vm_compute; reflexivity).
  rewrite forallb_forall in Hb. specialize (Hb h Ht). apply Nat.ltb_lt in Hb. lia.
Qed.
Lemma p_C68_give_resets_refuted :
  ~ forall E w0 w l p, init_mem E w0 -> reach E w0 w -> In p (pools (wm w) l) -> pairs (wm w) p = None.
Proof.
  intro H. assert (X : pairs (wm run50) 10 = None).
  { apply (H E50 w50 run50 0 10 (demo_init _ _ _ _ _) (after_reach _ _ _)). find_in. }
  vm_compute in X. discriminate.
Qed.
