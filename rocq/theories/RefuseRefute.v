(** * RefuseRefute.v: what a queue with a capacity breaks (C69) *)
From Verif Require Import Demo21 ApiSpec Witness PoolRefute Tree.

Lemma p_C69_never_lost_silently_refuted :
  ~ forall R E w0 w, init_mem E w0 -> rreach R E w0 w ->
    forall m e t a b its v d, span t (tr (wm (rw w))) a (OInv (AFire m e)) b its (ORet (AFire m e) v) d ->
      started_at m a = true -> (forall h, during t a (OInv (AFire m e)) b h -> ended_at m h = false) -> drops_duplicates E m = false ->
      (exists q p e1 m1 e' m', In (OOffer q p e1 m1 e' m') its) \/ (exists c, In (OCall c) its) \/ v <> RvUnit.
Proof.
  intro H. pose (T := tr (wm (rw run52))).
  assert (Hs : spans c0 T 33 43 (OInv (AFire 0 (EUser 1))) (ORet (AFire 0 (EUser 1)) RvUnit)) by sp.
  assert (Hd : forall h, during c0 (part 0 33 T) (OInv (AFire 0 (EUser 1))) (part 34 43 T) h -> ended_at 0 h = false).
  { intros h (b1 & b2 & Hb & ->). apply prefixes in Hb.
    assert (Hall : forallb (fun b => negb (ended_at 0 (part 0 33 T ++ (c0, OInv (AFire 0 (EUser 1))) :: b)))
      (map (fun n => firstn n (part 34 43 T)) (List.seq 0 (S (List.length (part 34 43 T))))) = true) by (vm_compute; reflexivity).
    rewrite forallb_forall in Hall. specialize (Hall b1 Hb). apply negb_true_iff in Hall. exact Hall. }
  assert (Hno : forallb (fun o => match o with OOffer _ _ _ _ _ _ | OCall _ => false | _ => true end) (items c0 (part 34 43 T)) = true) by (vm_compute; reflexivity).
  rewrite forallb_forall in Hno.
  destruct (H (capacity 1) E1 w1 run52 (demo_init _ _ _ _ _) (after_rreach _ _ _ _) 0 (EUser 1) c0 _ _ _ _ _ Hs eq_refl Hd eq_refl)
    as [(q & p & e1 & m1 & e' & m' & Hin)|[[c Hin]|Hv]]; [apply Hno in Hin; discriminate|apply Hno in Hin; discriminate|apply Hv; reflexivity].
Qed.

Lemma holds_only n q : holds (only q (capacity n)) q n.
Proof. intros h H. unfold only, capacity in H. rewrite Nat.eqb_refl in H. apply Nat.leb_le in H. exact H. Qed.
Lemma p_C69_capacity_as_limit_refuted :
  ~ forall R E w0 w, init_mem E w0 -> rreach R E w0 w ->
    (forall q, (forall h, R q h = false) \/
       exists max, (0 < max)%Z /\ holds R q (Z.to_nat max) /\ forall m, queue_of E m = q -> limit E m = max) ->
    lost w = [].
Proof.
  intro H. assert (X : lost run54 = []).
  { apply (H (only 0 (capacity 1)) E16 w16 run54 (demo_init _ _ _ _ _) (after_rreach _ _ _ _)). intros [|q]; [right|left; reflexivity].
    exists 1%Z. split; [lia|]. split; [apply holds_only|]. intros [|m]; [reflexivity|discriminate]. }
  vm_compute in X. discriminate.
Qed.
