(** * Copies.v: names and payloads of event objects *)
From Verif Require Import Spec MemInv Truth.

Section Copies.
  Context (E : env) (w0 : mem) (w : world) (H0 : init_mem E w0) (Hr : reach E w0 w).

  Lemma copies_bound w1 : reach E w0 w1 -> forall t e nm y, In (t, OWr (WrCopy e nm y)) (tr (wm w1)) ->
    exists k, e = ECopy k /\ k < ncopy (wm w1).
  Proof.
    apply (mem_inv E (fun w => forall t e nm y, In (t, OWr (WrCopy e nm y)) (tr w) -> exists k, e = ECopy k /\ k < ncopy w)).
    - intros w2 t i v w3 Hp IH Hx t' e nm y Hi.
      destruct i; simpl in Hx;
        repeat match type of Hx with
               | (if ?b then _ else _) = _ => destruct b eqn:?
               | match ?b with _ => _ end = _ => destruct b eqn:?
               end; try discriminate; injection Hx as <- <-;
        try (match type of Hi with context [match pairs ?w ?p with _ => _ end] => destruct (pairs w p) as [[? ?]|] end);
        try match goal with o : obs |- _ => destruct o; try contradiction end; simpl in *;
        try (eapply IH; eassumption);
        apply in_app_or in Hi; destruct Hi as [Hi|[Hi|[]]]; try (eapply IH; eassumption); try discriminate;
        try (destruct (IH _ _ _ _ Hi) as (k & -> & Hk); eauto; fail).
      + destruct b; discriminate.
      + injection Hi as <- <- <- <-. exists (ncopy w2). split; [reflexivity|lia].
    - auto.
    - intros w2 t tk e IH t' e' nm y Hi. simpl in *. apply in_app_or in Hi. destruct Hi as [Hi|[Hi|[]]]; [eauto|discriminate].
    - rewrite (im_tr _ _ H0). intros ? ? ? ? [].
  Qed.
  (** a copy is made once *)
  Lemma copy_fresh h t e nm y r : tr (wm w) = h ++ (t, OWr (WrCopy e nm y)) :: r ->
    exists k, e = ECopy k /\ forall t' nm' y', ~ In (t', OWr (WrCopy e nm' y')) h.
  Proof.
    intro HT. destruct (reach_mark E w0 w (im_tr _ _ H0) Hr _ _ _ _ HT) as (w1 & w2 & Hr1 & _ & Ht1 & Ht2 & _ & Hm).
    assert (Hk : e = ECopy (ncopy (wm w1))).
    { destruct Hm as [He|[(i & v & Hp & Hx)|[(x & tk & r' & _ & He)|(tk & x & He)]]].
      - rewrite He, Ht1 in Ht2. apply (f_equal (@List.length _)) in Ht2. rewrite app_length in Ht2. simpl in Ht2. lia.
      - set (m1 := wm w1) in *. set (m2 := wm w2) in *. clearbody m1 m2. rewrite <- Ht1 in Ht2.
        destruct i; simpl in Hx;
          repeat match type of Hx with
                 | (if ?b then _ else _) = _ => destruct b eqn:?
                 | match ?b with _ => _ end = _ => destruct b eqn:?
                 end; try discriminate; injection Hx as <- <-;
          try (match type of Ht2 with context [match pairs ?w ?p with _ => _ end] => destruct (pairs w p) as [[? ?]|] end);
          simpl in Ht2;
          try (apply (f_equal (@List.length _)) in Ht2; rewrite app_length in Ht2; simpl in Ht2; lia);
          try (apply app_inj_tail in Ht2; destruct Ht2 as [_ Ht2]; try discriminate).
        + destruct b; discriminate.
        + injection Ht2 as <- <- <-. reflexivity.
        + injection Ht2 as ->. contradiction.
      - rewrite He in Ht2. simpl in Ht2. rewrite Ht1 in Ht2. apply (f_equal (@List.length _)) in Ht2.
        rewrite app_length in Ht2. simpl in Ht2. lia.
      - rewrite He in Ht2. simpl in Ht2. apply app_inj_tail in Ht2. destruct Ht2 as [_ Ht2]. discriminate. }
    exists (ncopy (wm w1)). split; [exact Hk|]. intros t' nm' y' Hi. rewrite <- Ht1 in Hi.
    destruct (copies_bound _ Hr1 _ _ _ _ Hi) as (k & Hek & Hlt). rewrite Hk in Hek. injection Hek as <-. lia.
  Qed.
  (** the name of an event object never changes *)
  Lemma name_fixed e h r r' : tr (wm w) = h ++ r ++ r' -> made e h -> name_at E w0 e (h ++ r) = name_at E w0 e h.
  Proof.
    revert r'. induction r as [|[t o] r IH] using rev_ind; intros r' HT Hm; [rewrite app_nil_r; reflexivity|].
    rewrite <- app_assoc in HT. specialize (IH _ HT Hm).
    unfold name_at, names_of in *. rewrite (app_assoc h), replay_snoc. rewrite <- IH.
    destruct o as [| | | | | | | | | | | | | | |[]]; try reflexivity. simpl.
    rewrite app_assoc in HT. destruct (copy_fresh _ _ _ _ _ _ HT) as (k & -> & Hf).
    destruct (eid_eqb e (ECopy k)) eqn:Ee; [|reflexivity]. exfalso.
    unfold eid_eqb in Ee. destruct (eid_eq_dec e (ECopy k)) as [->|]; [|discriminate].
    simpl in Hm. destruct Hm as (t' & nm' & y' & Hi). apply (Hf t' nm' y'). apply in_or_app. left. exact Hi.
  Qed.
  Lemma name_during t a op b z d h e : tr (wm w) = a ++ (t, op) :: b ++ (t, z) :: d -> made e a ->
    during t a op b h -> name_at E w0 e h = name_at E w0 e a.
  Proof.
    intros HT Hm (b1 & b2 & -> & ->). apply (name_fixed e a ((t, op) :: b1) (b2 ++ (t, z) :: d)); [|exact Hm].
    rewrite HT. simpl. rewrite <- app_assoc. reflexivity.
  Qed.
End Copies.
