(** * DiscardRefute.v: what executors that lose tasks break (C73) *)
From Verif Require Import Demo25 Demo4 Witness RejectRefute DiscardProofs.

Lemma overfull_waits n E q : loses_when_others_wait (overfull (S n)) E q.
Proof. intros m w _ Hw. apply Nat.ltb_lt in Hw. lia. Qed.
Lemma rest63 : at_rest E1 0 run63.
Proof.
  apply (at_rest_d (overfull 1) oldest E1 w1 _ 0 0 [c0; c1; wk 0]); [apply demo_init|apply after_dreach| |reflexivity|..]; [|vm_compute; reflexivity..].
  intros m Hm. exact Hm.
Qed.
Lemma rest64 : at_rest E56 0 run64.
Proof.
  apply (at_rest_d (overfull 1) oldest E56 w56 _ 0 0 [c0; c1; wk 0]); [apply demo_init|apply after_dreach|reflexivity|reflexivity|..]; vm_compute; reflexivity.
Qed.
Lemma p_C73_nothing_stranded_refuted :
  ~ forall L P E w0 w q, init_mem E w0 -> dreach L P E w0 w -> loses_when_others_wait L E q -> no_task_died E q (tr (wm w)) -> at_rest E q w ->
    accepted q (tr (wm w)) = taken q (tr (wm w)).
Proof.
  intro H. specialize (H (overfull 1) oldest E56 w56 run64 0 (demo_init _ _ _ _ _) (after_dreach _ _ _ _)).
  assert (X : accepted 0 (tr (wm run64)) = taken 0 (tr (wm run64))).
  { apply H; [| |exact rest64].
    - apply overfull_waits.
    - apply none_died. vm_compute. reflexivity. }
  vm_compute in X. discriminate.
Qed.
