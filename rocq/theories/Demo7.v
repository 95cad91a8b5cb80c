(** * Demo7.v: endless executions for the Examples of PropsLive.v *)
From Verif Require Export Demo Demo2 Demo3.
From Verif Require Import Sched LiveSpec Tree Live.

(** ** Executions that come to rest *)
Section Quiet.
  Context (E : env) (w0 : mem) (s : nat -> tid) (N : nat).
  Context (HN : forall n, step E (moment E w0 s N) (s n) = None).
  Lemma stays n : N <= n -> moment E w0 s n = moment E w0 s N.
  Proof. induction 1 as [|n Hn IH]; [reflexivity|]. simpl. rewrite IH. unfold step_or_stay. rewrite HN. reflexivity. Qed.
  Lemma in_final n to : In to (history E w0 s n) -> In to (history E w0 s N).
  Proof.
    destruct (Nat.le_ge_cases n N) as [H|H].
    - destruct (history_le E w0 s n N H) as [r ->]. intro Hin. apply in_or_app. left. exact Hin.
    - unfold history. rewrite (stays n H). auto.
  Qed.

  Definition is_call (o : obs) : bool := match o with OCall _ => true | _ => false end.
  Definition ncalls (h : trace) : nat := List.length (filter (fun to : tid * obs => is_call (snd to)) h).
  Definition kinds (st : stack) : nat := List.length (filter (fun f : frame => match fst f with FCall _ => true | _ => false end) st).
  Lemma kinds_add o st : kinds (add_item o st) = kinds st.
  Proof. destruct st as [|[k its] st]; [reflexivity|]. unfold kinds. simpl. destruct k; reflexivity. Qed.
  Lemma nesting_le t h : nesting t h <= ncalls h.
  Proof.
    induction h as [|[t' o] h IH] using rev_ind; [unfold nesting, ncalls; simpl; lia|].
    assert (Hn : ncalls (h ++ [(t', o)]) = ncalls h + if is_call o then 1 else 0).
    { unfold ncalls. rewrite filter_app, app_length. simpl. destruct (is_call o); reflexivity. }
    rewrite Hn. unfold nesting in *. rewrite scan_snoc. destruct (tid_eq_dec t' t) as [->|]; [|lia].
    destruct (scan t h) as [st ns]. simpl in IH. fold (kinds st) in IH. unfold scan1. destruct (closes o) eqn:Ec.
    - destruct st as [|[k its] st]; [simpl; lia|]. change (kinds (add_item o st) <= ncalls h + (if is_call o then 1 else 0)).
      rewrite kinds_add. unfold kinds in *. simpl in IH. destruct k; simpl in IH; lia.
    - destruct (opens o) as [k|] eqn:Eo; [|change (kinds (add_item o st) <= ncalls h + (if is_call o then 1 else 0)); rewrite kinds_add; lia].
      change (kinds ((k, []) :: add_item o st) <= ncalls h + (if is_call o then 1 else 0)).
      pose proof (kinds_add o st) as Ha. unfold kinds in *. simpl. destruct o; try discriminate; injection Eo as <-; simpl; lia.
  Qed.
  Lemma quiet_runaway t : no_runaway E w0 s t.
  Proof.
    exists (ncalls (history E w0 s N)). intro n. eapply Nat.le_trans; [apply nesting_le|].
    destruct (Nat.le_ge_cases n N) as [H|H]; [|unfold history; rewrite (stays n H); lia].
    destruct (history_le E w0 s n N H) as [r ->]. unfold ncalls. rewrite filter_app, app_length. lia.
  Qed.
End Quiet.

(** c0, c1 and the worker of executor 0 in turn *)
Definition three (n : nat) : tid := match n mod 3 with 0 => c0 | 1 => c1 | _ => wk 0 end.
Lemma three_fair t : In t [c0; c1; wk 0] -> fair three t.
Proof.
  intros Hin n. unfold three.
  assert (H : forall j, j < 3 -> n <= 3 * n + j /\ (3 * n + j) mod 3 = j).
  { intros j Hj. split; [lia|]. rewrite Nat.add_comm, Nat.mul_comm, Nat.mod_add by lia. apply Nat.mod_small. exact Hj. }
  destruct Hin as [<-|[<-|[<-|[]]]].
  - exists (3 * n + 0). destruct (H 0) as [H1 ->]; auto.
  - exists (3 * n + 1). destruct (H 1) as [H1 ->]; auto.
  - exists (3 * n + 2). destruct (H 2) as [H1 ->]; auto.
Qed.
Lemma three_is n : In (three n) [c0; c1; wk 0].
Proof. unfold three. destruct (n mod 3) as [|[|]]; simpl; auto. Qed.

(** one machine; an Error in an entry action kills the first task, the
    unexpected flow listener (asked about the exception of the second action)
    kills the second; four events accepted, fired by two clients that run at the
    same time as the worker; the only executor thread is that of executor 0 *)
Definition E22 : env :=
  demo own_strat (fun m => m) demo_app
    (fun c _ => match c with
                | KAct true (AUser 11) _ _ _ => UThrow (XError 1)
                | KAct true (AUser 12) _ _ _ => UThrow (XUser 2)
                | KUflExn _ _ _ _ => UThrow (XUser 3)
                | _ => URet end)
    [[AStart 0; AFire 0 (EUser 0); AFire 0 (EUser 1)]; [AFire 0 (EUser 0); AFire 0 (EUser 1); AFire 0 (EUser 2)]]
    (fun x => if Nat.eqb x 0 then 1 else 0).
Definition w22 : mem := demo_mem E22 (fun _ => abc) (fun _ => None) one_act (fun _ => None).
Definition end22 : nat := 700.
Lemma quiet22 n : step E22 (moment E22 w22 three end22) (three n) = None.
Proof.
  assert (H : forall t, In t [c0; c1; wk 0] -> step E22 (moment E22 w22 three end22) t = None).
  { intros t [<-|[<-|[<-|[]]]]; vm_compute; reflexivity. }
  apply H, three_is.
Qed.
Lemma goes22 t : In t [c0; c1; wk 0] -> goes_on E22 w22 three t.
Proof.
  intro Ht. split; [apply three_fair; exact Ht|]. split; [apply (quiet_runaway _ _ _ _ quiet22)|].
  intros n p Hin. exfalso. apply (in_final _ _ _ _ quiet22) in Hin.
  assert (Hf : existsb (fun to => match snd to with OInv (AAppStart _) => true | _ => false end) (history E22 w22 three end22) = false)
    by (vm_compute; reflexivity).
  apply Bool.not_true_iff_false in Hf. apply Hf. apply existsb_exists. eexists. split; [exact Hin|reflexivity].
Qed.
Lemma served22 : served E22 w22 three 0.
Proof.
  assert (Hx : forall x, serves E22 x 0 -> x = 0) by (intros x (m & <- & Hm); unfold queue_of, exec_of in *; simpl in *; exact Hm).
  split.
  - intros [[|[|n]]|[|x] [|i]] Ht; simpl in Ht; try lia; apply three_fair; simpl; auto.
  - intros x i Hs Hi. rewrite (Hx x Hs) in *. simpl in Hi. destruct i; [apply goes22; simpl; auto|lia].
  - intros x Hs. rewrite (Hx x Hs). simpl. lia.
  - intros x q' Hs (m & Hm & Hq). rewrite (Hx x Hs) in Hm. unfold exec_of, queue_of in *. simpl in *. congruence.
  - intros x n Hs [t Hin]. apply (in_final _ _ _ _ quiet22) in Hin.
    assert (Hf : existsb (fun to => match snd to with OWr (WrShut _) => true | _ => false end) (history E22 w22 three end22) = false)
      by (vm_compute; reflexivity).
    apply Bool.not_true_iff_false in Hf. apply Hf. apply existsb_exists. eexists. split; [exact Hin|reflexivity].
Qed.
