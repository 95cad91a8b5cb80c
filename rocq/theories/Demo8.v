(** * Demo8.v: endless executions for the Examples of PropsAppLive.v *)
From Verif Require Export Demo Demo2 Demo3 Demo7.
From Verif Require Import Sched LiveSpec Tree Live AppLiveSpec.

(** app service p (1: exit-on-stop, 2: restartable) with two subsystems and the
    logging listener, started by client 0; client 1 comes later, and stops it; the machine's thread gets its turn in between *)
Definition E24 (p : apid) : env :=
  demo own_strat (fun m => m) app6 quiet [[AAppStart p]; [AAppStop p]] (fun x => if Nat.eqb x p then 1 else 0).
Definition w24 (p : apid) : mem :=
  demo_mem (E24 p) (fun m => lifecycle_calls m) (fun _ => Some (LLeaf (LfLog 0 (Some "app"%string)))) acts6 (fun _ => None).
Definition turns (p : apid) (n : nat) : tid :=
  if Nat.ltb n 600 then (if Nat.even n then c0 else wk p)
  else match n mod 3 with 0 => c0 | 1 => c1 | _ => wk p end.
Definition h24 (p : apid) : trace := LiveSpec.history (E24 p) (w24 p) (turns p) 2000.

Lemma turns_is p n : In (turns p n) [c0; c1; wk p].
Proof. unfold turns. destruct (Nat.ltb n 600); [destruct (Nat.even n)|destruct (n mod 3) as [|[|]]]; simpl; auto. Qed.
Lemma turns_fair p t : In t [c0; c1; wk p] -> fair (turns p) t.
Proof.
  intros Hin n. unfold turns.
  assert (H : forall j, j < 3 -> n <= 3 * (n + 200) + j /\ Nat.ltb (3 * (n + 200) + j) 600 = false /\ (3 * (n + 200) + j) mod 3 = j).
  { intros j Hj. split; [lia|]. split; [apply Nat.ltb_ge; lia|]. rewrite Nat.add_comm, Nat.mul_comm, Nat.mod_add by lia. apply Nat.mod_small. exact Hj. }
  destruct Hin as [<-|[<-|[<-|[]]]].
  - exists (3 * (n + 200) + 0). destruct (H 0) as (H1 & -> & ->); auto.
  - exists (3 * (n + 200) + 1). destruct (H 1) as (H1 & -> & ->); auto.
  - exists (3 * (n + 200) + 2). destruct (H 2) as (H1 & -> & ->); auto.
Qed.
Definition calls24 (p : apid) (to : tid * obs) : bool :=
  match to with
  | (TClient 0, OInv (AAppStart p')) => Nat.eqb p' p
  | (TClient 1, OInv (AAppStop p')) => Nat.eqb p' p
  | (_, OInv _) => false
  | (_, OCall (KAct _ (AUser _) _ _ _)) | (_, OCall (KInner (AUser _) _ _)) => true
  | (_, OCall (KAct _ _ _ _ m)) | (_, OCall (KInner _ _ m)) => Nat.eqb m p
  | (_, OBack _ (Some _)) | (_, OWr (WrAwait _ true)) | (_, OWr (WrShut _)) => false
  | _ => true
  end.
Section Two.
  Context (p : apid) (Hp : In p [1; 2]).
  Lemma quiet24 n : step (E24 p) (moment (E24 p) (w24 p) (turns p) 2000) (turns p n) = None.
  Proof.
    assert (H : forall t, In t [c0; c1; wk p] -> step (E24 p) (moment (E24 p) (w24 p) (turns p) 2000) t = None).
    { destruct Hp as [<-|[<-|[]]]; intros t [<-|[<-|[<-|[]]]]; vm_compute; reflexivity. }
    apply H, turns_is.
  Qed.
  (** what holds of every mark of the final history holds of every mark *)
  Lemma all24 (f : tid * obs -> bool) : forallb f (h24 p) = true -> forall n to, In to (LiveSpec.history (E24 p) (w24 p) (turns p) n) -> f to = true.
  Proof. intros Hf n to Hin. apply (in_final _ _ _ _ quiet24) in Hin. rewrite forallb_forall in Hf. exact (Hf _ Hin). Qed.
  Lemma count24 f k : asked f (h24 p) <= k -> forall n, asked f (LiveSpec.history (E24 p) (w24 p) (turns p) n) <= k.
  Proof.
    intros Hf n. eapply Nat.le_trans; [|exact Hf]. unfold h24. destruct (Nat.le_ge_cases n 2000) as [H|H].
    - destruct (Live.history_le (E24 p) (w24 p) (turns p) n 2000 H) as [r ->]. unfold asked. rewrite map_app, filter_app, app_length. lia.
    - unfold LiveSpec.history. rewrite (stays _ _ _ _ quiet24 n H). lia.
  Qed.
  Lemma run24 t : no_runaway (E24 p) (w24 p) (turns p) t.
  Proof. exact (quiet_runaway _ _ _ _ quiet24 t). Qed.
  Lemma check24 : forallb (calls24 p) (h24 p) = true.
  Proof. destruct Hp as [<-|[<-|[]]]; vm_compute; reflexivity. Qed.
  Lemma invs24 n t x : In (t, OInv x) (LiveSpec.history (E24 p) (w24 p) (turns p) n) -> (t = c0 /\ x = AAppStart p) \/ (t = c1 /\ x = AAppStop p).
  Proof.
    intro Hin. apply (all24 _ check24) in Hin. destruct t as [[|[|c]]|y i], x; simpl in Hin; try discriminate; apply Nat.eqb_eq in Hin; subst; auto.
  Qed.
  Lemma starters24 : starters_go_on (E24 p) (w24 p) (turns p) p.
  Proof.
    intros n t Hin. destruct (invs24 _ _ _ Hin) as [[-> _]|[_ H]]; [|discriminate]. split; [apply turns_fair; simpl; auto|]. split; [apply run24|].
    intros n' p' N Hin'. exfalso. destruct (invs24 _ _ _ Hin') as [[_ H]|[_ H]]; [congruence|discriminate].
  Qed.
  Lemma served24 : served (E24 p) (w24 p) (turns p) p.
  Proof.
    assert (Hx : forall x, serves (E24 p) x p -> x = p) by (intros x (m & <- & Hm); unfold queue_of, exec_of in *; simpl in *; exact Hm).
    split.
    - intros [[|[|n]]|x i] Ht; simpl in Ht; try lia; try (apply turns_fair; simpl; auto; fail).
      destruct (Nat.eqb_spec x p) as [->|]; [|lia]. destruct i; [|lia]. apply turns_fair. simpl. auto.
    - intros x i Hs Hi. rewrite (Hx x Hs) in *. simpl in Hi. rewrite Nat.eqb_refl in Hi. destruct i; [|lia].
      split; [apply turns_fair; simpl; auto|]. split; [apply run24|]. intros n p' Hin. destruct (invs24 _ _ _ Hin) as [[H _]|[H _]]; discriminate.
    - intros x Hs. rewrite (Hx x Hs). simpl. rewrite Nat.eqb_refl. lia.
    - intros x q' Hs (m & Hm & Hq). rewrite (Hx x Hs) in Hm. unfold exec_of, queue_of in *. simpl in *. congruence.
    - intros x n Hs [t Hin]. apply (all24 _ check24) in Hin. destruct t as [[|[|]]|]; discriminate.
  Qed.
  Lemma built24 : app_built (E24 p) (w24 p) p.
  Proof.
    split; try reflexivity.
    - intros m' H. unfold queue_of in H. simpl in H. exact H.
    - unfold one_thread, exec_of. simpl. rewrite Nat.eqb_refl. lia.
    - intros p' H. exact H.
  Qed.
  Lemma alone24 : left_alone (E24 p) (w24 p) (turns p) p.
  Proof.
    split.
    - intros n t x Hin. destruct (invs24 _ _ _ Hin) as [[_ ->]|[_ ->]]; simpl; auto.
    - intros n t c a e m' Hin Hpf Hm. apply (all24 _ check24) in Hin. simpl.
      destruct Hpf as [(en & st & ->)| ->]; (destruct t as [[|[|]]|]; destruct a; simpl in Hm, Hin; try contradiction; apply Nat.eqb_eq; exact Hin).
    - intros n t b i y Hin. apply (all24 _ check24) in Hin. destruct t as [[|[|]]|]; discriminate.
    - intros n t fin l f e st y Hin. apply (all24 _ check24) in Hin. destruct t as [[|[|]]|]; discriminate.
    - intros n t Hin. apply (all24 _ check24) in Hin. destruct t as [[|[|]]|]; discriminate.
    - apply count24. destruct Hp as [<-|[<-|[]]]; vm_compute; auto.
    - right. apply count24. destruct Hp as [<-|[<-|[]]]; vm_compute; auto.
  Qed.
  Lemma called24 : In (c0, OInv (AAppStart p)) (h24 p) /\ In (c1, ORet (AAppStop p) RvUnit) (h24 p) /\
    subsystem_marks p (h24 p) = all_started (E24 p) p ++ all_stopped (E24 p) p.
  Proof.
    split; [|split].
    - apply (nth_error_In _ 0). destruct Hp as [<-|[<-|[]]]; vm_compute; reflexivity.
    - apply (nth_error_In _ 133). destruct Hp as [<-|[<-|[]]]; vm_compute; reflexivity.
    - destruct Hp as [<-|[<-|[]]]; vm_compute; reflexivity.
  Qed.
End Two.
