(** * Demo19.v: executions with error() of an app service (for PropsError.v) *)
From Verif Require Export Demo Demo2 Demo3 Demo7 Demo8.
From Verif Require Import Sched LiveSpec Tree Live ErrorSpec Witness.

(** app service p (1: exit-on-stop, 2: restartable) with two subsystems and the
    logging listener, started by client 0; client 1 comes later, and reports an error *)
Definition E47 (p : apid) : env :=
  demo own_strat (fun m => m) app6 quiet [[AAppStart p]; [AAppError p]] (fun x => if Nat.eqb x p then 1 else 0).
Definition w47 (p : apid) : mem :=
  demo_mem (E47 p) (fun m => lifecycle_calls m) (fun _ => Some (LLeaf (LfLog 0 (Some "app"%string)))) acts6 (fun _ => None).
Definition h47 (p : apid) : trace := LiveSpec.history (E47 p) (w47 p) (turns p) 2000.
Definition calls47 (p : apid) (to : tid * obs) : bool :=
  match to with
  | (TClient 0, OInv (AAppStart p')) => Nat.eqb p' p
  | (TClient 1, OInv (AAppError p')) => Nat.eqb p' p
  | (_, OInv _) => false
  | (_, OBack _ (Some _)) | (_, OWr (WrShut _)) => false
  | _ => true
  end.
Section Two.
  Context (p : apid) (Hp : In p [1; 2]).
  Lemma quiet47 n : step (E47 p) (moment (E47 p) (w47 p) (turns p) 2000) (turns p n) = None.
  Proof.
    assert (H : forall t, In t [c0; c1; wk p] -> step (E47 p) (moment (E47 p) (w47 p) (turns p) 2000) t = None).
    { destruct Hp as [<-|[<-|[]]]; intros t [<-|[<-|[<-|[]]]]; vm_compute; reflexivity. }
    apply H, turns_is.
  Qed.
  (** what holds of every mark of the final history holds of every mark *)
  Lemma all47 (f : tid * obs -> bool) : forallb f (h47 p) = true -> forall n to, In to (LiveSpec.history (E47 p) (w47 p) (turns p) n) -> f to = true.
  Proof. intros Hf n to Hin. apply (in_final _ _ _ _ quiet47) in Hin. rewrite forallb_forall in Hf. exact (Hf _ Hin). Qed.
  Lemma run47 t : no_runaway (E47 p) (w47 p) (turns p) t.
  Proof. exact (quiet_runaway _ _ _ _ quiet47 t). Qed.
  Lemma check47 : forallb (calls47 p) (h47 p) = true.
  Proof. destruct Hp as [<-|[<-|[]]]; vm_compute; reflexivity. Qed.
  Lemma invs47 n t x : In (t, OInv x) (LiveSpec.history (E47 p) (w47 p) (turns p) n) -> (t = c0 /\ x = AAppStart p) \/ (t = c1 /\ x = AAppError p).
  Proof.
    intro Hin. apply (all47 _ check47) in Hin. destruct t as [[|[|c]]|y i], x; simpl in Hin; try discriminate; apply Nat.eqb_eq in Hin; subst; auto.
  Qed.
  Lemma served47 : served (E47 p) (w47 p) (turns p) p.
  Proof.
    assert (Hx : forall x, serves (E47 p) x p -> x = p) by (intros x (m & <- & Hm); unfold queue_of, exec_of in *; simpl in *; exact Hm).
    split.
    - intros [[|[|n]]|x i] Ht; simpl in Ht; try lia; try (apply turns_fair; simpl; auto; fail).
      destruct (Nat.eqb_spec x p) as [->|]; [|lia]. destruct i; [|lia]. apply turns_fair. simpl. auto.
    - intros x i Hs Hi. rewrite (Hx x Hs) in *. simpl in Hi. rewrite Nat.eqb_refl in Hi. destruct i; [|lia].
      split; [apply turns_fair; simpl; auto|]. split; [apply run47|]. intros n p' Hin. destruct (invs47 _ _ _ Hin) as [[H _]|[H _]]; discriminate.
    - intros x Hs. rewrite (Hx x Hs). simpl. rewrite Nat.eqb_refl. lia.
    - intros x q' Hs (m & Hm & Hq). rewrite (Hx x Hs) in Hm. unfold exec_of, queue_of in *. simpl in *. congruence.
    - intros x n Hs [t Hin]. apply (all47 _ check47) in Hin. destruct t as [[|[|]]|]; discriminate.
  Qed.
  Lemma built47 : app_built (E47 p) (w47 p) p.
  Proof.
    split; try reflexivity.
    - intros m' H. unfold queue_of in H. simpl in H. exact H.
    - unfold one_thread, exec_of. simpl. rewrite Nat.eqb_refl. lia.
    - intros p' H. exact H.
  Qed.
  Lemma only47 n : only_through_app (E47 p) p (LiveSpec.history (E47 p) (w47 p) (turns p) n).
  Proof.
    split.
    - intros t x Hin. destruct (invs47 _ _ _ Hin) as [[_ ->]|[_ ->]]; simpl; auto.
    - intros t l f e st y Hin. apply (all47 _ check47) in Hin. destruct t as [[|[|]]|]; discriminate.
  Qed.
  Lemma goes47 : goes_on (E47 p) (w47 p) (turns p) c1.
  Proof.
    split; [apply turns_fair; simpl; auto|]. split; [apply run47|]. intros n p' Hin. destruct (invs47 _ _ _ Hin) as [[H _]|[_ H]]; discriminate.
  Qed.
End Two.

(** ** Errors that get lost *)
(** client 1 calls error() after client 0 has started the machine, before client 0 fires the start event *)
Definition E48 : env :=
  demo own_strat (fun m => m) app6 quiet [[AAppStart 2]; [AAppError 2]] (fun x => if Nat.eqb x 2 then 1 else 0).
Definition w48 : mem := demo_mem E48 (fun m => lifecycle_calls m) (fun _ => None) acts6 (fun _ => None).
Definition run48 (n : nat) : world := after E48 w48 [(c0, n); (c1, 60); (c0, 60); (wk 2, 400)].
(** the listener throws when the transition to STOPPED begins *)
Definition E49 : env :=
  demo own_strat (fun m => m) app6 (fun c _ => match c with KListen false _ 2 _ (ELife LError) _ => UThrow (XUser 1) | _ => URet end)
    [[AAppStart 2]; [AAppError 2]] (fun x => if Nat.eqb x 2 then 1 else 0).
Definition w49 : mem := demo_mem E49 (fun m => lifecycle_calls m) (fun _ => Some (LLeaf (LfUser 0))) acts6 (fun _ => None).
Definition run49 : world := after E49 w49 [(c0, 60); (wk 2, 400); (c1, 60); (wk 2, 400)].
