(** * Demo15.v: endless executions of app services whose subsystems fail (for the
    Examples of PropsAppFate.v) *)
From Verif Require Export Demo Demo2 Demo3 Demo7 Demo8.
From Verif Require Import Sched LiveSpec Tree Live AppLiveSpec.

(** app service p (1: exit-on-stop, 2: restartable) with two subsystems, started
    by client 0; client 1 comes later and stops it (but for the restartable one
    that does not start).  NoStart: subsystem 1 throws when it is started;
    NoStop: subsystem 0, the last one to be stopped, throws when it is stopped *)
Definition fails34 (f : fate) (c : call) (h : trace) : uprog :=
  match f, c with NoStart, KSub true _ 1 | NoStop, KSub false _ 0 => UThrow (XUser 1) | _, _ => URet end.
Definition stopper (f : fate) (p : apid) : list api := match f, p with NoStart, 2 => [] | _, _ => [AAppStop p] end.
Definition E34 (f : fate) (p : apid) : env :=
  demo own_strat (fun m => m) app6 (fails34 f) [[AAppStart p]; stopper f p] (fun x => if Nat.eqb x p then 1 else 0).
Definition w34 (f : fate) (p : apid) : mem :=
  demo_mem (E34 f p) (fun m => lifecycle_calls m) (fun _ => Some (LLeaf (LfLog 0 (Some "app"%string)))) acts6 (fun _ => None).
Definition h34 (f : fate) (p : apid) : trace := LiveSpec.history (E34 f p) (w34 f p) (turns p) 2000.

Definition calls34 (f : fate) (p : apid) (to : tid * obs) : bool :=
  match to with
  | (TClient 0, OInv (AAppStart p')) => Nat.eqb p' p
  | (TClient 1, OInv (AAppStop p')) => Nat.eqb p' p
  | (_, OInv _) => false
  | (_, OCall (KAct _ (AUser _) _ _ _)) | (_, OCall (KInner (AUser _) _ _)) => true
  | (_, OCall (KAct _ _ _ _ m)) | (_, OCall (KInner _ _ m)) => Nat.eqb m p
  | (_, OBack (KSub up _ i) None) => match f, up, i with NoStart, true, 1 | NoStop, false, 0 => false | _, _, _ => true end
  | (_, OBack (KSub up _ _) (Some y)) => is_exception y && match f, up with NoStart, _ | NoStop, false => true | _, _ => false end
  | (_, OBack (KListen _ _ _ _ _ _) (Some _)) | (_, OWr (WrAwait _ true)) | (_, OWr (WrShut _)) => false
  | _ => true
  end.
Section Two.
  Context (f : fate) (p : apid) (Hf : In f [NoStart; NoStop]) (Hp : In p [1; 2]).
  Notation T := (LiveSpec.history (E34 f p) (w34 f p) (turns p)).
  Ltac four := destruct Hf as [<-|[<-|[]]]; destruct Hp as [<-|[<-|[]]].
  Lemma quiet34 n : step (E34 f p) (moment (E34 f p) (w34 f p) (turns p) 2000) (turns p n) = None.
  Proof.
    assert (H : forall t, In t [c0; c1; wk p] -> step (E34 f p) (moment (E34 f p) (w34 f p) (turns p) 2000) t = None).
    { four; intros t [<-|[<-|[<-|[]]]]; vm_compute; reflexivity. }
    apply H, turns_is.
  Qed.
  Lemma all34 (g : tid * obs -> bool) : forallb g (h34 f p) = true -> forall n to, In to (T n) -> g to = true.
  Proof. intros Hg n to Hin. apply (in_final _ _ _ _ quiet34) in Hin. rewrite forallb_forall in Hg. exact (Hg _ Hin). Qed.
  Lemma count34 g k : asked g (h34 f p) <= k -> forall n, asked g (T n) <= k.
  Proof.
    intros Hg n. eapply Nat.le_trans; [|exact Hg]. unfold h34. destruct (Nat.le_ge_cases n 2000) as [H|H].
    - destruct (Live.history_le (E34 f p) (w34 f p) (turns p) n 2000 H) as [r ->]. unfold asked. rewrite map_app, filter_app, app_length. lia.
    - unfold LiveSpec.history. rewrite (stays _ _ _ _ quiet34 n H). lia.
  Qed.
  Lemma run34 t : no_runaway (E34 f p) (w34 f p) (turns p) t.
  Proof. exact (quiet_runaway _ _ _ _ quiet34 t). Qed.
  Lemma check34 : forallb (calls34 f p) (h34 f p) = true.
  Proof. four; vm_compute; reflexivity. Qed.
  Lemma invs34 n t x : In (t, OInv x) (T n) -> (t = c0 /\ x = AAppStart p) \/ (t = c1 /\ x = AAppStop p).
  Proof.
    intro Hin. apply (all34 _ check34) in Hin. destruct t as [[|[|c]]|y i], x; simpl in Hin; try discriminate; apply Nat.eqb_eq in Hin; subst; auto.
  Qed.
  Lemma starters34 : starters_go_on (E34 f p) (w34 f p) (turns p) p.
  Proof.
    intros n t Hin. destruct (invs34 _ _ _ Hin) as [[-> _]|[_ H]]; [|discriminate]. split; [apply turns_fair; simpl; auto|]. split; [apply run34|].
    intros n' p' N Hin'. exfalso. destruct (invs34 _ _ _ Hin') as [[_ H]|[_ H]]; [congruence|discriminate].
  Qed.
  Lemma served34 : served (E34 f p) (w34 f p) (turns p) p.
  Proof.
    assert (Hx : forall x, serves (E34 f p) x p -> x = p) by (intros x (m & <- & Hm); unfold queue_of, exec_of in *; simpl in *; exact Hm).
    split.
    - intros [[|[|n]]|x i] Ht; simpl in Ht; try lia; try (apply turns_fair; simpl; auto; fail).
      destruct (Nat.eqb_spec x p) as [->|]; [|lia]. destruct i; [|lia]. apply turns_fair. simpl. auto.
    - intros x i Hs Hi. rewrite (Hx x Hs) in *. simpl in Hi. rewrite Nat.eqb_refl in Hi. destruct i; [|lia].
      split; [apply turns_fair; simpl; auto|]. split; [apply run34|]. intros n p' Hin. destruct (invs34 _ _ _ Hin) as [[H _]|[H _]]; discriminate.
    - intros x Hs. rewrite (Hx x Hs). simpl. rewrite Nat.eqb_refl. lia.
    - intros x q' Hs (m & Hm & Hq). rewrite (Hx x Hs) in Hm. unfold exec_of, queue_of in *. simpl in *. congruence.
    - intros x n Hs [t Hin]. apply (all34 _ check34) in Hin. destruct t as [[|[|]]|]; discriminate.
  Qed.
  Lemma built34 : app_built (E34 f p) (w34 f p) p.
  Proof.
    split; try reflexivity.
    - intros m' H. unfold queue_of in H. simpl in H. exact H.
    - unfold one_thread, exec_of. simpl. rewrite Nat.eqb_refl. lia.
    - intros p' H. exact H.
  Qed.
  Lemma fate34 : left_to_fate (E34 f p) (w34 f p) (turns p) p f.
  Proof.
    split.
    - intros n t x Hin. destruct (invs34 _ _ _ Hin) as [[_ ->]|[_ ->]]; simpl; auto.
    - intros n t c a e m' Hin Hpf Hm. apply (all34 _ check34) in Hin. simpl.
      destruct Hpf as [(en & st & ->)| ->]; (destruct t as [[|[|]]|]; destruct a; simpl in Hm, Hin; try contradiction; apply Nat.eqb_eq; exact Hin).
    - intro n. pose proof (fun to => all34 _ check34 n to) as H. split.
      + intros t b i y Hin. apply H in Hin. destruct t as [[|[|]]|]; simpl in Hin; apply andb_true_iff in Hin; apply Hin.
      + clear - Hf H. destruct Hf as [<-|[<-|[]]].
        * exists 1. split; [simpl; auto|]. intros t Hin. apply H in Hin. destruct t as [[|[|]]|]; discriminate.
        * split; [intros t i y Hin; apply H in Hin; destruct t as [[|[|]]|]; simpl in Hin; rewrite andb_false_r in Hin; discriminate|].
          exists 0. split; [simpl; auto|]. intros t Hin. apply H in Hin. destruct t as [[|[|]]|]; discriminate.
    - intros n t fin l f0 e st y Hin. apply (all34 _ check34) in Hin. destruct t as [[|[|]]|]; discriminate.
    - intros n t Hin. apply (all34 _ check34) in Hin. destruct t as [[|[|]]|]; discriminate.
    - intro n. assert (H : asked (stops_p p) (T n) <= if Nat.eqb p 2 then match f with NoStart => 0 | _ => 1 end else 1) by (apply count34; four; vm_compute; auto).
      destruct Hf as [<-|[<-|[]]]; destruct Hp as [<-|[<-|[]]]; simpl in H; auto; right; lia.
    - assert (H : forall n, asked (starts_p p) (T n) <= 1) by (apply count34; four; vm_compute; auto).
      clear - Hf H. destruct Hf as [<-|[<-|[]]]; right; exact H.
  Qed.
End Two.
