(** * Demo16.v: an endless execution of a restartable app service, started and stopped
    again and again (for the Example of PropsAppAgain.v) *)
From Verif Require Export Demo Demo2 Demo3 Demo7.
From Verif Require Import Sched LiveSpec Tree Live AppLiveSpec.

(** app service 2 with two subsystems and the logging listener; client 0 starts it
    and waits; clients 1 to 4 come one after the other: stop(), start(), stop(),
    start(); the machine's thread gets its turn in between *)
Definition E35 : env :=
  demo own_strat (fun m => m) app6 quiet [[AAppStart 2]; [AAppStop 2]; [AAppStart 2]; [AAppStop 2]; [AAppStart 2]] (fun x => if Nat.eqb x 2 then 1 else 0).
Definition w35 : mem :=
  demo_mem E35 (fun m => lifecycle_calls m) (fun _ => Some (LLeaf (LfLog 0 (Some "app"%string)))) acts6 (fun _ => None).
Definition turns5 (n : nat) : tid :=
  if Nat.ltb n 2400 then
    if Nat.even n then wk 2 else
    TClient (if Nat.ltb n 800 then 0 else if Nat.ltb n 1200 then 1 else if Nat.ltb n 1600 then 2 else if Nat.ltb n 2000 then 3 else 4)
  else match n mod 6 with 5 => wk 2 | c => TClient c end.
Definition h35 : trace := LiveSpec.history E35 w35 turns5 2400.
Definition five : list tid := [TClient 0; TClient 1; TClient 2; TClient 3; TClient 4; wk 2].

Lemma turns5_is n : In (turns5 n) five.
Proof.
  unfold turns5. destruct (Nat.ltb n 2400).
  - destruct (Nat.even n); [simpl; auto 10|]. destruct (Nat.ltb n 800); [|destruct (Nat.ltb n 1200); [|destruct (Nat.ltb n 1600); [|destruct (Nat.ltb n 2000)]]]; simpl; auto 10.
  - assert (H : n mod 6 < 6) by (apply Nat.mod_upper_bound; lia). destruct (n mod 6) as [|[|[|[|[|[|]]]]]]; simpl; auto 10. lia.
Qed.
Lemma turns5_fair t : In t five -> fair turns5 t.
Proof.
  intros Hin n. unfold turns5.
  assert (H : forall j, j < 6 -> n <= 6 * (n + 400) + j /\ Nat.ltb (6 * (n + 400) + j) 2400 = false /\ (6 * (n + 400) + j) mod 6 = j).
  { intros j Hj. split; [lia|]. split; [apply Nat.ltb_ge; lia|]. rewrite Nat.add_comm, Nat.mul_comm, Nat.mod_add by lia. apply Nat.mod_small. exact Hj. }
  destruct Hin as [<-|[<-|[<-|[<-|[<-|[<-|[]]]]]]].
  - exists (6 * (n + 400) + 0). destruct (H 0) as (H1 & -> & ->); auto; lia.
  - exists (6 * (n + 400) + 1). destruct (H 1) as (H1 & -> & ->); auto; lia.
  - exists (6 * (n + 400) + 2). destruct (H 2) as (H1 & -> & ->); auto; lia.
  - exists (6 * (n + 400) + 3). destruct (H 3) as (H1 & -> & ->); auto; lia.
  - exists (6 * (n + 400) + 4). destruct (H 4) as (H1 & -> & ->); auto; lia.
  - exists (6 * (n + 400) + 5). destruct (H 5) as (H1 & -> & ->); auto; lia.
Qed.
Notation T := (LiveSpec.history E35 w35 turns5).
Lemma quiet35 n : step E35 (moment E35 w35 turns5 2400) (turns5 n) = None.
Proof.
  assert (H : forall t, In t five -> step E35 (moment E35 w35 turns5 2400) t = None).
  { intros t [<-|[<-|[<-|[<-|[<-|[<-|[]]]]]]]; vm_compute; reflexivity. }
  apply H, turns5_is.
Qed.
Definition calls35 (to : tid * obs) : bool :=
  match to with
  | (TClient 0, OInv (AAppStart 2)) | (TClient 1, OInv (AAppStop 2)) | (TClient 2, OInv (AAppStart 2))
  | (TClient 3, OInv (AAppStop 2)) | (TClient 4, OInv (AAppStart 2)) => true
  | (_, OInv _) => false
  | (_, OCall (KAct _ (AUser _) _ _ _)) | (_, OCall (KInner (AUser _) _ _)) => true
  | (_, OCall (KAct _ _ _ _ m)) | (_, OCall (KInner _ _ m)) => Nat.eqb m 2
  | (_, OBack _ (Some _)) | (_, OWr (WrAwait _ true)) | (_, OWr (WrShut _)) => false
  | _ => true
  end.
Lemma all35 (f : tid * obs -> bool) : forallb f h35 = true -> forall n to, In to (T n) -> f to = true.
Proof. intros Hf n to Hin. apply (in_final _ _ _ _ quiet35) in Hin. rewrite forallb_forall in Hf. exact (Hf _ Hin). Qed.
Lemma run35 t : no_runaway E35 w35 turns5 t.
Proof. exact (quiet_runaway _ _ _ _ quiet35 t). Qed.
Lemma check35 : forallb calls35 h35 = true.
Proof. vm_compute. reflexivity. Qed.
Lemma pre35 n : exists r, h35 = T n ++ r.
Proof.
  unfold h35. destruct (Nat.le_ge_cases n 2400) as [H|H]; [exact (Live.history_le E35 w35 turns5 n 2400 H)|].
  exists []. unfold LiveSpec.history. rewrite (stays _ _ _ _ quiet35 n H), app_nil_r. reflexivity.
Qed.

(** the calls come in turn *)
Definition is_app (k : appst) (c : option sid) : bool :=
  match c, k with Some (SApp 2 STARTED), STARTED | Some (SApp 2 STOPPED), STOPPED => true | _, _ => false end.
Definition seenb (k : appst) (a : trace) : bool :=
  existsb (fun j => Nat.eqb (asked (asks_p 2) (skipn j a)) 0 && is_app k (cur_at 2 (firstn j a))) (List.seq 0 (S (List.length a))).
Definition turnb (h : trace) (i : nat) : bool :=
  match nth_error h i with
  | None => true
  | Some (_, o) =>
    if starts_p 2 o then Nat.eqb (asked (asks_p 2) (firstn i h)) 0 || (Nat.even (asked (asks_p 2) (firstn i h)) && seenb STOPPED (firstn i h))
    else if stops_p 2 o then Nat.odd (asked (asks_p 2) (firstn i h)) && seenb STARTED (firstn i h) else true
  end.
Lemma seenb_sound k a : seenb k a = true -> seen_since E35 2 k a.
Proof.
  intro H. apply existsb_exists in H. destruct H as (j & _ & H). apply andb_true_iff in H. destruct H as [H1 H2].
  exists (firstn j a), (skipn j a). split; [symmetry; apply firstn_skipn|]. split; [apply Nat.eqb_eq; exact H1|].
  change (ap_mach (apps E35 2)) with 2. destruct (cur_at 2 (firstn j a)) as [[| | | |p k']|]; try discriminate H2.
  destruct p as [|[|[|]]]; try discriminate H2. destruct k, k'; try discriminate H2; reflexivity.
Qed.
Lemma turnb_sound h l : forallb (turnb h) (List.seq 0 (List.length h)) = true -> (exists r, h = l ++ r) -> in_turn E35 2 l.
Proof.
  intros H [r' Hh] a t o r HT. rewrite HT in Hh. rewrite <- app_assoc in Hh. simpl in Hh.
  rewrite forallb_forall in H. specialize (H (List.length a)).
  assert (Hi : In (List.length a) (List.seq 0 (List.length h))).
  { apply in_seq. split; [lia|]. rewrite Hh, app_length. simpl. lia. }
  apply H in Hi. clear H. unfold turnb in Hi.
  assert (Hn : nth_error h (List.length a) = Some (t, o)) by (rewrite Hh, nth_error_app2, Nat.sub_diag by lia; reflexivity).
  assert (Hf : firstn (List.length a) h = a) by (rewrite Hh, firstn_app, Nat.sub_diag, firstn_all; simpl; apply app_nil_r).
  rewrite Hn, Hf in Hi. clear Hn Hf Hh HT. split; intro Ho.
  - rewrite Ho in Hi. apply orb_true_iff in Hi. destruct Hi as [Hi|Hi]; [left; apply Nat.eqb_eq; exact Hi|right].
    apply andb_true_iff in Hi. destruct Hi as [H1 H2]. split; [apply Nat.even_spec; exact H1|apply seenb_sound; exact H2].
  - assert (Hs : starts_p 2 o = false) by (destruct o as [x| | | | | | | | | | | | | | |]; try discriminate; destruct x; try discriminate; reflexivity).
    rewrite Hs, Ho in Hi. apply andb_true_iff in Hi. destruct Hi as [H1 H2]. split; [apply Nat.odd_spec; exact H1|apply seenb_sound; exact H2].
Qed.
Lemma turnb_all : forallb (turnb h35) (List.seq 0 (List.length h35)) = true.
Proof. vm_compute. reflexivity. Qed.
Lemma turn35 n : in_turn E35 2 (T n).
Proof. exact (turnb_sound h35 _ turnb_all (pre35 n)). Qed.
Lemma later h l c : nth_error h 0 = Some (TClient 0, OInv (AAppStart 2)) -> (exists r, h = l ++ r) -> c <> 0 ->
  forall a r, l = a ++ (TClient c, OInv (AAppStart 2)) :: r -> 0 < asked (starts_p 2) a.
Proof.
  intros H1 [r' ->] Hc a r ->. destruct a as [|y a]; simpl in H1; injection H1.
  - intro Hx. congruence.
  - intros ->. unfold asked. simpl. lia.
Qed.

Lemma invs35 n t x : In (t, OInv x) (T n) -> (exists c, t = TClient c /\ In t five) /\ (x = AAppStart 2 \/ x = AAppStop 2).
Proof.
  intro Hin. apply (all35 _ check35) in Hin. destruct t as [[|[|[|[|[|c]]]]]|y i]; [| | | | |discriminate|discriminate];
    (destruct x; try discriminate; (destruct p as [|[|[|]]]; try discriminate); split; [eexists; split; [reflexivity|simpl; auto 10]|auto]).
Qed.
Lemma starters35 : starters_go_on E35 w35 turns5 2.
Proof.
  intros n t Hin. destruct (invs35 _ _ _ Hin) as [(c & _ & Hc) _]. split; [apply turns5_fair; exact Hc|]. split; [apply run35|].
  intros n' p' N Hin'. exfalso. destruct (invs35 _ _ _ Hin') as [_ [H|H]]; [congruence|discriminate].
Qed.
Lemma caller35 c : In c [1; 2; 3; 4] -> caller_goes_on E35 w35 turns5 2 (TClient c).
Proof.
  intro Hc. split; [apply turns5_fair; destruct Hc as [<-|[<-|[<-|[<-|[]]]]]; simpl; auto 10|]. split; [apply run35|]. split.
  - intros n' p' N Hin'. exfalso. destruct (invs35 _ _ _ Hin') as [_ [H|H]]; [congruence|discriminate].
  - intros n. eapply (later h35); [vm_compute; reflexivity|apply pre35|]. destruct Hc as [<-|[<-|[<-|[<-|[]]]]]; discriminate.
Qed.
Lemma served35 : served E35 w35 turns5 2.
Proof.
  assert (Hx : forall x, serves E35 x 2 -> x = 2) by (intros x (m & <- & Hm); unfold queue_of, exec_of in *; simpl in *; exact Hm).
  split.
  - intros [[|[|[|[|[|n]]]]]|x i] Ht; simpl in Ht; try lia; try (apply turns5_fair; simpl; auto 10; fail).
    destruct (Nat.eqb_spec x 2) as [->|]; [|lia]. destruct i; [|lia]. apply turns5_fair. simpl. auto 10.
  - intros x i Hs Hi. rewrite (Hx x Hs) in *. simpl in Hi. destruct i; [|lia].
    split; [apply turns5_fair; simpl; auto 10|]. split; [apply run35|]. intros n p' Hin. destruct (invs35 _ _ _ Hin) as [(c & H & _) _]; discriminate.
  - intros x Hs. rewrite (Hx x Hs). simpl. lia.
  - intros x q' Hs (m & Hm & Hq). rewrite (Hx x Hs) in Hm. unfold exec_of, queue_of in *. simpl in *. congruence.
  - intros x n Hs [t Hin]. apply (all35 _ check35) in Hin. destruct t as [[|[|[|[|[|]]]]]|]; discriminate.
Qed.
Lemma built35 : app_built E35 w35 2.
Proof.
  split; try reflexivity.
  - intros m' H. unfold queue_of in H. simpl in H. exact H.
  - unfold one_thread, exec_of. simpl. lia.
  - intros p' H. exact H.
Qed.
Lemma turns35 : asked_in_turn E35 w35 turns5 2.
Proof.
  split.
  - intros n t x Hin. destruct (invs35 _ _ _ Hin) as [_ [->| ->]]; simpl; auto.
  - intros n t c a e m' Hin Hpf Hm. apply (all35 _ check35) in Hin. simpl.
    destruct Hpf as [(en & st & ->)| ->]; (destruct t as [[|[|[|[|[|]]]]]|]; destruct a; simpl in Hm, Hin; try contradiction; apply Nat.eqb_eq; exact Hin).
  - intros n t b i y Hin. apply (all35 _ check35) in Hin. destruct t as [[|[|[|[|[|]]]]]|]; discriminate.
  - intros n t fin l f e st y Hin. apply (all35 _ check35) in Hin. destruct t as [[|[|[|[|[|]]]]]|]; discriminate.
  - intros n t Hin. apply (all35 _ check35) in Hin. destruct t as [[|[|[|[|[|]]]]]|]; discriminate.
  - reflexivity.
  - exact turn35.
Qed.
