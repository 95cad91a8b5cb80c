(** * ThreadsProofs.v: proofs for C32 *)
From Verif Require Import Threads ThreadsSpec.
From Coq Require Import DecimalString DecimalPos DecimalZ Decimal Lia Ascii.
Open Scope string_scope.

(** ** Decimal texts *)
Lemma dec_inj a b : dec_text a = dec_text b -> a = b.
Proof.
  assert (H : forall z, NilZero.int_of_string (dec_text z) = Some (Z.to_int z)).
  { intro z. apply NilZero.isi; destruct z; simpl; try discriminate; intro Hn; injection Hn as Hn; eapply Unsigned.to_uint_nonnil; exact Hn. }
  intro He. apply to_int_inj. assert (Hs : Some (Z.to_int a) = Some (Z.to_int b)) by (rewrite <- !H, He; reflexivity). congruence.
Qed.
Fixpoint has (c : ascii) (s : string) : bool := match s with "" => false | String a r => orb (Ascii.eqb a c) (has c r) end.
Lemma digits_no_dash d : has "-" (NilEmpty.string_of_uint d) = false.
Proof. induction d; simpl; auto. Qed.
Lemma dec_no_dash z : (0 <= z)%Z -> has "-" (dec_text z) = false.
Proof.
  intro H. unfold dec_text. destruct z as [|p|p]; [reflexivity| |lia]. simpl. unfold NilZero.string_of_uint.
  destruct (Pos.to_uint p) eqn:E; [reflexivity| ..]; rewrite <- ?E; apply (digits_no_dash (Pos.to_uint p)) || (rewrite <- E; apply digits_no_dash).
Qed.
Lemma has_app c a b : has c (a ++ b) = orb (has c a) (has c b).
Proof. induction a; simpl; [reflexivity|]. rewrite IHa. apply Bool.orb_assoc. Qed.
(** the text after the last dash *)
Lemma last_dash a b d d' : has "-" d = false -> has "-" d' = false -> a ++ "-" ++ d = b ++ "-" ++ d' -> a = b /\ d = d'.
Proof.
  intros H1 H2. revert b. induction a as [|c a IH]; intros [|c' b]; simpl; intro He.
  - injection He as ->. auto.
  - injection He as _ ->. rewrite has_app in H1. simpl in H1. rewrite Bool.orb_true_r in H1. discriminate.
  - injection He as _ <-. rewrite has_app in H2. simpl in H2. rewrite Bool.orb_true_r in H2. discriminate.
  - injection He as -> He. destruct (IH _ He) as [-> ->]. auto.
Qed.
Lemma same_prefix (p a b : string) : p ++ a = p ++ b -> a = b.
Proof. induction p; simpl; intro H; [exact H|]. injection H as H. auto. Qed.

(** ** The counter *)
Lemma wrap_small z : (- 2 ^ 31 <= z < 2 ^ 31)%Z -> wrap32 z = z.
Proof. intro H. unfold wrap32. rewrite Z.mod_small; lia. Qed.
Lemma wrap_add z : wrap32 (wrap32 z + 1) = wrap32 (z + 1).
Proof.
  unfold wrap32. replace ((z + 2 ^ 31) mod 2 ^ 32 - 2 ^ 31 + 1 + 2 ^ 31)%Z with ((z + 2 ^ 31) mod 2 ^ 32 + 1)%Z by lia.
  rewrite Zplus_mod_idemp_l. f_equal. f_equal. lia.
Qed.
Lemma wrap_inj a b : (0 <= a < 2 ^ 32)%Z -> (0 <= b < 2 ^ 32)%Z -> wrap32 a = wrap32 b -> a = b.
Proof.
  unfold wrap32. intros Ha Hb He.
  assert (He' : ((a + 2 ^ 31) mod 2 ^ 32 = (b + 2 ^ 31) mod 2 ^ 32)%Z) by lia. clear He.
  pose proof (Z.div_mod (a + 2 ^ 31) (2 ^ 32)). pose proof (Z.div_mod (b + 2 ^ 31) (2 ^ 32)).
  assert (0 <= (a + 2 ^ 31) / 2 ^ 32 <= 1)%Z by (split; [apply Z.div_pos; lia|apply Z.lt_succ_r, Z.div_lt_upper_bound; lia]).
  assert (0 <= (b + 2 ^ 31) / 2 ^ 32 <= 1)%Z by (split; [apply Z.div_pos; lia|apply Z.lt_succ_r, Z.div_lt_upper_bound; lia]).
  nia.
Qed.

Lemma nd_snoc {A} (l : list A) x : NoDup l -> ~ In x l -> NoDup (l ++ [x])%list.
Proof. intros H Hn. apply NoDup_Add with (a := x) (l := l); [|auto]. rewrite <- (app_nil_r l) at 1. apply Add_app. Qed.
Open Scope list_scope.

(** ** Invariant *)
Section Inv.
  Context (inherit : nat -> bool) (calls : nat -> list factory).

  Definition obj_of (p : pc) : option nat :=
    match p with PNew => None | PNumber k | PName k _ | PDaemon k | PHandler k | PReturn k => Some k end.
  (** [l]: the Thread objects in the order in which they got their numbers *)
  Definition numbered (l : list nat) (k : nat) (z : Z) : Prop := exists j, nth_error l j = Some k /\ z = wrap32 (Z.of_nat j).
  Definition pc_ok (s : tsys) (l : list nat) (c : creator) : Prop :=
    match c_todo c with
    | [] => c_pc c = PNew
    | f :: _ =>
        match c_pc c with
        | PNew => True
        | PNumber k => ~ In k l
        | PName k z => numbered l k z
        | PDaemon k => exists z, numbered l k z /\ th_name (objects s k) = Some (format_name (f_name f) z)
        | PHandler k => exists z, numbered l k z /\ th_name (objects s k) = Some (format_name (f_name f) z) /\ th_daemon (objects s k) = true
        | PReturn k => exists z, numbered l k z /\ objects s k = {| th_name := Some (format_name (f_name f) z); th_daemon := true; th_handler := f_handler f |}
        end
    end.
  Record inv (s : tsys) (l : list nat) : Prop := {
    i_nd : NoDup l;
    i_lt : forall k, In k l -> k < n_objects s;
    i_count : counter s = wrap32 (Z.of_nat (List.length l));
    i_pc : forall i, pc_ok s l (creators s i);
    i_own : forall i k, obj_of (c_pc (creators s i)) = Some k -> k < n_objects s /\
              (forall i', obj_of (c_pc (creators s i')) = Some k -> i' = i) /\ ~ In k (map snd (made s));
    i_mnd : NoDup (map snd (made s));
    i_made : forall i f k, In (i, f, k) (made s) -> k < n_objects s /\ exists z, numbered l k z /\
              objects s k = {| th_name := Some (format_name (f_name f) z); th_daemon := true; th_handler := f_handler f |} }.

  Lemma upd_same {A} (f : nat -> A) k v : upd f k v k = v. Proof. unfold upd. rewrite Nat.eqb_refl. reflexivity. Qed.
  Lemma upd_other {A} (f : nat -> A) k v k' : k' <> k -> upd f k v k' = f k'.
  Proof. intro H. unfold upd. destruct (Nat.eqb_spec k' k); [contradiction|reflexivity]. Qed.
  Lemma numbered_snoc l k z x : numbered l k z -> numbered (l ++ [x]) k z.
  Proof. intros (j & Hj & ->). exists j. split; [|reflexivity]. rewrite nth_error_app1; [exact Hj|]. apply nth_error_Some. congruence. Qed.

  (** the state of another creator is not affected by a change of object k *)
  Lemma pc_ok_frame s s' l l' c : (forall k, obj_of (c_pc c) = Some k -> objects s' k = objects s k) ->
    (forall k, In k l' -> In k l \/ obj_of (c_pc c) <> Some k) -> (forall k z, numbered l k z -> numbered l' k z) ->
    pc_ok s l c -> pc_ok s' l' c.
  Proof.
    unfold pc_ok. destruct (c_todo c) as [|f r]; [auto|]. intros Ho Hl Hn. destruct (c_pc c) as [|k|k z|k|k|k]; simpl in *; auto.
    - intros H Hi. destruct (Hl _ Hi) as [?|H']; [contradiction|congruence].
    - rewrite Ho by reflexivity. intros (z & H1 & H2). eauto.
    - rewrite Ho by reflexivity. intros (z & H1 & H2). eauto.
    - rewrite Ho by reflexivity. intros (z & H1 & H2). eauto.
  Qed.

  (** a step that changes the object of creator i and moves it on *)
  Lemma set_inv s l i f r k t p : inv s l -> c_todo (creators s i) = f :: r -> obj_of (c_pc (creators s i)) = Some k -> obj_of p = Some k ->
    (let s' := {| counter := counter s; objects := upd (objects s) k t; n_objects := n_objects s;
                  creators := upd (creators s) i {| c_pc := p; c_todo := f :: r |}; made := made s |} in
     pc_ok s' l {| c_pc := p; c_todo := f :: r |} -> inv s' l).
  Proof.
    intros Hi Ht Hk Hp s' Hpc. destruct (i_own _ _ Hi i k Hk) as (Hlt & Hun & Hm). constructor; simpl.
    - apply (i_nd _ _ Hi).
    - apply (i_lt _ _ Hi).
    - apply (i_count _ _ Hi).
    - intro i'. destruct (Nat.eq_dec i' i) as [->|Hne]; [rewrite upd_same; exact Hpc|]. rewrite upd_other by exact Hne.
      eapply pc_ok_frame; [| | |apply (i_pc _ _ Hi)]; auto. intros k' Hk'. simpl. apply upd_other. intros ->. apply Hne. apply Hun. exact Hk'.
    - intros i' k'. destruct (Nat.eq_dec i' i) as [->|Hne]; [rewrite upd_same|rewrite upd_other by exact Hne]; simpl; intro H.
      + rewrite Hp in H. injection H as <-. split; [exact Hlt|]. split; [|exact Hm]. intros i' Hi'.
        destruct (Nat.eq_dec i' i) as [->|Hne]; [reflexivity|]. rewrite upd_other in Hi' by exact Hne. apply Hun. exact Hi'.
      + destruct (i_own _ _ Hi _ _ H) as (H1 & H2 & H3). split; [exact H1|]. split; [|exact H3]. intros i'' Hi''.
        destruct (Nat.eq_dec i'' i) as [->|Hne']; [|rewrite upd_other in Hi'' by exact Hne'; apply H2; exact Hi''].
        rewrite upd_same in Hi''. simpl in Hi''. rewrite Hp in Hi''. injection Hi'' as <-. apply H2. exact Hk.
    - apply (i_mnd _ _ Hi).
    - intros i' f' k' Hin. destruct (i_made _ _ Hi _ _ _ Hin) as (H1 & z & H2 & H3). split; [exact H1|]. exists z. split; [exact H2|].
      rewrite upd_other; [exact H3|]. intros ->. apply Hm. apply (in_map snd) in Hin. exact Hin.
  Qed.

  Lemma step_inv s l i : inv s l -> exists l', inv (tstep inherit i s) l'.
  Proof.
    intro Hi. unfold tstep. destruct (c_todo (creators s i)) as [|f r] eqn:Ht; [exists l; exact Hi|].
    pose proof (i_pc _ _ Hi i) as Hpc. unfold pc_ok in Hpc. rewrite Ht in Hpc.
    destruct (c_pc (creators s i)) as [|k|k z|k|k|k] eqn:Ep.
    - exists l. assert (Hfr : forall k, In k l -> k <> n_objects s) by (intros k Hk; apply (i_lt _ _ Hi) in Hk; lia).
      assert (Hfo : forall i' k, obj_of (c_pc (creators s i')) = Some k -> k <> n_objects s) by (intros i' k Hk; apply (i_own _ _ Hi) in Hk; lia).
      constructor; simpl.
      + apply (i_nd _ _ Hi).
      + intros k Hk. apply (i_lt _ _ Hi) in Hk. lia.
      + apply (i_count _ _ Hi).
      + intro i'. destruct (Nat.eq_dec i' i) as [->|Hne]; [rewrite upd_same; intro H; apply Hfr in H; congruence|]. rewrite upd_other by exact Hne.
        eapply pc_ok_frame; [| | |apply (i_pc _ _ Hi)]; auto. intros k' Hk'. simpl. apply upd_other. eapply Hfo; eauto.
      + intros i' k'. destruct (Nat.eq_dec i' i) as [->|Hne]; [rewrite upd_same|rewrite upd_other by exact Hne]; simpl; intro H.
        * injection H as <-. split; [lia|]. split.
          -- intros i' Hi'. destruct (Nat.eq_dec i' i) as [->|Hne]; [reflexivity|]. rewrite upd_other in Hi' by exact Hne. apply Hfo in Hi'. congruence.
          -- intro Hin. apply in_map_iff in Hin. destruct Hin as ([[a b] c] & Hc & Hin). simpl in Hc. subst. apply (i_made _ _ Hi) in Hin. lia.
        * destruct (i_own _ _ Hi _ _ H) as (H1 & H2 & H3). split; [lia|]. split; [|exact H3]. intros i'' Hi''.
          destruct (Nat.eq_dec i'' i) as [->|Hne']; [|rewrite upd_other in Hi'' by exact Hne'; apply H2; exact Hi''].
          rewrite upd_same in Hi''. simpl in Hi''. injection Hi'' as <-. lia.
      + apply (i_mnd _ _ Hi).
      + intros i' f' k' Hin. destruct (i_made _ _ Hi _ _ _ Hin) as (H1 & z & H2 & H3). split; [lia|]. exists z. split; [exact H2|].
        rewrite upd_other; [exact H3|lia].
    - assert (Hk : obj_of (c_pc (creators s i)) = Some k) by (rewrite Ep; reflexivity).
      destruct (i_own _ _ Hi i k Hk) as (Hlt & Hun & Hm). exists (l ++ [k]). constructor; simpl.
      + apply nd_snoc; [apply (i_nd _ _ Hi)|exact Hpc].
      + intros k' Hin. apply in_app_or in Hin. destruct Hin as [Hin|[<-|[]]]; [apply (i_lt _ _ Hi); exact Hin|exact Hlt].
      + rewrite (i_count _ _ Hi), wrap_add, app_length. simpl. f_equal. lia.
      + intro i'. destruct (Nat.eq_dec i' i) as [->|Hne]; [rewrite upd_same|rewrite upd_other by exact Hne].
        * exists (List.length l). split; [rewrite nth_error_app2, Nat.sub_diag by lia; reflexivity|apply (i_count _ _ Hi)].
        * eapply pc_ok_frame; [| | |apply (i_pc _ _ Hi)]; auto.
          -- intros k' Hin. apply in_app_or in Hin. destruct Hin as [Hin|[<-|[]]]; [auto|]. right. intro H. apply Hne, Hun, H.
          -- intros k' z. apply numbered_snoc.
      + intros i' k'. destruct (Nat.eq_dec i' i) as [->|Hne]; [rewrite upd_same|rewrite upd_other by exact Hne]; simpl; intro H.
        * injection H as <-. split; [exact Hlt|]. split; [|exact Hm]. intros i' Hi'.
          destruct (Nat.eq_dec i' i) as [->|Hne]; [reflexivity|]. rewrite upd_other in Hi' by exact Hne. apply Hun. exact Hi'.
        * destruct (i_own _ _ Hi _ _ H) as (H1 & H2 & H3). split; [exact H1|]. split; [|exact H3]. intros i'' Hi''.
          destruct (Nat.eq_dec i'' i) as [->|Hne']; [|rewrite upd_other in Hi'' by exact Hne'; apply H2; exact Hi''].
          rewrite upd_same in Hi''. simpl in Hi''. injection Hi'' as <-. apply H2. exact Hk.
      + apply (i_mnd _ _ Hi).
      + intros i' f' k' Hin. destruct (i_made _ _ Hi _ _ _ Hin) as (H1 & z & H2 & H3). split; [exact H1|]. exists z. split; [apply numbered_snoc; exact H2|exact H3].
    - exists l. apply (set_inv s l i f r k); [exact Hi|exact Ht|rewrite Ep; reflexivity|reflexivity|]. unfold pc_ok. simpl. rewrite upd_same. simpl. eauto.
    - destruct Hpc as (z & H1 & H2). exists l. apply (set_inv s l i f r k); [exact Hi|exact Ht|rewrite Ep; reflexivity|reflexivity|]. unfold pc_ok. simpl. rewrite upd_same. simpl. eauto.
    - destruct Hpc as (z & H1 & H2 & H3). exists l. apply (set_inv s l i f r k); [exact Hi|exact Ht|rewrite Ep; reflexivity|reflexivity|]. unfold pc_ok. simpl. rewrite upd_same. simpl.
      exists z. split; [exact H1|]. rewrite H2, H3. reflexivity.
    - destruct Hpc as (z & H1 & H2). assert (Hk : obj_of (c_pc (creators s i)) = Some k) by (rewrite Ep; reflexivity).
      destruct (i_own _ _ Hi i k Hk) as (Hlt & Hun & Hm). exists l. constructor; simpl.
      + apply (i_nd _ _ Hi).
      + apply (i_lt _ _ Hi).
      + apply (i_count _ _ Hi).
      + intro i'. destruct (Nat.eq_dec i' i) as [->|Hne]; [rewrite upd_same; unfold pc_ok; simpl; destruct r; auto|]. rewrite upd_other by exact Hne.
        eapply pc_ok_frame; [| | |apply (i_pc _ _ Hi)]; auto.
      + intros i' k'. destruct (Nat.eq_dec i' i) as [->|Hne]; [rewrite upd_same; discriminate|rewrite upd_other by exact Hne]; intro H.
        destruct (i_own _ _ Hi _ _ H) as (H3 & H4 & H5). split; [exact H3|]. split.
        * intros i'' Hi''. destruct (Nat.eq_dec i'' i) as [->|Hne']; [rewrite upd_same in Hi''; discriminate|]. rewrite upd_other in Hi'' by exact Hne'. auto.
        * rewrite map_app, in_app_iff. simpl. intros [?|[<-|[]]]; [contradiction|]. apply Hne. symmetry. apply H4. exact Hk.
      + rewrite map_app. simpl. apply nd_snoc; [apply (i_mnd _ _ Hi)|exact Hm].
      + intros i' f' k' Hin. apply in_app_or in Hin. destruct Hin as [Hin|[Hin|[]]]; [apply (i_made _ _ Hi _ _ _ Hin)|].
        injection Hin as <- <- <-. eauto.
  Qed.
  Lemma run_inv sched : exists l, inv (trun inherit calls sched) l.
  Proof.
    unfold trun. induction sched as [|i sched IH] using rev_ind.
    - exists []. constructor; simpl; try constructor; try contradiction; try discriminate; auto.
      + intro i. unfold pc_ok. simpl. destruct (calls i); auto.
    - rewrite fold_left_app. destruct IH as [l Hl]. simpl. eapply step_inv; eauto.
  Qed.

  Notation s sched := (trun inherit calls sched).
  Lemma len_le sched l : inv (s sched) l -> List.length l <= n_objects (s sched).
  Proof.
    intro Hi. rewrite <- (seq_length (n_objects (s sched)) 0). apply NoDup_incl_length; [apply (i_nd _ _ Hi)|].
    intros k Hk. apply in_seq. apply (i_lt _ _ Hi) in Hk. lia.
  Qed.
  Lemma made_obj sched i f k : In (i, f, k) (made (s sched)) ->
    exists j, j < n_objects (s sched) /\
      objects (s sched) k = {| th_name := Some (format_name (f_name f) (wrap32 (Z.of_nat j))); th_daemon := true; th_handler := f_handler f |}.
  Proof.
    intro Hin. destruct (run_inv sched) as [l Hi]. destruct (i_made _ _ Hi _ _ _ Hin) as (_ & z & (j & Hj & ->) & Ho).
    exists j. split; [|exact Ho]. pose proof (len_le _ _ Hi). assert (j < List.length l) by (apply nth_error_Some; congruence). lia.
  Qed.
  Lemma made_two sched a b i f k i' f' k' : a <> b -> nth_error (made (s sched)) a = Some (i, f, k) -> nth_error (made (s sched)) b = Some (i', f', k') ->
    exists j j', j <> j' /\ j < n_objects (s sched) /\ j' < n_objects (s sched) /\
      th_name (objects (s sched) k) = Some (format_name (f_name f) (wrap32 (Z.of_nat j))) /\
      th_name (objects (s sched) k') = Some (format_name (f_name f') (wrap32 (Z.of_nat j'))).
  Proof.
    intros Hne Ha Hb. destruct (run_inv sched) as [l Hi]. pose proof (len_le _ _ Hi) as Hle.
    destruct (i_made _ _ Hi _ _ _ (nth_error_In _ _ Ha)) as (_ & z & (j & Hj & ->) & Ho).
    destruct (i_made _ _ Hi _ _ _ (nth_error_In _ _ Hb)) as (_ & z & (j' & Hj' & ->) & Ho').
    assert (j < List.length l) by (apply nth_error_Some; congruence). assert (j' < List.length l) by (apply nth_error_Some; congruence).
    exists j, j'. rewrite Ho, Ho'. repeat split; try lia. intros ->. rewrite Hj in Hj'. injection Hj' as ->.
    apply Hne. eapply (proj1 (NoDup_nth_error (map snd (made (s sched)))) (i_mnd _ _ Hi)).
    - rewrite map_length. apply nth_error_Some. congruence.
    - rewrite !nth_error_map, Ha, Hb. reflexivity.
  Qed.
  Lemma unique sched a b i f k i' f' k' : (Z.of_nat (n_objects (s sched)) <= 2 ^ 31)%Z -> a <> b ->
    nth_error (made (s sched)) a = Some (i, f, k) -> nth_error (made (s sched)) b = Some (i', f', k') ->
    th_name (objects (s sched) k) <> th_name (objects (s sched) k').
  Proof.
    intros Hn Hne Ha Hb. destruct (made_two _ _ _ _ _ _ _ _ _ Hne Ha Hb) as (j & j' & Hj & H1 & H2 & -> & ->). intro He. injection He as He.
    rewrite !wrap_small in He by lia. unfold format_name in He.
    apply last_dash in He; [|apply dec_no_dash; lia|apply dec_no_dash; lia]. destruct He as [_ He]. apply dec_inj in He. lia.
  Qed.
  Lemma unique_prefix sched a b i f k i' f' k' : (Z.of_nat (n_objects (s sched)) <= 2 ^ 32)%Z -> a <> b ->
    nth_error (made (s sched)) a = Some (i, f, k) -> nth_error (made (s sched)) b = Some (i', f', k') ->
    f_name f = f_name f' -> th_name (objects (s sched) k) <> th_name (objects (s sched) k').
  Proof.
    intros Hn Hne Ha Hb Hf. destruct (made_two _ _ _ _ _ _ _ _ _ Hne Ha Hb) as (j & j' & Hj & H1 & H2 & -> & ->). intro He. injection He as He.
    unfold format_name in He. rewrite Hf in He. apply same_prefix, same_prefix in He. apply dec_inj in He. apply wrap_inj in He; lia.
  Qed.
  Lemma decimal_dec n : dec_text (Z.of_nat n) = in_decimal n.
  Proof. unfold dec_text, in_decimal. destruct n; reflexivity. Qed.
  Lemma named sched i f k nm h : In (i, f, k) (made (s sched)) -> (Z.of_nat (n_objects (s sched)) <= 2 ^ 31)%Z ->
    f = newNamedDaemonThreadFactory nm h \/ f = newNamedDaemonThreadFactory1 nm ->
    exists n, n < n_objects (s sched) /\ th_name (objects (s sched) k) = Some (name_and_number nm n).
  Proof.
    intros Hin Hn Hf. destruct (made_obj _ _ _ _ Hin) as (j & Hj & ->). exists j. split; [exact Hj|]. simpl. rewrite wrap_small by lia.
    assert (Hnm : f_name f = nm) by (destruct Hf as [-> | ->]; reflexivity).
    unfold format_name. rewrite Hnm, decimal_dec. destruct nm; reflexivity.
  Qed.
  Lemma daemons sched i f k nm h : In (i, f, k) (made (s sched)) ->
    (f = newNamedDaemonThreadFactory nm h -> th_daemon (objects (s sched) k) = true /\ th_handler (objects (s sched) k) = h) /\
    (f = newNamedDaemonThreadFactory1 nm -> th_daemon (objects (s sched) k) = true /\ th_handler (objects (s sched) k) = None).
  Proof. intro Hin. destruct (made_obj _ _ _ _ Hin) as (j & Hj & ->). split; intros ->; auto. Qed.
End Inv.

(** ** After the counter has wrapped: an execution by one creator *)
Section Wrap.
  Context (inherit : nat -> bool) (fs : list factory).
  Definition one (i : nat) : list factory := match i with 0 => fs | _ => [] end.
  Definition six (n : nat) : list nat := List.concat (repeat [0; 0; 0; 0; 0; 0] n).

  Record seq_ok (s : tsys) (n : nat) : Prop := {
    q_count : counter s = wrap32 (Z.of_nat n);
    q_n : n_objects s = n;
    q_todo : creators s 0 = {| c_pc := PNew; c_todo := skipn n fs |};
    q_made : forall j f, j < n -> nth_error fs j = Some f -> nth_error (made s) j = Some (0, f, j) /\
               th_name (objects s j) = Some (format_name (f_name f) (wrap32 (Z.of_nat j)));
    q_len : List.length (made s) = n }.
  Lemma skipn_nth {A} (l : list A) n x : nth_error l n = Some x -> skipn n l = x :: skipn (S n) l.
  Proof. revert l. induction n; intros [|y l] H; try discriminate; [injection H as ->; reflexivity|]. apply IHn. exact H. Qed.
  Lemma six_step s n : seq_ok s n -> n < List.length fs ->
    seq_ok (fold_left (fun s i => tstep inherit i s) [0; 0; 0; 0; 0; 0] s) (S n).
  Proof.
    intros [Hc Hn Ht Hm Hl] Hlt. destruct (nth_error fs n) as [f|] eqn:Ef; [|apply nth_error_None in Ef; lia].
    rewrite (skipn_nth _ _ _ Ef) in Ht.
    assert (Hs : fold_left (fun s i => tstep inherit i s) [0; 0; 0; 0; 0; 0] s =
      {| counter := wrap32 (counter s + 1);
         objects := upd (upd (upd (upd (objects s) n (new_thread (inherit 0))) n
           {| th_name := Some (format_name (f_name f) (counter s)); th_daemon := inherit 0; th_handler := None |}) n
           {| th_name := Some (format_name (f_name f) (counter s)); th_daemon := true; th_handler := None |}) n
           {| th_name := Some (format_name (f_name f) (counter s)); th_daemon := true; th_handler := f_handler f |};
         n_objects := S n;
         creators := upd (upd (upd (upd (upd (upd (creators s) 0 {| c_pc := PNumber n; c_todo := f :: skipn (S n) fs |})
           0 {| c_pc := PName n (counter s); c_todo := f :: skipn (S n) fs |})
           0 {| c_pc := PDaemon n; c_todo := f :: skipn (S n) fs |})
           0 {| c_pc := PHandler n; c_todo := f :: skipn (S n) fs |})
           0 {| c_pc := PReturn n; c_todo := f :: skipn (S n) fs |})
           0 {| c_pc := PNew; c_todo := skipn (S n) fs |};
         made := made s ++ [(0, f, n)] |}).
    { cbn [fold_left]. unfold tstep at 6. rewrite Ht. cbn [c_todo c_pc]. rewrite Hn.
      unfold tstep at 5. cbn [creators]. rewrite upd_same. cbn [c_todo c_pc].
      unfold tstep at 4. cbn [creators]. rewrite upd_same. cbn [c_todo c_pc].
      unfold tstep at 3. cbn [creators]. rewrite upd_same. cbn [c_todo c_pc counter objects n_objects made]. rewrite upd_same. 
      unfold tstep at 2. cbn [creators]. rewrite upd_same. cbn [c_todo c_pc counter objects n_objects made]. rewrite upd_same.
      unfold tstep at 1. cbn [creators]. rewrite upd_same. cbn [c_todo c_pc counter objects n_objects made th_name th_daemon th_handler]. rewrite ?upd_same. reflexivity. }
    rewrite Hs. constructor; cbn [counter objects n_objects creators made].
    - rewrite Hc, wrap_add. f_equal. lia.
    - reflexivity.
    - apply upd_same.
    - intros j g Hj Hg. destruct (Nat.eq_dec j n) as [->|Hne].
      + rewrite Ef in Hg. injection Hg as <-. rewrite nth_error_app2, Hl, Nat.sub_diag by lia. rewrite upd_same. simpl. rewrite Hc. auto.
      + rewrite !upd_other by exact Hne. destruct (Hm j g ltac:(lia) Hg) as [H1 H2]. rewrite nth_error_app1 by lia. auto.
    - rewrite app_length. simpl. lia.
  Qed.
  Lemma six_run n : n <= List.length fs -> seq_ok (trun inherit one (six n)) n.
  Proof.
    unfold trun. induction n as [|n IH]; intro Hn.
    - constructor; try reflexivity. intros j f Hj. lia.
    - assert (Hs : six (S n) = (six n ++ [0; 0; 0; 0; 0; 0])%list).
      { unfold six. clear. generalize [0; 0; 0; 0; 0; 0]. intro l. induction n as [|n IH]; [simpl; apply app_nil_r|].
        change (repeat l (S (S n))) with (l :: repeat l (S n)). rewrite concat_cons; rewrite IH at 1; rewrite app_assoc. reflexivity. }
      rewrite Hs, fold_left_app. apply six_step; [apply IH; lia|lia].
  Qed.
End Wrap.

(** a factory whose name ends in a dash makes the 6th thread, one without makes
    the thread that gets number -5 *)
Definition dashed : factory := {| f_name := Some "a-"; f_handler := None |}.
Definition plain_f : factory := {| f_name := Some "a"; f_handler := None |}.
Definition late : nat := Z.to_nat (2 ^ 32 - 5).
Lemma late_val : Z.of_nat late = (2 ^ 32 - 5)%Z. Proof. unfold late. rewrite Z2Nat.id; [reflexivity|]. vm_compute. discriminate. Qed.
Definition mix : list factory := repeat dashed 6 ++ repeat plain_f late.
Lemma late_small : late < S late. Proof. auto. Qed.
Opaque late.
Lemma beyond : ~ forall inherit calls sched a b i f k i' f' k', a <> b ->
    nth_error (made (trun inherit calls sched)) a = Some (i, f, k) -> nth_error (made (trun inherit calls sched)) b = Some (i', f', k') ->
    th_name (objects (trun inherit calls sched) k) <> th_name (objects (trun inherit calls sched) k').
Proof.
  intro H. pose proof late_val as Hlv. change (2 ^ 32 - 5)%Z with 4294967291%Z in Hlv.
  assert (Hlen : List.length mix = 6 + late) by (unfold mix; rewrite app_length, !repeat_length; reflexivity).
  pose proof (six_run (fun _ => false) mix (S late) ltac:(lia)) as Hq.
  destruct (q_made _ _ _ Hq 5 dashed) as [Ha Na]; [lia|reflexivity|].
  destruct (q_made _ _ _ Hq late plain_f) as [Hb Nb]; [lia| |].
  { unfold mix. rewrite nth_error_app2 by (rewrite repeat_length; lia). rewrite repeat_length. apply nth_error_repeat. lia. }
  assert (Hab : 5 <> late) by lia. apply (H _ _ _ _ _ _ _ _ _ _ _ Hab Ha Hb). rewrite Na, Nb, Hlv. vm_compute. reflexivity.
Qed.
