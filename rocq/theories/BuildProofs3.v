(** * BuildProofs3.v: what a builder thread gets from a Config, a variable and a
    Builder that no other thread uses (C48, C49: proofs) *)
From Verif Require Import Spec BuildSpec BuildProofs BuildProofs2.

(** ** Frames belong to the call being made *)
Definition fop (t : bthread) : Prop :=
  match b_ph t with
  | Idle => True
  | PGet fr _ _ | PMax fr | PNewS fr =>
      match fr_into fr with
      | ToHandle h => exists r, b_todo t = OCreate h (fr_drop fr) (fr_conf fr) :: r
      | ToBuilder b => (exists r, b_todo t = OBuild b :: r) /\ fr_conf fr = CBasic
      end
  | PStore b _ | PRead b => exists r, b_todo t = OBuild b :: r
  | PMach _ => exists b r, b_todo t = OBuild b :: r
  end.
Lemma fop_step s i : (forall j, fop (threads s j)) -> forall j, fop (threads (bstep i s) j).
Proof.
  intros H j. destruct (Nat.eq_dec j i) as [->|Hj]; [|rewrite bstep_other by exact Hj; apply H].
  specialize (H i). unfold bstep, fop in *.
  destruct (b_ph (threads s i)) as [|fr f g|fr|fr|b k|b|k] eqn:Ep, (b_todo (threads s i)) as [|op r] eqn:Et;
    try (try destruct g; simpl; rewrite Ep; simpl; rewrite ?Et; exact H).
  - destruct op; unfold fin, stay; simpl; rewrite ?bput_same; simpl; rewrite ?Et; eauto.
    + destruct (handles s h') as [[[] ?]|]; simpl; rewrite bput_same; simpl; auto.
    + destruct (builders s b); simpl; rewrite bput_same; simpl; rewrite ?Et; eauto.
  - destruct g; unfold stay; simpl; rewrite bput_same; simpl; rewrite Et; try exact H. destruct f; exact H.
  - unfold stay; simpl; rewrite bput_same; simpl. rewrite Et. exact H.
  - destruct (fr_into fr); unfold fin, stay; simpl; rewrite bput_same; simpl; [exact I|rewrite Et; apply H].
  - unfold stay; simpl; rewrite bput_same; simpl. rewrite Et. exact H.
  - destruct H as [r' H]. injection H as -> ->. destruct (builders s b); unfold fin, stay; simpl; rewrite bput_same; simpl; rewrite ?Et; eauto.
  - unfold fin; simpl; rewrite bput_same; exact I.
Qed.
Lemma fop_run progs sched : forall j, fop (threads (brun progs sched) j).
Proof.
  unfold brun. induction sched as [|i sched IH] using rev_ind; [intro j; exact I|]. rewrite fold_left_app. apply fop_step. exact IH.
Qed.

(** ** What a step leaves alone *)
Lemma grow_origin i s : exists l, origin (bstep i s) = origin s ++ l.
Proof.
  assert (Hn : exists l, origin s = origin s ++ l) by (exists []; rewrite app_nil_r; reflexivity).
  unfold bstep. destruct (b_ph (threads s i)) as [|fr f g|fr|fr|b k|b|k], (b_todo (threads s i)) as [|op r]; auto; try (destruct g; simpl; eauto; fail).
  - destruct op; simpl; eauto. + destruct (handles s h') as [[[] ?]|]; exact Hn. + destruct (builders s b); exact Hn.
  - destruct (fr_into fr); exact Hn.
  - destruct (builders s b); exact Hn.
Qed.
Lemma grow_machines i s : exists l, machines (bstep i s) = machines s ++ l.
Proof.
  assert (Hn : exists l, machines s = machines s ++ l) by (exists []; rewrite app_nil_r; reflexivity).
  unfold bstep. destruct (b_ph (threads s i)) as [|fr f g|fr|fr|b k|b|k], (b_todo (threads s i)) as [|op r]; auto; try (destruct g; exact Hn).
  - destruct op; auto. + destruct (handles s h') as [[[] ?]|]; exact Hn. + destruct (builders s b); exact Hn.
  - destruct (fr_into fr); exact Hn.
  - destruct (builders s b); exact Hn.
  - simpl. eauto.
Qed.
Lemma as_said_step i s u f st o : as_said s u f st o -> as_said (bstep i s) u f st o.
Proof.
  destruct st; simpl; auto. intros (k & Hk & Ho). exists k. split; [exact Hk|]. destruct (grow_origin i s) as [l ->].
  rewrite nth_error_app1; [exact Ho|eapply nth_lt; eauto].
Qed.

Section Own.
  Context (progs : nat -> list bop) (i : nat).
  Definition starts_of (s : bsys) (j : nat) : Prop := forall op, In op (b_todo (threads s j)) -> In op (progs j).

  Lemma other_conf u s j : own_conf progs i u -> starts_of s j -> (forall j, fop (threads s j)) -> j <> i ->
    confs (bstep j s) (CUser u) = confs s (CUser u).
  Proof.
    intros Hown Hst Hf Hj. specialize (Hf j). unfold bstep, fop in *.
    destruct (b_ph (threads s j)) as [|fr f g|fr|fr|b k|b|k] eqn:Ep, (b_todo (threads s j)) as [|op r] eqn:Et; try reflexivity; try (destruct g; reflexivity).
    - assert (Ho := Hown j op Hj (Hst op (ltac:(rewrite Et; left; reflexivity)))).
      destruct op; simpl; try reflexivity; try (apply cput_other; congruence).
      + destruct (handles s h') as [[[] ?]|]; reflexivity.
      + destruct (builders s b); reflexivity.
    - destruct g; try reflexivity. simpl. apply cput_other. intro Hc.
      assert (Ho := Hown j op Hj (Hst op (ltac:(rewrite Et; left; reflexivity)))).
      destruct (fr_into fr); [destruct Hf as [r' Hf]; injection Hf as -> _; rewrite <- Hc in Ho; congruence|destruct Hf; congruence].
    - destruct (fr_into fr); reflexivity.
    - destruct (builders s b); reflexivity.
  Qed.
  Lemma other_var h s j : own_var progs i h -> starts_of s j -> (forall j, fop (threads s j)) -> j <> i -> handles (bstep j s) h = handles s h.
  Proof.
    intros Hown Hst Hf Hj. specialize (Hf j). unfold bstep, fop in *.
    destruct (b_ph (threads s j)) as [|fr f g|fr|fr|b k|b|k] eqn:Ep, (b_todo (threads s j)) as [|op r] eqn:Et; try reflexivity; try (destruct g; reflexivity).
    - assert (Ho := Hown j op Hj (Hst op (ltac:(rewrite Et; left; reflexivity)))).
      destruct op; simpl; try reflexivity; try (apply bput_other; congruence).
      + destruct (handles s h') as [[[] ?]|]; try reflexivity. apply bput_other; congruence.
      + destruct (builders s b); reflexivity.
    - assert (Ho := Hown j op Hj (Hst op (ltac:(rewrite Et; left; reflexivity)))).
      destruct (fr_into fr); [|reflexivity]. destruct Hf as [r' Hf]. injection Hf as -> _. apply bput_other. congruence.
    - destruct (builders s b); reflexivity.
  Qed.
  Lemma other_builder b s j : own_builder progs i b -> starts_of s j -> (forall j, fop (threads s j)) -> j <> i -> builders (bstep j s) b = builders s b.
  Proof.
    intros Hown Hst Hf Hj. specialize (Hf j). unfold bstep, fop in *.
    destruct (b_ph (threads s j)) as [|fr f g|fr|fr|b' k|b'|k] eqn:Ep, (b_todo (threads s j)) as [|op r] eqn:Et; try reflexivity; try (destruct g; reflexivity).
    - assert (Ho := Hown j op Hj (Hst op (ltac:(rewrite Et; left; reflexivity)))).
      destruct op; simpl; try reflexivity; try (apply bput_other; congruence).
      + destruct (handles s h') as [[[] ?]|]; reflexivity.
      + destruct (builders s b0); reflexivity.
    - destruct (fr_into fr); reflexivity.
    - assert (Ho := Hown j op Hj (Hst op (ltac:(rewrite Et; left; reflexivity)))).
      destruct Hf as [r' Hf]. injection Hf as -> _. apply bput_other. congruence.
    - destruct (builders s b'); reflexivity.
  Qed.

  (** ** The Config *)
  Section Conf.
    Context (u : nat) (Hown : own_conf progs i u).
    Definition made (nm : option string) (st : fstate) : fstate :=
      match st with FUnset => FMade (match nm with Some n => n | None => "state-machine"%string end) | x => x end.
    Lemma fold_name pre f a : fst (fold_left (fstep u f) pre a) = fold_left (fun a op => match op with OName u' n => if Nat.eqb u' u then n else a | _ => a end) pre (fst a).
    Proof.
      revert a. induction pre as [|op pre IH]; intro a; simpl; [reflexivity|]. rewrite IH. f_equal.
      destruct op; simpl; try reflexivity.
      - destruct (Nat.eqb u0 u && field_eqb f0 f)%bool; reflexivity.
      - destruct (Nat.eqb u0 u); reflexivity.
      - destruct c; [reflexivity|]. destruct (Nat.eqb n u); reflexivity.
    Qed.
    Lemma field_snoc pre f op : field_after (pre ++ [op]) u f =
      match op with
      | OWith u' f' v => if (Nat.eqb u' u && field_eqb f' f)%bool then match v with Some n => FGiven n | None => FUnset end else field_after pre u f
      | OCreate _ _ (CUser u') => if Nat.eqb u' u then made (last_name pre u) (field_after pre u f) else field_after pre u f
      | _ => field_after pre u f
      end.
    Proof.
      unfold field_after, last_name. rewrite fold_left_app. cbn [fold_left]. pose proof (fold_name pre f (None, FUnset)) as Hn. cbn [fst] in Hn.
      destruct op; simpl; try reflexivity.
      - destruct (Nat.eqb u0 u && field_eqb f0 f)%bool; reflexivity.
      - destruct (Nat.eqb u0 u); reflexivity.
      - destruct c; [reflexivity|]. destruct (Nat.eqb n u); [|reflexivity]. simpl. rewrite Hn. unfold made. destruct (snd _); reflexivity.
    Qed.
    Lemma max_snoc pre op : last_max (pre ++ [op]) u = match op with OMax u' z => if Nat.eqb u' u then z else last_max pre u | _ => last_max pre u end.
    Proof. unfold last_max. rewrite fold_left_app. reflexivity. Qed.
    Lemma name_snoc pre op : last_name (pre ++ [op]) u = match op with OName u' z => if Nat.eqb u' u then z else last_name pre u | _ => last_name pre u end.
    Proof. unfold last_name. rewrite fold_left_app. reflexivity. Qed.

    Definition mine (p : phase) : bool := match frame_of p with Some fr => cid_eqb (fr_conf fr) (CUser u) | None => false end.
    Definition seen (p : phase) (f : field) : bool :=
      (mine p && (existsb (field_eqb f) (evaluated p) || match p with PGet _ f' GRead => field_eqb f f' | _ => false end))%bool.
    Definition now (pre : list bop) (p : phase) (f : field) : fstate :=
      if seen p f then made (last_name pre u) (field_after pre u f) else field_after pre u f.
    Record cinv (s : bsys) (pre : list bop) : Prop := {
      c_l : progs i = pre ++ b_todo (threads s i);
      c_m : c_max (confs s (CUser u)) = last_max pre u;
      c_n : c_tname (confs s (CUser u)) = last_name pre u;
      c_f : forall f, as_said s u f (now pre (b_ph (threads s i)) f) (c_obj (confs s (CUser u)) f);
      c_w : forall fr f, b_ph (threads s i) = PGet fr f GWrite -> fr_conf fr = CUser u -> c_obj (confs s (CUser u)) f = None;
      c_e : forall fr f, frame_of (b_ph (threads s i)) = Some fr -> fr_conf fr = CUser u -> In f (evaluated (b_ph (threads s i))) ->
              fr_loc fr f = c_obj (confs s (CUser u)) f;
      c_x : forall fr, match b_ph (threads s i) with PGet fr' FQueue _ | PNewS fr' => fr' = fr | _ => False end -> fr_conf fr = CUser u ->
              fr_max fr = c_max (confs s (CUser u));
      (** strategies created by the calls made *)
      c_s : forall pre1 h drop r, pre = pre1 ++ OCreate h drop (CUser u) :: r -> own_var progs i h -> keeps_var r h ->
              exists d x, handles s h = Some (drop, d) /\ nth_error (dstrats s) d = Some x /\ d_from x = Some (CUser u) /\ d_max x = last_max pre1 u /\
                forall f, as_said s u f (field_after (pre1 ++ [OCreate h drop (CUser u)]) u f) (d_obj x f) /\
                          (keeps_field r u f -> c_obj (confs s (CUser u)) f = d_obj x f) }.
    Lemma made_set nm st : made nm st <> FUnset. Proof. destruct st; discriminate. Qed.
    Lemma as_said_set s f st o : as_said s u f st o -> st <> FUnset -> o <> None.
    Proof. destruct st; simpl; [congruence|congruence|]. intros (k & -> & _) _. discriminate. Qed.
    Lemma snoc_split {A} (pre1 : list A) x r op pre : pre ++ [op] = pre1 ++ x :: r -> (r = [] /\ pre = pre1 /\ op = x) \/ exists r', r = r' ++ [op] /\ pre = pre1 ++ x :: r'.
    Proof.
      destruct r as [|y r _] using rev_ind; intro H.
      - left. apply app_inj_tail in H. tauto.
      - right. exists r. change (x :: r ++ [y]) with ((x :: r) ++ [y]) in H. rewrite app_assoc in H. apply app_inj_tail in H. destruct H as [-> ->]. auto.
    Qed.
    Lemma keeps_var_snoc r op h : keeps_var (r ++ [op]) h -> keeps_var r h /\ match op with OCreate h' _ _ | ODirect h' _ _ | OWrap h' _ => h' <> h | _ => True end.
    Proof. intro H. split; [intros o Ho; apply H; apply in_or_app; auto|apply H; apply in_or_app; right; left; reflexivity]. Qed.
    Lemma keeps_field_snoc r op f : keeps_field (r ++ [op]) u f -> keeps_field r u f /\ forall v, op <> OWith u f v.
    Proof. intro H. split; [intros v Hv; apply (H v); apply in_or_app; auto|intros v ->; apply (H v); apply in_or_app; right; left; reflexivity]. Qed.

    (** strategies made so far survive a step *)
    Lemma old_strats s j pre pre' op : (pre' = pre \/ pre' = pre ++ [op]) ->
      cinv s pre ->
      (forall h, own_var progs i h -> (pre' = pre \/ match op with OCreate h' _ _ | ODirect h' _ _ | OWrap h' _ => h' <> h | _ => True end) -> handles (bstep j s) h = handles s h) ->
      (forall f, c_obj (confs s (CUser u)) f <> None -> (pre' = pre \/ forall v, op <> OWith u f v) -> c_obj (confs (bstep j s) (CUser u)) f = c_obj (confs s (CUser u)) f) ->
      forall pre1 h drop r, pre' = pre1 ++ OCreate h drop (CUser u) :: r -> (pre' = pre \/ r <> []) -> own_var progs i h -> keeps_var r h ->
      exists d x, handles (bstep j s) h = Some (drop, d) /\ nth_error (dstrats (bstep j s)) d = Some x /\ d_from x = Some (CUser u) /\ d_max x = last_max pre1 u /\
        forall f, as_said (bstep j s) u f (field_after (pre1 ++ [OCreate h drop (CUser u)]) u f) (d_obj x f) /\
                  (keeps_field r u f -> c_obj (confs (bstep j s) (CUser u)) f = d_obj x f).
    Proof.
      intros Hpre H Hh Hc pre1 h drop r Hr Hne Hv Hk.
      assert (Hgo : forall r0, pre = pre1 ++ OCreate h drop (CUser u) :: r0 -> keeps_var r0 h ->
        (pre' = pre \/ match op with OCreate h' _ _ | ODirect h' _ _ | OWrap h' _ => h' <> h | _ => True end) ->
        (forall f, keeps_field r u f -> keeps_field r0 u f /\ (pre' = pre \/ forall v, op <> OWith u f v)) ->
        exists d x, handles (bstep j s) h = Some (drop, d) /\ nth_error (dstrats (bstep j s)) d = Some x /\ d_from x = Some (CUser u) /\ d_max x = last_max pre1 u /\
        forall f, as_said (bstep j s) u f (field_after (pre1 ++ [OCreate h drop (CUser u)]) u f) (d_obj x f) /\
                  (keeps_field r u f -> c_obj (confs (bstep j s) (CUser u)) f = d_obj x f)).
      { intros r0 Hp Hk0 Hop Hkf. destruct (c_s _ _ H _ _ _ _ Hp Hv Hk0) as (d & x & Hd & Hx & Hf & Hm & Hs).
        destruct (snap_step s j d x Hx) as (y & Hy & Y1 & Y2 & Y3 & _). exists d, y.
        split; [rewrite Hh; auto|]. split; [exact Hy|]. split; [congruence|]. split; [congruence|]. intro f. destruct (Hs f) as [Hs1 Hs2]. rewrite Y2.
        split; [apply as_said_step; exact Hs1|]. intro Hkr. destruct (Hkf f Hkr) as [Hk1 Hk2]. rewrite <- (Hs2 Hk1). apply Hc; [|exact Hk2].
        rewrite (Hs2 Hk1). eapply as_said_set; [exact Hs1|]. rewrite field_snoc, Nat.eqb_refl. apply made_set. }
      destruct Hpre as [Hpre|Hpre].
      - subst pre'. apply (Hgo r Hr Hk); auto.
      - rewrite Hpre in Hr. destruct (snoc_split _ _ _ _ _ Hr) as [(-> & -> & ->)|(r' & -> & Hp)].
        + destruct Hne as [Hne|Hne]; [|congruence]. rewrite Hpre in Hne. apply (f_equal (@List.length _)) in Hne. rewrite app_length in Hne. simpl in Hne. lia.
        + apply keeps_var_snoc in Hk. destruct Hk as [Hk1 Hk2]. apply (Hgo r' Hp Hk1); [auto|]. intros f Hkf. apply keeps_field_snoc in Hkf. tauto.
    Qed.

    Lemma cinv_other s j pre : starts_of s j -> (forall j, fop (threads s j)) -> j <> i -> cinv s pre -> cinv (bstep j s) pre.
    Proof.
      intros Hst Hf Hj H. pose proof (other_conf u s j Hown Hst Hf Hj) as Hc. pose proof (bstep_other s j i (not_eq_sym Hj)) as Ht.
      constructor.
      - rewrite Ht. apply (c_l _ _ H).
      - rewrite Hc. apply (c_m _ _ H).
      - rewrite Hc. apply (c_n _ _ H).
      - intro f. rewrite Ht, Hc. apply as_said_step. apply (c_f _ _ H).
      - rewrite Ht, Hc. apply (c_w _ _ H).
      - rewrite Ht, Hc. apply (c_e _ _ H).
      - rewrite Ht, Hc. apply (c_x _ _ H).
      - intros pre1 h drop r Hr Hv Hk. refine (old_strats s j pre pre (OBuild 0) (or_introl eq_refl) H _ _ pre1 h drop r Hr (or_introl eq_refl) Hv Hk).
        + intros h' Hv' _. apply other_var; assumption.
        + intros f _ _. rewrite Hc. reflexivity.
    Qed.

    (** a step inside a call of thread i: the call goes on *)
    Lemma cinv_stay s p o c : cinv s (p) -> forall ph,
      threads (bstep i s) = stay i s ph -> b_todo (threads s i) <> [] ->
      confs (bstep i s) (CUser u) = c -> o = c_obj c -> c_max c = c_max (confs s (CUser u)) -> c_tname c = c_tname (confs s (CUser u)) ->
      handles (bstep i s) = handles s ->
      (forall f, c_obj (confs s (CUser u)) f <> None -> o f = c_obj (confs s (CUser u)) f) ->
      (forall f, as_said (bstep i s) u f (now p ph f) (o f)) ->
      (forall fr f, ph = PGet fr f GWrite -> fr_conf fr = CUser u -> o f = None) ->
      (forall fr f, frame_of ph = Some fr -> fr_conf fr = CUser u -> In f (evaluated ph) -> fr_loc fr f = o f) ->
      (forall fr, match ph with PGet fr' FQueue _ | PNewS fr' => fr' = fr | _ => False end -> fr_conf fr = CUser u -> fr_max fr = c_max c) ->
      cinv (bstep i s) p.
    Proof.
      intros H ph Ht Htd Hc -> Hm Hn Hh Ho Hf Hw He Hx. constructor; rewrite ?Ht, ?Hc; unfold stay; rewrite ?bput_same; simpl.
      - apply (c_l _ _ H).
      - rewrite Hm. apply (c_m _ _ H).
      - rewrite Hn. apply (c_n _ _ H).
      - exact Hf.
      - exact Hw.
      - exact He.
      - exact Hx.
      - intros pre1 h drop r Hr Hv Hk. rewrite <- Hc. refine (old_strats s i p p (OBuild 0) (or_introl eq_refl) H _ _ pre1 h drop r Hr (or_introl eq_refl) Hv Hk).
        + intros h' _ _. rewrite Hh. reflexivity.
        + intros f Hs _. rewrite Hc. apply Ho. exact Hs.
    Qed.
    (** a step of thread i that finishes call op *)
    Lemma cinv_fin s p op r : cinv s p -> b_todo (threads s i) = op :: r -> threads (bstep i s) = fin i s ->
      c_max (confs (bstep i s) (CUser u)) = last_max (p ++ [op]) u -> c_tname (confs (bstep i s) (CUser u)) = last_name (p ++ [op]) u ->
      (forall f, as_said (bstep i s) u f (field_after (p ++ [op]) u f) (c_obj (confs (bstep i s) (CUser u)) f)) ->
      (forall h, match op with OCreate h' _ _ | ODirect h' _ _ | OWrap h' _ => h' <> h | _ => True end -> handles (bstep i s) h = handles s h) ->
      (forall f, c_obj (confs s (CUser u)) f <> None -> (forall v, op <> OWith u f v) -> c_obj (confs (bstep i s) (CUser u)) f = c_obj (confs s (CUser u)) f) ->
      (forall h drop, op = OCreate h drop (CUser u) ->
         exists d x, handles (bstep i s) h = Some (drop, d) /\ nth_error (dstrats (bstep i s)) d = Some x /\ d_from x = Some (CUser u) /\ d_max x = last_max p u /\
           forall f, as_said (bstep i s) u f (field_after (p ++ [op]) u f) (d_obj x f) /\ c_obj (confs (bstep i s) (CUser u)) f = d_obj x f) ->
      cinv (bstep i s) (p ++ [op]).
    Proof.
      intros H Et Ht Hm Hn Hf Hh Ho Hs. constructor; rewrite ?Ht; unfold fin; rewrite ?bput_same; simpl.
      - rewrite Et. simpl. rewrite (c_l _ _ H), Et, <- app_assoc. reflexivity.
      - exact Hm.
      - exact Hn.
      - exact Hf.
      - discriminate.
      - discriminate.
      - intros fr [].
      - intros pre1 h drop r' Hr Hv Hk. destruct r' as [|y r'].
        + apply app_inj_tail in Hr. destruct Hr as [<- ->]. destruct (Hs h drop eq_refl) as (d & x & H1 & H2 & H3 & H4 & H5). exists d, x.
          repeat (split; [assumption|]). intro f. destruct (H5 f). split; [assumption|]. intros _. assumption.
        + refine (old_strats s i p (p ++ [op]) op (or_intror eq_refl) H _ _ pre1 h drop (y :: r') Hr (or_intror _) Hv Hk); [| |discriminate].
          * intros h' _ [Hp|Ho']; [exfalso; apply (f_equal (@List.length _)) in Hp; rewrite app_length in Hp; simpl in Hp; lia|]. apply Hh. exact Ho'.
          * intros f Hf' [Hp|Ho']; [exfalso; apply (f_equal (@List.length _)) in Hp; rewrite app_length in Hp; simpl in Hp; lia|]. apply Ho; assumption.
    Qed.

    Lemma now_idle p f : now p Idle f = field_after p u f. Proof. reflexivity. Qed.
    Lemma now_none p ph f : mine ph = false -> now p ph f = field_after p u f.
    Proof. unfold now, seen. intros ->. reflexivity. Qed.
    Lemma frame_mine ph fr : frame_of ph = Some fr -> fr_conf fr <> CUser u -> mine ph = false.
    Proof. unfold mine. intros -> H. destruct (cid_eqb_spec (fr_conf fr) (CUser u)); congruence. Qed.
    Lemma mine_true ph fr : frame_of ph = Some fr -> fr_conf fr = CUser u -> mine ph = true.
    Proof. unfold mine. intros -> ->. simpl. apply Nat.eqb_refl. Qed.

    Lemma cinv_own s pre : (forall j, fop (threads s j)) -> cinv s pre -> exists pre', cinv (bstep i s) pre'.
    Proof.
      intros Hfop H. specialize (Hfop i). pose proof (c_f _ _ H) as Hf. pose proof (c_w _ _ H) as Hw. pose proof (c_e _ _ H) as He. pose proof (c_x _ _ H) as Hx.
      pose proof (c_m _ _ H) as Hm. pose proof (c_n _ _ H) as Hn.
      destruct (b_todo (threads s i)) as [|op r] eqn:Et.
      { exists pre. replace (bstep i s) with s; [exact H|]. unfold bstep. rewrite Et. destruct (b_ph (threads s i)) as [|fr f []|fr|fr|b k|b|k]; reflexivity. }
      assert (Hne : b_todo (threads s i) <> []) by (rewrite Et; discriminate).
      (** a step that changes no Config, no variable, and only goes on *)
      assert (Hstay : forall ph, bstep i s = upd_threads s (stay i s ph) ->
        (forall f, as_said s u f (now pre ph f) (c_obj (confs s (CUser u)) f)) ->
        (forall fr f, ph = PGet fr f GWrite -> fr_conf fr = CUser u -> c_obj (confs s (CUser u)) f = None) ->
        (forall fr f, frame_of ph = Some fr -> fr_conf fr = CUser u -> In f (evaluated ph) -> fr_loc fr f = c_obj (confs s (CUser u)) f) ->
        (forall fr, match ph with PGet fr' FQueue _ | PNewS fr' => fr' = fr | _ => False end -> fr_conf fr = CUser u -> fr_max fr = c_max (confs s (CUser u))) ->
        exists pre', cinv (bstep i s) pre').
      { intros ph Hb H1 H2 H3 H4. exists pre. eapply (cinv_stay s pre _ _ H ph); rewrite ?Hb; try reflexivity; try assumption; auto.
        all: intro f; rewrite <- Hb; apply as_said_step; apply H1. }
      (** the end of a call that is none of the Config's *)
      assert (Hfin : (match op with OWith u' _ _ | OMax u' _ | OName u' _ | OCreate _ _ (CUser u') => u' <> u | _ => True end) -> mine (b_ph (threads s i)) = false ->
        threads (bstep i s) = fin i s -> confs (bstep i s) (CUser u) = confs s (CUser u) ->
        (forall h, match op with OCreate h' _ _ | ODirect h' _ _ | OWrap h' _ => h' <> h | _ => True end -> handles (bstep i s) h = handles s h) ->
        exists pre', cinv (bstep i s) pre').
      { intros Hop Hmine Ht Hc Hh. exists (pre ++ [op]).
        assert (H1 : last_max (pre ++ [op]) u = last_max pre u).
        { rewrite max_snoc. destruct op; try reflexivity. destruct (Nat.eqb_spec u0 u); [congruence|reflexivity]. }
        assert (H2 : last_name (pre ++ [op]) u = last_name pre u).
        { rewrite name_snoc. destruct op; try reflexivity. destruct (Nat.eqb_spec u0 u); [congruence|reflexivity]. }
        assert (H3 : forall f, field_after (pre ++ [op]) u f = field_after pre u f).
        { intro f. rewrite field_snoc. destruct op; try reflexivity.
          - destruct (Nat.eqb_spec u0 u); [congruence|reflexivity].
          - destruct c; [reflexivity|]. destruct (Nat.eqb_spec n u); [congruence|reflexivity]. }
        apply (cinv_fin s pre op r H Et Ht); rewrite ?Hc, ?H1, ?H2; auto.
        - intro f. rewrite H3. apply as_said_step. rewrite <- (now_none pre _ f Hmine). apply Hf.
        - intros h drop ->. congruence. }
      destruct (b_ph (threads s i)) as [|fr f g|fr|fr|b k|b|k] eqn:Ep.
      - (** Idle: the next call *)
        destruct op.
        + (** OWith *) destruct (Nat.eq_dec u0 u) as [->|Hu].
          2:{ apply Hfin; try (unfold bstep; rewrite Ep, Et); auto. simpl. apply cput_other. congruence. }
          assert (Hb : bstep i s = upd_conf s (CUser u) (set_obj (confs s (CUser u)) f (option_map OUser v)) [] (fin i s)) by (unfold bstep; rewrite Ep, Et; reflexivity).
          exists (pre ++ [OWith u f v]). apply (cinv_fin s pre _ r H Et); rewrite Hb; simpl; try reflexivity; try discriminate.
          * rewrite cput_same, max_snoc. exact Hm.
          * rewrite cput_same, name_snoc. exact Hn.
          * intro f'. rewrite cput_same, field_snoc, Nat.eqb_refl. simpl. unfold fput. specialize (Hf f'). rewrite now_idle in Hf.
            destruct (field_eqb_spec f' f) as [->|Hne'], (field_eqb_spec f f) as [_|]; try congruence.
            -- destruct v; reflexivity.
            -- destruct (field_eqb_spec f f'); [congruence|]. rewrite <- Hb. apply as_said_step. exact Hf.
          * intros f' _ Hv. rewrite cput_same. simpl. unfold fput. destruct (field_eqb_spec f' f) as [->|]; [exfalso; eapply Hv; reflexivity|reflexivity].
        + (** OMax *) destruct (Nat.eq_dec u0 u) as [->|Hu].
          2:{ apply Hfin; try (unfold bstep; rewrite Ep, Et); auto. simpl. apply cput_other. congruence. }
          eassert (Hb : bstep i s = _) by (unfold bstep; rewrite Ep, Et; reflexivity).
          exists (pre ++ [OMax u z]). apply (cinv_fin s pre _ r H Et); rewrite Hb; simpl; rewrite ?cput_same; simpl; try reflexivity; try discriminate.
          * rewrite max_snoc, Nat.eqb_refl. reflexivity.
          * rewrite name_snoc. exact Hn.
          * intro f'. rewrite field_snoc. eassert (Hg := as_said_step i s u f' _ _ (Hf f')). rewrite Hb in Hg. exact Hg.
        + (** OName *) destruct (Nat.eq_dec u0 u) as [->|Hu].
          2:{ apply Hfin; try (unfold bstep; rewrite Ep, Et); auto. simpl. apply cput_other. congruence. }
          eassert (Hb : bstep i s = _) by (unfold bstep; rewrite Ep, Et; reflexivity).
          exists (pre ++ [OName u n]). apply (cinv_fin s pre _ r H Et); rewrite Hb; simpl; rewrite ?cput_same; simpl; try reflexivity; try discriminate.
          * rewrite max_snoc. exact Hm.
          * rewrite name_snoc, Nat.eqb_refl. reflexivity.
          * intro f'. rewrite field_snoc. eassert (Hg := as_said_step i s u f' _ _ (Hf f')). rewrite Hb in Hg. exact Hg.
        + (** OCreate *) apply (Hstay (PGet (new_frame drop c (ToHandle h)) FHandler GTest)); [unfold bstep; rewrite Ep, Et; reflexivity| |discriminate| |].
          * intro f. specialize (Hf f). unfold now, seen in *. simpl. rewrite Bool.andb_false_r. exact Hf.
          * simpl. intros fr f _ _ [].
          * intros fr [].
        + (** ODirect *) apply Hfin; try (unfold bstep; rewrite Ep, Et); auto. intros h' Hh'. apply bput_other. congruence.
        + (** OWrap *) apply Hfin; try (unfold bstep; rewrite Ep, Et); auto; destruct (handles s h') as [[[] ?]|] eqn:Eh; auto.
          intros h'' Hh'. apply bput_other. congruence.
        + (** OSetStrategy *) apply Hfin; try (unfold bstep; rewrite Ep, Et); auto.
        + (** OBuild *) destruct (builders s b) eqn:Eb.
          * apply (Hstay (PRead b)); [unfold bstep; rewrite Ep, Et, Eb; reflexivity|exact Hf|discriminate|discriminate|intros fr []].
          * apply (Hstay (PGet (new_frame false CBasic (ToBuilder b)) FHandler GTest)); [unfold bstep; rewrite Ep, Et, Eb; reflexivity|exact Hf|discriminate| |intros fr []].
            simpl. intros fr f _ _ [].
      - destruct g.
        + (** the null test *) apply (Hstay (PGet fr f (match c_obj (confs s (fr_conf fr)) f with None => GWrite | Some _ => GRead end))); [unfold bstep; rewrite Ep, Et; reflexivity| | | |].
          * intro f'. specialize (Hf f'). unfold now, seen in *. simpl in *. destruct (cid_eqb_spec (fr_conf fr) (CUser u)) as [Hc|Hc]; [|unfold mine in *; simpl in *; destruct (cid_eqb_spec (fr_conf fr) (CUser u)); [congruence|exact Hf]].
            rewrite Hc. unfold mine in *. simpl in *. destruct (cid_eqb_spec (fr_conf fr) (CUser u)); [|congruence].
            destruct (c_obj (confs s (CUser u)) f) eqn:Eo; [|destruct f; exact Hf].
            destruct (field_eqb_spec f' f) as [->|Hff].
            -- assert (Hev : existsb (field_eqb f) (evaluated (PGet fr f GTest)) = false) by (destruct f; reflexivity).
               replace (evaluated (PGet fr f GRead)) with (evaluated (PGet fr f GTest)) by reflexivity. simpl in *. rewrite Hev in *. simpl in *.
               rewrite Eo in *. destruct (field_after pre u f); simpl in *; [congruence|exact Hf|exact Hf].
            -- destruct f; exact Hf.
          * intros fr' f' Hph Hc. injection Hph as <- <- Hg. rewrite Hc in Hg. destruct (c_obj (confs s (CUser u)) f); [discriminate|reflexivity].
          * simpl. intros fr' f' [= <-]. apply (He fr f' eq_refl).
          * intros fr' Hph. apply Hx. exact Hph.
        + (** the assignment *)
          eassert (Hb : bstep i s = _) by (unfold bstep; rewrite Ep, Et; reflexivity).
          exists pre. destruct (cid_eqb_spec (fr_conf fr) (CUser u)) as [Hc|Hc].
          * specialize (Hw fr f eq_refl Hc).
            eapply (cinv_stay s pre _ _ H (PGet fr f GRead)); rewrite ?Hb; simpl; try rewrite Hc; try rewrite cput_same; try reflexivity; try assumption.
            -- intros f' Hs. simpl. unfold fput. destruct (field_eqb_spec f' f) as [->|]; [congruence|reflexivity].
            -- intro f'. specialize (Hf f'). simpl. unfold fput, now, seen, mine in *. simpl in *. rewrite Hc in *. simpl in *. rewrite Nat.eqb_refl in *. simpl in *.
               destruct (field_eqb_spec f' f) as [->|Hff].
               ++ rewrite Bool.orb_true_r. assert (Hev : existsb (field_eqb f) (evaluated (PGet fr f GTest)) = false) by (destruct f; reflexivity).
                  simpl in Hev. rewrite Hev in Hf. simpl in Hf. rewrite Hw in Hf.
                  assert (Hu : field_after pre u f = FUnset) by (destruct (field_after pre u f); simpl in Hf; [reflexivity|discriminate|destruct Hf as (? & Hf & _); discriminate]).
                  rewrite Hu. simpl. exists (List.length (origin s)). split; [reflexivity|]. rewrite nth_error_app2, Nat.sub_diag by lia. simpl. unfold prefix_of. rewrite Hn. reflexivity.
               ++ eassert (Hg := as_said_step i s u f' _ _ Hf). rewrite Hb in Hg. rewrite Bool.orb_false_r in *. exact Hg.
            -- discriminate.
            -- intros fr' f' [= <-] _ Hin. simpl. unfold fput. destruct (field_eqb_spec f' f) as [->|]; [exfalso; destruct f; simpl in Hin; intuition discriminate|]. apply (He fr f' eq_refl Hc Hin).
          * eapply (cinv_stay s pre _ _ H (PGet fr f GRead)); rewrite ?Hb; simpl; try rewrite cput_other by congruence; try reflexivity; try assumption.
            -- intro f'. specialize (Hf f'). rewrite now_none in * by (apply (frame_mine _ fr); [reflexivity|congruence]).
               eassert (Hg := as_said_step i s u f' _ _ Hf). rewrite Hb in Hg. exact Hg.
            -- discriminate.
        + (** the final read *)
          apply (Hstay (after_get f (with_loc fr f (c_obj (confs s (fr_conf fr)) f)))); [unfold bstep; rewrite Ep, Et; reflexivity| | | |].
          * intro f'. specialize (Hf f'). unfold now, seen, mine in *. rewrite frame_after. simpl in *. destruct (cid_eqb_spec (fr_conf fr) (CUser u)) as [Hc|Hc]; [|exact Hf].
            destruct f, f'; simpl in *; exact Hf.
          * destruct f; discriminate.
          * rewrite frame_after. intros fr' f' [= <-] Hc Hin. simpl in *. unfold fput. rewrite Hc. destruct (field_eqb_spec f' f) as [->|Hff]; [reflexivity|].
            apply (He fr f' eq_refl Hc). destruct (eval_after _ _ _ Hin) as [?|[g Hg]]; [congruence|]. destruct f, g; exact Hg.
          * intros fr'. destruct f; simpl; try (intros []; fail). intros <- Hc. simpl in *. apply (Hx fr eq_refl Hc).
      - (** the queue limit *)
        eapply (Hstay (PGet {| fr_drop := fr_drop fr; fr_conf := fr_conf fr; fr_into := fr_into fr; fr_loc := fr_loc fr; fr_max := c_max (confs s (fr_conf fr)) |} FQueue GTest));
          [unfold bstep; rewrite Ep, Et; reflexivity| |discriminate| |].
        + intro f. specialize (Hf f). exact Hf.
        + simpl. intros fr' f [= <-]. simpl. intros Hc Hin. apply (He fr f eq_refl Hc Hin).
        + simpl. intros fr' <- Hc. simpl in *. rewrite Hc. reflexivity.
      - (** the new strategy *)
        unfold fop in Hfop. rewrite Ep in Hfop. destruct (fr_into fr) as [h|b] eqn:Ei.
        + destruct Hfop as [r' Hr]. rewrite Et in Hr. injection Hr as -> ->.
          eassert (Hb : bstep i s = _) by (unfold bstep; rewrite Ep, Et, Ei; reflexivity).
          destruct (cid_eqb_spec (fr_conf fr) (CUser u)) as [Hc|Hc].
          * exists (pre ++ [OCreate h (fr_drop fr) (fr_conf fr)]).
            assert (Hall : forall f, as_said s u f (field_after (pre ++ [OCreate h (fr_drop fr) (fr_conf fr)]) u f) (c_obj (confs s (CUser u)) f)).
            { intro f. specialize (Hf f). unfold now, seen, mine in Hf. simpl in Hf. rewrite Hc in *. simpl in Hf. rewrite Nat.eqb_refl in Hf. rewrite field_snoc, Nat.eqb_refl. destruct f; exact Hf. }
            apply (cinv_fin s pre _ r' H Et); rewrite Hb; simpl; auto.
            -- rewrite max_snoc. exact Hm.
            -- rewrite name_snoc. exact Hn.
            -- intros h' Hh'. apply bput_other. congruence.
            -- intros h' drop [= -> <- _]. exists (List.length (dstrats s)). eexists. rewrite bput_same. split; [reflexivity|].
               rewrite nth_error_app2, Nat.sub_diag by lia. split; [reflexivity|]. simpl. split; [congruence|]. split; [rewrite (Hx fr eq_refl Hc); exact Hm|].
               intro f. rewrite (He fr f eq_refl Hc (all_evaluated fr f)). split; [|reflexivity]. apply Hall.
          * apply Hfin; rewrite ?Hb; auto.
            -- destruct (fr_conf fr); [exact I|congruence].
            -- apply (frame_mine _ fr); [reflexivity|exact Hc].
            -- intros h' Hh'. apply bput_other. congruence.
        + destruct Hfop as [_ Hc].
          eassert (Hb : bstep i s = _) by (unfold bstep; rewrite Ep, Et, Ei; reflexivity).
          exists pre. eapply (cinv_stay s pre _ _ H (PStore b (fr_drop fr, List.length (dstrats s)))); rewrite ?Hb; simpl; try reflexivity; try assumption; try discriminate; auto.
          * intro f. specialize (Hf f). rewrite now_none in * by (first [reflexivity|apply (frame_mine _ fr); [reflexivity|congruence]]).
            eassert (Hg := as_said_step i s u f _ _ Hf). rewrite Hb in Hg. exact Hg.
          * intros fr' [].
      - eassert (Hb : bstep i s = _) by (unfold bstep; rewrite Ep, Et; reflexivity).
        exists pre. eapply (cinv_stay s pre _ _ H (PRead b)); rewrite ?Hb; simpl; try reflexivity; try assumption; try discriminate; auto.
      - assert (Hop : exists r', op :: r = OBuild b :: r') by (unfold fop in Hfop; rewrite Ep, Et in Hfop; exact Hfop). destruct Hop as [r' Hr]. injection Hr as -> ->.
        destruct (builders s b) as [k|] eqn:Eb.
        + apply (Hstay (PMach k)); [unfold bstep; rewrite Ep, Et, Eb; reflexivity|exact Hf|discriminate|discriminate|intros fr []].
        + apply Hfin; try (unfold bstep; rewrite Ep, Et, ?Eb); auto.
      - assert (Hop : exists b r', op :: r = OBuild b :: r') by (unfold fop in Hfop; rewrite Ep, Et in Hfop; exact Hfop). destruct Hop as (b & r' & Hr). injection Hr as -> ->.
        apply Hfin; try (unfold bstep; rewrite Ep, Et); auto.
    Qed.

    Lemma cinv_run sched : exists pre, cinv (brun progs sched) pre.
    Proof.
      unfold brun. induction sched as [|j sched [pre IH]] using rev_ind.
      - exists []. constructor; simpl; try reflexivity; try discriminate.
        + intros fr [].
        + intros pre1 h drop r Hr. apply (f_equal (@List.length _)) in Hr. rewrite app_length in Hr. simpl in Hr. lia.
      - rewrite fold_left_app. cbn [fold_left]. destruct (Nat.eq_dec j i) as [->|Hj].
        + apply (cinv_own _ pre); [apply (fop_run progs sched)|exact IH].
        + exists pre. apply cinv_other; [intro op; apply (todo_in progs sched)|apply (fop_run progs sched)|exact Hj|exact IH].
    Qed.
    Lemma created sched pre h drop mid r : let s := brun progs sched in
      own_var progs i h -> progs i = pre ++ OCreate h drop (CUser u) :: mid ++ r -> keeps_var mid h -> finished s i r ->
      exists d x, handles s h = Some (drop, d) /\ nth_error (dstrats s) d = Some x /\ d_from x = Some (CUser u) /\ d_max x = last_max pre u /\
        forall f, as_said s u f (field_after (pre ++ [OCreate h drop (CUser u)]) u f) (d_obj x f) /\
                  (keeps_field mid u f -> c_obj (confs s (CUser u)) f = d_obj x f).
    Proof.
      intros s Hv Hp Hk Hfi. destruct (cinv_run sched) as [pre0 H]. fold s in H. pose proof (c_l _ _ H) as Hl. unfold finished in Hfi. rewrite Hfi in Hl. simpl in Hl.
      assert (Hpre : pre0 = pre ++ OCreate h drop (CUser u) :: mid).
      { rewrite Hl in Hp. replace (pre ++ OCreate h drop (CUser u) :: mid ++ r) with ((pre ++ OCreate h drop (CUser u) :: mid) ++ r) in Hp by (rewrite <- app_assoc; reflexivity).
        apply app_inv_tail in Hp. exact Hp. }
      exact (c_s _ _ H _ _ _ _ Hpre Hv Hk).
    Qed.
  End Conf.

  (** ** The Builder *)
  Section Bld.
    Context (b : nat) (Hown : own_builder progs i b).
    Record binv (s : bsys) (pre : list bop) : Prop := {
      b_l : progs i = pre ++ b_todo (threads s i);
      b_p : match b_ph (threads s i) with
            | Idle => True
            | PGet fr _ _ | PMax fr | PNewS fr => fr_into fr = ToBuilder b -> builders s b = None
            | PStore b' _ => b' = b -> builders s b = None
            | PRead b' => b' = b -> builders s b <> None
            | PMach k => forall r, b_todo (threads s i) = OBuild b :: r -> builders s b = Some k
            end;
      b_s : forall pre1 h r, pre = pre1 ++ OSetStrategy b (Some h) :: r -> own_var progs i h -> keeps_var r h -> keeps_builder r b ->
              handles s h <> None -> builders s b = handles s h;
      b_m : forall pre1 r, pre = pre1 ++ OBuild b :: r -> keeps_builder r b -> exists k m, builders s b = Some k /\ nth_error (machines s) m = Some k }.
    Lemma keeps_builder_snoc r op : keeps_builder (r ++ [op]) b -> keeps_builder r b /\ forall h, op <> OSetStrategy b h.
    Proof. intro H. split; [intros h Hh; apply (H h); apply in_or_app; auto|intros h ->; apply (H h); apply in_or_app; right; left; reflexivity]. Qed.

    Lemma mach_keep s j m k : nth_error (machines s) m = Some k -> nth_error (machines (bstep j s)) m = Some k.
    Proof. intro H. destruct (grow_machines j s) as [l ->]. rewrite nth_error_app1; [exact H|eapply nth_lt; eauto]. Qed.
    (** the call goes on (or another thread moved) *)
    Lemma binv_same s j pre : binv s pre -> b_todo (threads (bstep j s) i) = b_todo (threads s i) ->
      (forall h, own_var progs i h -> handles (bstep j s) h = handles s h) ->
      (builders s b <> None -> builders (bstep j s) b = builders s b) ->
      match b_ph (threads (bstep j s) i) with
      | Idle => True
      | PGet fr _ _ | PMax fr | PNewS fr => fr_into fr = ToBuilder b -> builders (bstep j s) b = None
      | PStore b' _ => b' = b -> builders (bstep j s) b = None
      | PRead b' => b' = b -> builders (bstep j s) b <> None
      | PMach k => forall r, b_todo (threads s i) = OBuild b :: r -> builders (bstep j s) b = Some k
      end -> binv (bstep j s) pre.
    Proof.
      intros H Ht Hh Hb Hp. constructor.
      - rewrite Ht. apply (b_l _ _ H).
      - rewrite Ht. exact Hp.
      - intros pre1 h r Hr Hv Hk Hkb. rewrite (Hh h Hv). intro Hn. pose proof (b_s _ _ H _ _ _ Hr Hv Hk Hkb Hn) as He. rewrite Hb; [exact He|congruence].
      - intros pre1 r Hr Hkb. destruct (b_m _ _ H _ _ Hr Hkb) as (k & m & Hk & Hm). exists k, m. split; [|apply mach_keep; exact Hm]. rewrite Hb; congruence.
    Qed.
    (** the call is finished *)
    Lemma binv_fin s pre op r : binv s pre -> b_todo (threads s i) = op :: r -> threads (bstep i s) = fin i s ->
      (forall h, match op with OCreate h' _ _ | ODirect h' _ _ | OWrap h' _ => h' <> h | _ => True end -> handles (bstep i s) h = handles s h) ->
      ((forall h, op <> OSetStrategy b h) -> builders s b <> None -> builders (bstep i s) b = builders s b) ->
      (forall h, op = OSetStrategy b (Some h) -> builders (bstep i s) b = handles s h) ->
      (op = OBuild b -> exists k m, builders (bstep i s) b = Some k /\ nth_error (machines (bstep i s)) m = Some k) ->
      binv (bstep i s) (pre ++ [op]).
    Proof.
      intros H Et Ht Hh Hb Hs Hm. constructor; rewrite ?Ht; unfold fin; rewrite ?bput_same; simpl.
      - rewrite Et. simpl. rewrite (b_l _ _ H), Et, <- app_assoc. reflexivity.
      - exact I.
      - intros pre1 h r' Hr Hv Hk Hkb Hn. destruct (snoc_split _ _ _ _ _ Hr) as [(-> & -> & ->)|(r0 & -> & Hp)].
        + rewrite (Hs h eq_refl), Hh; auto.
        + apply keeps_var_snoc in Hk. destruct Hk as [Hk1 Hk2]. apply keeps_builder_snoc in Hkb. destruct Hkb as [Hb1 Hb2]. rewrite (Hh h Hk2) in *.
          pose proof (b_s _ _ H _ _ _ Hp Hv Hk1 Hb1 Hn) as He. rewrite Hb; [exact He|exact Hb2|congruence].
      - intros pre1 r' Hr Hkb. destruct (snoc_split _ _ _ _ _ Hr) as [(-> & -> & ->)|(r0 & -> & Hp)].
        + apply Hm. reflexivity.
        + apply keeps_builder_snoc in Hkb. destruct Hkb as [Hb1 Hb2]. destruct (b_m _ _ H _ _ Hp Hb1) as (k & m & Hk & Hm'). exists k, m.
          split; [|apply mach_keep; exact Hm']. rewrite Hb; [exact Hk|exact Hb2|congruence].
    Qed.
    Lemma binv_own s pre : (forall j, fop (threads s j)) -> binv s pre -> exists pre', binv (bstep i s) pre'.
    Proof.
      intros Hfop H. specialize (Hfop i). pose proof (b_p _ _ H) as Hp. unfold fop in Hfop.
      destruct (b_todo (threads s i)) as [|op r] eqn:Et.
      { exists pre. replace (bstep i s) with s; [exact H|]. unfold bstep. rewrite Et. destruct (b_ph (threads s i)) as [|fr f []|fr|fr|b' k|b'|k]; reflexivity. }
      (** a step that only goes on *)
      assert (Hstay : forall ph, bstep i s = upd_threads s (stay i s ph) ->
        match ph with
        | Idle => True
        | PGet fr _ _ | PMax fr | PNewS fr => fr_into fr = ToBuilder b -> builders s b = None
        | PStore b' _ => b' = b -> builders s b = None
        | PRead b' => b' = b -> builders s b <> None
        | PMach k => forall r, b_todo (threads s i) = OBuild b :: r -> builders s b = Some k
        end -> exists pre', binv (bstep i s) pre').
      { intros ph Hb Hph. exists pre. apply (binv_same s i pre H); rewrite Hb; simpl; unfold stay; rewrite ?bput_same; auto. }
      destruct (b_ph (threads s i)) as [|fr f g|fr|fr|b' k|b'|k] eqn:Ep.
      - destruct op.
        1-3: eexists; eapply (binv_fin s pre _ r H Et); unfold bstep; rewrite Ep, Et; auto; discriminate.
        + apply (Hstay (PGet (new_frame drop c (ToHandle h)) FHandler GTest)); [unfold bstep; rewrite Ep, Et; reflexivity|discriminate].
        + eexists; eapply (binv_fin s pre _ r H Et); unfold bstep; rewrite Ep, Et; auto; try discriminate. intros h' Hh'. apply bput_other. congruence.
        + eexists; eapply (binv_fin s pre _ r H Et); unfold bstep; rewrite Ep, Et; try discriminate; destruct (handles s h') as [[[] ?]|]; auto.
          intros h'' Hh'. apply bput_other. congruence.
        + eexists; eapply (binv_fin s pre _ r H Et); unfold bstep; rewrite Ep, Et; auto; try discriminate.
          * intros Hne _. apply bput_other. intros ->. apply (Hne h). reflexivity.
          * intros h' [= -> ->]. apply bput_same.
        + destruct (builders s b0) eqn:Eb.
          * apply (Hstay (PRead b0)); [unfold bstep; rewrite Ep, Et, Eb; reflexivity|]. intros -> . congruence.
          * apply (Hstay (PGet (new_frame false CBasic (ToBuilder b0)) FHandler GTest)); [unfold bstep; rewrite Ep, Et, Eb; reflexivity|].
            simpl. intros [= ->]. exact Eb.
      - destruct g.
        + eapply Hstay; [unfold bstep; rewrite Ep, Et; reflexivity|exact Hp].
        + exists pre. apply (binv_same s i pre H); unfold bstep; rewrite Ep, Et; simpl; unfold stay; rewrite ?bput_same; auto.
        + eapply Hstay; [unfold bstep; rewrite Ep, Et; reflexivity|]. destruct f; exact Hp.
      - eapply Hstay; [unfold bstep; rewrite Ep, Et; reflexivity|exact Hp].
      - destruct (fr_into fr) as [h|b'] eqn:Ei.
        + destruct Hfop as [r' Hr]. injection Hr as -> ->.
          eexists; eapply (binv_fin s pre _ r' H Et); unfold bstep; rewrite Ep, Et, Ei; auto; try discriminate. intros h' Hh'. apply bput_other. congruence.
        + exists pre. apply (binv_same s i pre H); unfold bstep; rewrite Ep, Et, Ei; simpl; unfold stay; rewrite ?bput_same; auto. simpl. intros ->. apply Hp. reflexivity.
      - exists pre. apply (binv_same s i pre H); unfold bstep; rewrite Ep, Et; simpl; unfold stay; rewrite ?bput_same; auto.
        + intro Hn. apply bput_other. intros ->. apply Hn. apply Hp. reflexivity.
        + simpl. intros ->. rewrite bput_same. discriminate.
      - destruct Hfop as [r' Hr]. injection Hr as -> ->. destruct (builders s b') as [k|] eqn:Eb.
        + apply (Hstay (PMach k)); [unfold bstep; rewrite Ep, Et, Eb; reflexivity|]. intros r Hr. rewrite Et in Hr. injection Hr as -> _. exact Eb.
        + eexists; eapply (binv_fin s pre _ r' H Et); unfold bstep; rewrite Ep, Et, Eb; auto; try discriminate. intros [= ->]. exfalso. apply Hp; [reflexivity|exact Eb].
      - destruct Hfop as (b' & r' & Hr). injection Hr as -> ->.
        eexists; eapply (binv_fin s pre _ r' H Et); unfold bstep; rewrite Ep, Et; auto; try discriminate. intros [= ->].
        exists k, (List.length (machines s)). simpl. split; [apply (Hp r'); reflexivity|]. rewrite nth_error_app2, Nat.sub_diag by lia. reflexivity.
    Qed.
    Lemma binv_run sched : exists pre, binv (brun progs sched) pre.
    Proof.
      unfold brun. induction sched as [|j sched [pre IH]] using rev_ind.
      - exists []. constructor; simpl; try reflexivity; try exact I.
        intros pre1 r Hr. apply (f_equal (@List.length _)) in Hr. rewrite app_length in Hr. simpl in Hr. lia.
      - rewrite fold_left_app. cbn [fold_left]. set (s := fold_left _ sched _) in *. destruct (Nat.eq_dec j i) as [->|Hj].
        + apply (binv_own _ pre); [apply (fop_run progs sched)|exact IH].
        + exists pre. pose proof (bstep_other s j i (not_eq_sym Hj)) as Ht.
          assert (Hst : starts_of s j) by (intro op; apply (todo_in progs sched)). assert (Hf : forall j, fop (threads s j)) by apply (fop_run progs sched).
          pose proof (other_builder b s j Hown Hst Hf Hj) as Hb. apply binv_same; [exact IH|rewrite Ht; reflexivity| |auto|].
          * intros h Hv. apply other_var; assumption.
          * rewrite Ht, Hb. apply (b_p _ _ IH).
    Qed.
  End Bld.

  Lemma built_from sched rest u b h drop pre mid1 mid2 mid3 r : let s := brun progs sched in let E := env_of s rest in
    own_conf progs i u -> own_var progs i h -> own_builder progs i b ->
    progs i = pre ++ OCreate h drop (CUser u) :: mid1 ++ OSetStrategy b (Some h) :: mid2 ++ OBuild b :: mid3 ++ r ->
    keeps_var (mid1 ++ mid2 ++ mid3) h -> keeps_builder (mid2 ++ mid3) b -> finished s i r ->
    exists m d x, built_with s m d /\ nth_error (dstrats s) d = Some x /\ strat E (strat_of E m) = strat_rec drop d x /\
      d_from x = Some (CUser u) /\ d_max x = last_max pre u /\
      forall f, as_said s u f (field_after (pre ++ [OCreate h drop (CUser u)]) u f) (d_obj x f).
  Proof.
    intros s E Hu Hh Hb Hp Hk Hkb Hfi.
    assert (Hk' : forall l op, In op l -> (forall x, In x l -> In x (mid1 ++ mid2 ++ mid3)) -> match op with OCreate h' _ _ | ODirect h' _ _ | OWrap h' _ => h' <> h | _ => True end).
    { intros l op Hin Hl. apply Hk. auto. }
    destruct (created u Hu sched pre h drop (mid1 ++ OSetStrategy b (Some h) :: mid2 ++ OBuild b :: mid3) r Hh) as (d & x & Hd & Hx & Hf & Hm & Ho); [| |exact Hfi|].
    { rewrite Hp. rewrite <- ?app_assoc. simpl. rewrite <- ?app_assoc. reflexivity. }
    { intros op Hin. apply in_app_or in Hin. destruct Hin as [Hin|[<-|Hin]]; [apply Hk; apply in_or_app; auto|exact I|].
      apply in_app_or in Hin. destruct Hin as [Hin|[<-|Hin]]; [|exact I|]; apply Hk; apply in_or_app; right; apply in_or_app; auto. }
    fold s in Hd, Hx, Ho.
    destruct (binv_run b Hb sched) as [pre0 H]. fold s in H. pose proof (b_l _ _ _ H) as Hl. unfold finished in Hfi. rewrite Hfi in Hl. simpl in Hl.
    assert (Hpre : pre0 = pre ++ OCreate h drop (CUser u) :: mid1 ++ OSetStrategy b (Some h) :: mid2 ++ OBuild b :: mid3).
    { rewrite Hl in Hp. apply (app_inv_tail r). rewrite Hp. rewrite <- ?app_assoc. simpl. rewrite <- ?app_assoc. simpl. rewrite <- ?app_assoc. reflexivity. }
    assert (Hbs : builders s b = handles s h).
    { apply (b_s _ _ _ H (pre ++ OCreate h drop (CUser u) :: mid1) h (mid2 ++ OBuild b :: mid3)); [|exact Hh| | |congruence].
      - rewrite Hpre, <- app_assoc. reflexivity.
      - intros op Hin. apply in_app_or in Hin. destruct Hin as [Hin|[<-|Hin]]; [|exact I|]; apply Hk; apply in_or_app; right; apply in_or_app; auto.
      - intros h' Hin. apply in_app_or in Hin. destruct Hin as [Hin|[Hin|Hin]]; [|discriminate|]; apply (Hkb h'); apply in_or_app; auto. }
    destruct (b_m _ _ _ H (pre ++ OCreate h drop (CUser u) :: mid1 ++ OSetStrategy b (Some h) :: mid2) mid3) as (k & m & Hk1 & Hmm).
    { rewrite Hpre. rewrite <- app_assoc. simpl. rewrite <- app_assoc. reflexivity. }
    { intros h' Hin. apply (Hkb h'). apply in_or_app. auto. }
    rewrite Hbs, Hd in Hk1. injection Hk1 as <-. exists m, d, x. split; [exists drop; exact Hmm|]. split; [exact Hx|].
    split; [|split; [exact Hf|split; [exact Hm|intro f; apply Ho]]].
    unfold E. replace (strat_of (env_of s rest) m) with (strat_num (drop, d)) by (simpl; rewrite Hmm; reflexivity). apply env_strat. exact Hx.
  Qed.

  Lemma field_set pre h drop u f : field_after (pre ++ [OCreate h drop (CUser u)]) u f <> FUnset.
  Proof. unfold field_after. rewrite fold_left_app. simpl. rewrite Nat.eqb_refl. simpl. destruct (snd _); discriminate. Qed.
  Lemma lib_workers s rest k : n_workers (env_of s rest) (4 * k + 1) = 1.
  Proof.
    unfold env_of. cbn [n_workers]. replace ((4 * k + 1) mod 4) with 1; [reflexivity|].
    rewrite Nat.add_comm, Nat.mul_comm, Nat.mod_add by discriminate. reflexivity.
  Qed.
  Lemma built_runs sched rest u b h drop pre mid1 mid2 mid3 r : let s := brun progs sched in let E := env_of s rest in
    own_conf progs i u -> own_var progs i h -> own_builder progs i b ->
    progs i = pre ++ OCreate h drop (CUser u) :: mid1 ++ OSetStrategy b (Some h) :: mid2 ++ OBuild b :: mid3 ++ r ->
    keeps_var (mid1 ++ mid2 ++ mid3) h -> keeps_builder (mid2 ++ mid3) b -> finished s i r ->
    exists m d, built_with s m d /\ made_from s d (CUser u) /\
      runs_as_said s E u m drop (last_max pre u) (field_after (pre ++ [OCreate h drop (CUser u)]) u).
  Proof.
    intros s E Hu Hh Hb Hp Hk Hkb Hfi.
    destruct (built_from sched rest u b h drop pre mid1 mid2 mid3 r Hu Hh Hb Hp Hk Hkb Hfi) as (m & d & x & Hm & Hx & Hst & Hf & Hmax & Ho).
    fold s in Hm, Hx, Hst, Ho. fold E in Hst.
    exists m, d. split; [exact Hm|]. split; [exists x; auto|].
    unfold runs_as_said. cbv zeta. rewrite Hst. unfold strat_rec. cbn [s_drop s_max s_unmapped s_ufl s_exec s_queue].
    split; [reflexivity|]. split; [exact Hmax|].
    assert (Hn := fun f => field_set pre h drop u f).
    pose proof (Ho FHandler) as H1. pose proof (Ho FFlow) as H2. pose proof (Ho FExec) as H3. pose proof (Ho FQueue) as H4.
    unfold as_said in *.
    split; [destruct (field_after _ u FHandler) eqn:En; [destruct (Hn _ En)|rewrite H1; reflexivity|destruct H1 as (k & -> & _); reflexivity]|].
    split; [destruct (field_after _ u FFlow) eqn:En; [destruct (Hn _ En)|rewrite H2; reflexivity|destruct H2 as (k & -> & _); reflexivity]|].
    split.
    - destruct (field_after _ u FExec) eqn:En; [destruct (Hn _ En)|rewrite H3; reflexivity|].
      destruct H3 as (k & -> & Hk3). exists k. split; [reflexivity|]. split; [exact Hk3|]. apply lib_workers.
    - destruct (field_after _ u FQueue) eqn:En; [destruct (Hn _ En)|rewrite H4; reflexivity|].
      destruct H4 as (k & -> & Hk4). exists k. split; [reflexivity|exact Hk4].
  Qed.

  (** strategies created from it one after the other share what was not set anew in
      between *)
  Lemma created_share sched u h1 h2 drop1 drop2 pre mid mid2 r d1 d2 x1 x2 f : let s := brun progs sched in
    own_conf progs i u -> own_var progs i h1 -> own_var progs i h2 -> h1 <> h2 ->
    progs i = pre ++ OCreate h1 drop1 (CUser u) :: mid ++ OCreate h2 drop2 (CUser u) :: mid2 ++ r ->
    keeps_var (mid ++ mid2) h1 -> keeps_var mid2 h2 -> keeps_field (mid ++ mid2) u f -> finished s i r ->
    handles s h1 = Some (drop1, d1) -> handles s h2 = Some (drop2, d2) -> nth_error (dstrats s) d1 = Some x1 -> nth_error (dstrats s) d2 = Some x2 ->
    d_obj x1 f = d_obj x2 f.
  Proof.
    intros s Hu Hv1 Hv2 Hne Hp Hk1 Hk2 Hkf Hfi H1 H2 Hx1 Hx2.
    destruct (created u Hu sched pre h1 drop1 (mid ++ OCreate h2 drop2 (CUser u) :: mid2) r Hv1) as (d & x & Hd & Hx & _ & _ & Ho); [| |exact Hfi|].
    { rewrite Hp. rewrite <- ?app_assoc. reflexivity. }
    { intros op Hin. apply in_app_or in Hin. destruct Hin as [Hin|[<-|Hin]]; [|congruence|]; apply Hk1; apply in_or_app; auto. }
    destruct (created u Hu sched (pre ++ OCreate h1 drop1 (CUser u) :: mid) h2 drop2 mid2 r Hv2) as (d' & x' & Hd' & Hx' & _ & _ & Ho'); [|exact Hk2|exact Hfi|].
    { rewrite Hp. rewrite <- ?app_assoc. reflexivity. }
    fold s in Hd, Hx, Ho, Hd', Hx', Ho'. rewrite H1 in Hd. injection Hd as <-. rewrite H2 in Hd'. injection Hd' as <-.
    rewrite Hx1 in Hx. injection Hx as <-. rewrite Hx2 in Hx'. injection Hx' as <-.
    rewrite <- (proj2 (Ho f)), <- (proj2 (Ho' f)); [reflexivity| |].
    - intros v Hin. apply (Hkf v). apply in_or_app. auto.
    - intros v Hin. apply in_app_or in Hin. destruct Hin as [Hin|[Hin|Hin]]; [|discriminate|]; apply (Hkf v); apply in_or_app; auto.
  Qed.
End Own.
