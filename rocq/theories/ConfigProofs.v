(** * ConfigProofs.v: Config.v refines ConfigSpec.v *)
From Verif Require Import Config ConfigSpec.

Arguments String.eqb : simpl never.

Lemma ostr_eqb_spec a b : reflect (a = b) (ostr_eqb a b).
Proof.
  destruct a as [a|], b as [b|]; simpl; try (constructor; congruence).
  destruct (String.eqb_spec a b); constructor; congruence.
Qed.
Lemma oname_eqb_eq a b : oname_eqb a b = ostr_eqb a b.
Proof. destruct a, b; reflexivity. Qed.

Section A.
  Context {K V : Set} (eqb : K -> K -> bool) (eqb_spec : forall a b, reflect (a = b) (eqb a b)).
  Lemma aget_aput (k k' : K) (v : V) l :
    aget eqb k (aput eqb k' v l) = if eqb k k' then Some v else aget eqb k l.
  Proof.
    induction l as [|[k0 v0] l IH]; simpl.
    - destruct (eqb_spec k k'); reflexivity.
    - destruct (eqb_spec k' k0) as [->|N]; simpl.
      + destruct (eqb_spec k k0); reflexivity.
      + rewrite IH. destruct (eqb_spec k k0), (eqb_spec k k'); congruence.
  Qed.
  Lemma aget_nil_all l : (forall k, aget eqb k l = None) <-> l = ([] : list (K*V)).
  Proof.
    split; [|intros ->; reflexivity]. destruct l as [|[k v] l]; [reflexivity|].
    intro H. specialize (H k). simpl in H. destruct (eqb_spec k k); congruence.
  Qed.
  Lemma aput_ne k v l : aput eqb k v l <> ([] : list (K*V)).
  Proof. destruct l as [|[]]; simpl; [congruence|]. destruct (eqb k k0); congruence. Qed.
End A.

Section P.
  Context (sn : sid -> string) (en : eid -> string) (m : mid).

  Definition entry_of (c : cfg) (n : string) (e : option string) : option (option sid) :=
    match aget String.eqb n (c_map c) with
    | Some r => aget ostr_eqb e r
    | None => None
    end.

  (** abstraction relation, with the invariants of reachable configurations *)
  Record R (c : cfg) (s : sstate) : Prop := {
    R_init : c_init c = initial s;
    R_clause : c_mstate c = clause s;
    R_event : c_mevent c = event s;
    R_table : forall n e, entry_of c n e = table s n e;
    R_known : forall n, (match aget String.eqb n (c_map c) with Some _ => true | None => false end) = known s n;
    R_noinit : initial s = None -> clause s = None /\ c_map c = [];
    R_open : forall x, clause s = Some x -> known s (sn x) = true;
    R_noev : clause s = None -> event s = None }.

  Lemma R0 : R cfg0 nothing_yet.
  Proof. constructor; simpl; intros; try reflexivity; try discriminate; auto. Qed.

  Lemma reserved_dec (n : string) :
    existsb (fun r => String.eqb r n) reserved_names = true <-> reserved_state n.
  Proof.
    unfold reserved_state, reserved_names, nm_end, nm_uninit, nm_noop. cbn [existsb].
    rewrite !orb_true_iff, !String.eqb_eq. intuition (try discriminate; auto).
  Qed.

  Lemma set_entry_same s n e v n' e' :
    set_entry s n e v n' e' = if andb (String.eqb n' n) (ostr_eqb e' e) then Some v else table s n' e'.
  Proof. unfold set_entry. rewrite oname_eqb_eq. reflexivity. Qed.

  Lemma entry_put c n e v r n' e' :
    aget String.eqb n (c_map c) = Some r ->
    entry_of (set_map (aput String.eqb n (aput ostr_eqb e v r) (c_map c)) c) n' e'
    = if andb (String.eqb n' n) (ostr_eqb e' e) then Some v else entry_of c n' e'.
  Proof.
    intros Hr. unfold entry_of, set_map; simpl.
    rewrite (aget_aput String.eqb String.eqb_spec).
    destruct (String.eqb_spec n' n) as [->|N]; simpl; [|reflexivity].
    rewrite (aget_aput ostr_eqb ostr_eqb_spec), Hr.
    destruct (ostr_eqb e' e); reflexivity.
  Qed.

  Lemma known_put c s n v n' :
    R c s -> known s n = true ->
    (match aget String.eqb n' (aput String.eqb n v (c_map c)) with Some _ => true | None => false end) = known s n'.
  Proof.
    intros H Hk. rewrite (aget_aput String.eqb String.eqb_spec), <- (R_known _ _ H).
    destruct (String.eqb_spec n' n) as [->|]; [|reflexivity].
    rewrite (R_known _ _ H). auto.
  Qed.

  Definition ok {A : Set} (x : cfg * res A) : Prop := exists u, snd x = Ok u.

  Lemma step_refines c s o :
    R c s ->
    (allowed sn en o s -> exists c', cfg_step sn en m o c = (c', Ok tt) /\ R c' (effect sn en m o s)) /\
    (~ allowed sn en o s -> exists x, cfg_step sn en m o c = (c, Err x)).
  Proof.
    intros H. pose proof H as [Hi Hc He Ht Hk Hn Ho Hv].
    pose proof (reserved_dec) as RD.
    assert (marked : forall x, clause s = Some x -> exists r, aget String.eqb (sn x) (c_map c) = Some r /\
                (forall e, table s (sn x) e = aget ostr_eqb e r)).
    { intros x Hx. specialize (Ho _ Hx). specialize (Hk (sn x)).
      destruct (aget String.eqb (sn x) (c_map c)) as [r|] eqn:Hr; [|congruence].
      exists r; split; [reflexivity|]. intro e. rewrite <- Ht. unfold entry_of. rewrite Hr. reflexivity. }
    destruct o as [x|x|e| |t|].
    - (* CInit *)
      simpl allowed. unfold cfg_step, cfg_init, cfg_when, assertNotReservedState, assertInitStateDefined, assertMarkedStateDefined, cbind, cret, cthrow, cmod, cget.
      specialize (RD (sn x)).
      destruct (existsb _ _) eqn:ER.
      { split; [intros [A _]; exfalso; apply A, RD; reflexivity|intros _; eexists; reflexivity]. }
      cbv beta iota. rewrite Hi. destruct (initial s) eqn:Ei.
      { split; [intros [_ A]; discriminate|intros _; eexists; reflexivity]. }
      assert (~ reserved_state (sn x)) as NR by (rewrite <- RD; congruence).
      split; [|intros A; exfalso; apply A; auto]. intros _.
      destruct (Hn eq_refl) as [Hc0 Hm0].
      simpl. rewrite Hc, Hc0, Hm0. simpl.
      eexists; split; [reflexivity|].
      unfold reserved_state in NR.
      assert (N1 : String.eqb nm_end (sn x) = false) by (apply String.eqb_neq; unfold nm_end; intuition congruence).
      assert (N2 : String.eqb nm_uninit (sn x) = false) by (apply String.eqb_neq; unfold nm_uninit; intuition congruence).
      assert (N3 : String.eqb nm_noop (sn x) = false) by (apply String.eqb_neq; unfold nm_noop; intuition congruence).
      constructor; simpl; try reflexivity; try congruence; try discriminate.
      + intros n e. unfold entry_of; simpl. rewrite N1; simpl. rewrite N2; simpl. rewrite N3; simpl.
        unfold put_if_absent; simpl. rewrite String.eqb_refl. simpl.
        destruct (String.eqb n (sn x)); [reflexivity|].
        destruct (String.eqb n _); [reflexivity|].
        destruct (String.eqb n _); [reflexivity|].
        destruct (String.eqb n _); reflexivity.
      + intros n. rewrite N1; simpl. rewrite N2; simpl. rewrite N3; simpl.
        unfold put_if_absent; simpl. rewrite String.eqb_refl. simpl.
        destruct (String.eqb n (sn x)); [reflexivity|].
        destruct (String.eqb n _); [reflexivity|].
        destruct (String.eqb n _); [reflexivity|].
        destruct (String.eqb n _); reflexivity.
      + intros y Hy. injection Hy as <-. rewrite String.eqb_refl. reflexivity.
    - (* CWhen *)
      simpl allowed. unfold cfg_step, cfg_when, assertNotReservedState, assertInitStateDefined, assertMarkedStateDefined, cbind, cret, cthrow, cmod, cget.
      specialize (RD (sn x)).
      destruct (existsb _ _) eqn:ER.
      { split; [intros [A _]; exfalso; apply A, RD; reflexivity|intros _; eexists; reflexivity]. }
      cbv beta iota. rewrite Hi. destruct (initial s) eqn:Ei.
      2:{ split; [intros (_ & A & _); congruence|intros _; eexists; reflexivity]. }
      cbv beta iota. rewrite Hc. destruct (clause s) eqn:Ec.
      { split; [intros (_ & _ & A); discriminate|intros _; eexists; reflexivity]. }
      assert (~ reserved_state (sn x)) as NR by (rewrite <- RD; congruence).
      split; [|intros A; exfalso; apply A; repeat split; congruence]. intros _.
      eexists; split; [reflexivity|].
      constructor; simpl; try reflexivity; try congruence; try discriminate.
      + intros n e. rewrite <- Ht. unfold entry_of, put_if_absent; simpl.
        destruct (aget String.eqb (sn x) (c_map c)) eqn:Hx; [reflexivity|].
        rewrite (aget_aput String.eqb String.eqb_spec).
        destruct (String.eqb_spec n (sn x)) as [->|]; [rewrite Hx|]; reflexivity.
      + intros n. rewrite <- Hk. unfold put_if_absent; simpl.
        destruct (aget String.eqb (sn x) (c_map c)) eqn:Hx.
        * destruct (String.eqb_spec n (sn x)) as [->|]; [rewrite Hx|]; reflexivity.
        * rewrite (aget_aput String.eqb String.eqb_spec).
          destruct (String.eqb_spec n (sn x)) as [->|]; reflexivity.
      + intros y Hy. injection Hy as <-. rewrite String.eqb_refl. reflexivity.
    - (* CReceives *)
      simpl allowed. unfold cfg_step, cfg_receives, assertNotReservedStateEvent, assertInitStateDefined, assertMarkedStateDefined, reserved_event, cbind, cret, cthrow, cmod, cget.
      destruct (String.eqb_spec nm_imm (en e)) as [ER|ER].
      { split; [intros [A _]; exfalso; apply A; symmetry; exact ER|intros _; eexists; reflexivity]. }
      cbv beta iota. rewrite Hi. destruct (initial s) eqn:Ei.
      2:{ split; [intros (_ & A & _); congruence|intros _; eexists; reflexivity]. }
      cbv beta iota. rewrite Hc. destruct (clause s) as [x|] eqn:Ec.
      2:{ split; [intros (_ & _ & A); congruence|intros _; eexists; reflexivity]. }
      split; [|intros A; exfalso; apply A; repeat split; try congruence; intro Z; apply ER; symmetry; exact Z].
      intros _. destruct (marked x eq_refl) as (r & Hr & _).
      unfold put_marked, marked_row, cbind, cret, cthrow, cmod, cget. simpl. rewrite Hc, Hr. simpl.
      eexists; split; [reflexivity|].
      constructor; simpl; rewrite ?Ec, ?Ei, ?Ee; try reflexivity; try congruence; try discriminate.
      + intros n e'. rewrite set_entry_same, <- Ht.
        pose proof (entry_put c (sn x) (Some (en e)) None r n e' Hr) as EP. unfold entry_of in *. simpl in *. exact EP.
      + intros n. apply (known_put _ _ _ _ _ H). apply Ho; reflexivity.
      + intros y Hy. injection Hy as <-. apply Ho; reflexivity.
    - (* CEnds *)
      simpl allowed. unfold cfg_step, cfg_ends, assertInitStateDefined, assertMarkedStateDefined, cbind, cret, cthrow, cmod, cget.
      cbv beta iota. rewrite Hi. destruct (initial s) eqn:Ei.
      2:{ split; [intros (A & _); congruence|intros _; eexists; reflexivity]. }
      cbv beta iota. rewrite Hc. destruct (clause s) as [x|] eqn:Ec.
      2:{ split; [intros (_ & y & A & _); congruence|intros _; eexists; reflexivity]. }
      destruct (marked x eq_refl) as (r & Hr & Hrt).
      rewrite He. destruct (event s) as [ev|] eqn:Ee.
      + unfold assertEventNotMapped, put_marked, marked_row, cbind, cret, cthrow, cmod, cget.
        rewrite Hc, Hr, He.
        destruct (aget ostr_eqb (Some ev) r) as [[t|]|] eqn:Hg.
        * split.
          { intros (_ & y & Hy & _ & A). injection Hy as <-. exfalso. apply (A ltac:(congruence) t). rewrite Hrt. exact Hg. }
          { intros _. eexists. reflexivity. }
        * split.
          2:{ intro A. exfalso. apply A. split; [congruence|]. exists x. repeat split; [congruence|].
              intros _ t. rewrite Hrt, Hg. congruence. }
          intros _. rewrite Hc, Hr, ?He. simpl. eexists; split; [reflexivity|].
          constructor; simpl; rewrite ?Ec, ?Ei, ?Ee; try reflexivity; try congruence; try discriminate.
          -- intros n e'. rewrite set_entry_same, <- Ht.
             pose proof (entry_put c (sn x) (Some ev) (Some (SEnd m)) r n e' Hr) as EP. unfold entry_of in *. simpl in *. exact EP.
          -- intros n. apply (known_put _ _ _ _ _ H). apply Ho; reflexivity.
        * split.
          2:{ intro A. exfalso. apply A. split; [congruence|]. exists x. repeat split; [congruence|].
              intros _ t. rewrite Hrt, Hg. congruence. }
          intros _. rewrite Hc, Hr, ?He. simpl. eexists; split; [reflexivity|].
          constructor; simpl; rewrite ?Ec, ?Ei, ?Ee; try reflexivity; try congruence; try discriminate.
          -- intros n e'. rewrite set_entry_same, <- Ht.
             pose proof (entry_put c (sn x) (Some ev) (Some (SEnd m)) r n e' Hr) as EP. unfold entry_of in *. simpl in *. exact EP.
          -- intros n. apply (known_put _ _ _ _ _ H). apply Ho; reflexivity.
      + unfold assertNoMappingsExistAtEnd, put_marked, marked_row, cbind, cret, cthrow, cmod, cget.
        rewrite Hc, Hr.
        assert (NE : no_entries s (sn x) <-> r = []).
        { etransitivity; [|exact (aget_nil_all ostr_eqb ostr_eqb_spec r)]. unfold no_entries. split; intros A k; specialize (A k); rewrite Hrt in *; exact A. }
        destruct r as [|p r].
        2:{ split.
            - intros (_ & y & Hy & A & _). injection Hy as <-. specialize (A eq_refl). apply NE in A. discriminate.
            - intros _. eexists. reflexivity. }
        split.
        2:{ intro A. exfalso. apply A. split; [congruence|]. exists x. repeat split; [|congruence].
            intros _. apply NE. reflexivity. }
        intros _. rewrite Hc, Hr, ?He. simpl. eexists; split; [reflexivity|].
        constructor; simpl; rewrite ?Ec, ?Ei, ?Ee; try reflexivity; try congruence; try discriminate.
        * intros n e'. rewrite set_entry_same, <- Ht.
          pose proof (entry_put c (sn x) (Some nm_imm) (Some (SEnd m)) [] n e' Hr) as EP. unfold entry_of in *. simpl in *. exact EP.
        * intros n. apply (known_put _ _ _ _ _ H). apply Ho; reflexivity.
    - (* CTo *)
      simpl allowed. unfold cfg_step, cfg_to, assertNotReservedState, assertInitStateDefined, assertMarkedStateDefined, cbind, cret, cthrow, cmod, cget.
      specialize (RD (sn t)).
      destruct (existsb _ _) eqn:ER.
      { split; [intros [A _]; exfalso; apply A, RD; reflexivity|intros _; eexists; reflexivity]. }
      cbv beta iota. rewrite Hi. destruct (initial s) eqn:Ei.
      2:{ split; [intros (_ & A & _); congruence|intros _; eexists; reflexivity]. }
      cbv beta iota. rewrite Hc. destruct (clause s) as [x|] eqn:Ec.
      2:{ split; [intros (_ & _ & y & A & _); congruence|intros _; eexists; reflexivity]. }
      assert (~ reserved_state (sn t)) as NR by (rewrite <- RD; congruence).
      destruct (marked x eq_refl) as (r & Hr & Hrt).
      unfold assertEventNotMapped, put_marked, marked_row, cbind, cret, cthrow, cmod, cget.
      rewrite Hc, Hr, He.
      destruct (aget ostr_eqb (event s) r) as [[t'|]|] eqn:Hg.
      + split.
        { intros (_ & _ & y & Hy & A). injection Hy as <-. exfalso. apply (A t'). rewrite Hrt. exact Hg. }
        { intros _. destruct (event s); eexists; reflexivity. }
      + split.
        2:{ intro A. exfalso. apply A. split; [exact NR|]. split; [congruence|]. exists x. split; [congruence|].
            intros z. rewrite Hrt, Hg. congruence. }
        intros _. rewrite Hc, Hr, ?He. simpl. eexists; split; [reflexivity|].
        constructor; simpl; rewrite ?Ec, ?Ei, ?Ee; try reflexivity; try congruence; try discriminate.
        * intros n e'. rewrite set_entry_same, <- Ht.
          pose proof (entry_put c (sn x) (event s) (Some t) r n e' Hr) as EP. unfold entry_of in *. simpl in *. exact EP.
        * intros n. apply (known_put _ _ _ _ _ H). apply Ho; reflexivity.
      + split.
        2:{ intro A. exfalso. apply A. split; [exact NR|]. split; [congruence|]. exists x. split; [congruence|].
            intros z. rewrite Hrt, Hg. congruence. }
        intros _. rewrite Hc, Hr, ?He. simpl. eexists; split; [reflexivity|].
        constructor; simpl; rewrite ?Ec, ?Ei, ?Ee; try reflexivity; try congruence; try discriminate.
        * intros n e'. rewrite set_entry_same, <- Ht.
          pose proof (entry_put c (sn x) (event s) (Some t) r n e' Hr) as EP. unfold entry_of in *. simpl in *. exact EP.
        * intros n. apply (known_put _ _ _ _ _ H). apply Ho; reflexivity.
    - (* CNoTrans *)
      simpl allowed. unfold cfg_step, cfg_notrans, assertInitStateDefined, assertMarkedStateDefined, cbind, cret, cthrow, cmod, cget.
      cbv beta iota. rewrite Hi. destruct (initial s) eqn:Ei.
      2:{ split; [intros (A & _); congruence|intros _; eexists; reflexivity]. }
      cbv beta iota. rewrite Hc. destruct (clause s) as [x|] eqn:Ec.
      2:{ split; [intros (_ & y & A & _); congruence|intros _; eexists; reflexivity]. }
      destruct (marked x eq_refl) as (r & Hr & Hrt).
      unfold assertEventNotMapped, put_marked, marked_row, cbind, cret, cthrow, cmod, cget.
      rewrite Hc, Hr, He.
      destruct (aget ostr_eqb (event s) r) as [[t'|]|] eqn:Hg.
      + split.
        { intros (_ & y & Hy & A). injection Hy as <-. exfalso. apply (A t'). rewrite Hrt. exact Hg. }
        { intros _. destruct (event s); eexists; reflexivity. }
      + split.
        2:{ intro A. exfalso. apply A. split; [congruence|]. exists x. split; [congruence|].
            intros z. rewrite Hrt, Hg. congruence. }
        intros _. rewrite Hc, Hr, ?He. simpl. eexists; split; [reflexivity|].
        constructor; simpl; rewrite ?Ec, ?Ei, ?Ee; try reflexivity; try congruence; try discriminate.
        * intros n e'. rewrite set_entry_same, <- Ht.
          pose proof (entry_put c (sn x) (event s) (Some (SNoop m)) r n e' Hr) as EP. unfold entry_of in *. simpl in *. exact EP.
        * intros n. apply (known_put _ _ _ _ _ H). apply Ho; reflexivity.
      + split.
        2:{ intro A. exfalso. apply A. split; [congruence|]. exists x. split; [congruence|].
            intros z. rewrite Hrt, Hg. congruence. }
        intros _. rewrite Hc, Hr, ?He. simpl. eexists; split; [reflexivity|].
        constructor; simpl; rewrite ?Ec, ?Ei, ?Ee; try reflexivity; try congruence; try discriminate.
        * intros n e'. rewrite set_entry_same, <- Ht.
          pose proof (entry_put c (sn x) (event s) (Some (SNoop m)) r n e' Hr) as EP. unfold entry_of in *. simpl in *. exact EP.
        * intros n. apply (known_put _ _ _ _ _ H). apply Ho; reflexivity.
  Qed.
End P.
