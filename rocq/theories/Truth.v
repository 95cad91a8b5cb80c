(** * Truth.v: memory agrees with the trace *)
From Verif Require Import Sched MemInv StateSpec.

Lemma replay_snoc {A : Type} (f : A -> obs -> A) v0 tr t o :
  replay f v0 (tr ++ [(t, o)]) = f (replay f v0 tr) o.
Proof. unfold replay. rewrite fold_left_app. reflexivity. Qed.
Lemma replay_app {A : Type} (f : A -> obs -> A) v0 a b :
  replay f v0 (a ++ b) = replay f (replay f v0 a) b.
Proof. unfold replay. apply fold_left_app. Qed.

Section Truth.
  Context (E : env) (w0 : mem).

  Definition rd_true (tr1 : trace) (r : rd) : Prop :=
    match r with
    | RdStarted m b => b = started_of m (m_started (machs w0 m)) tr1
    | RdEnded m b => b = ended_of m (m_ended (machs w0 m)) tr1
    | RdCur m s => s = cur_of m (m_cur (machs w0 m)) tr1
    | RdListener m l => l = listener_of m (m_listener (machs w0 m)) tr1
    | RdActs en s l => l = acts_of en s (acts w0 en s) tr1
    | RdPay e p => p = pay_of e (pays w0 e) tr1
    | RdSubs p l => l = subsystems_of p (subs w0 p) tr1
    | RdMulti k v => fst v = multi_of k (multis w0 k) tr1
    | RdMNext k c vs v =>
        let M := multi_of k (multis w0 k) tr1 in
        match v with
        | None => owed c vs M = []
        | Some il => exists y, In y (unvisited c vs M) /\ il = entry_of y
        end
    | RdMRest k c vs ls => ls = map entry_of (filter (fun y => snd (snd y)) (unvisited c vs (multi_of k (multis w0 k) tr1)))
    | _ => True
    end.
  Definition wr_true (tr1 : trace) (o : obs) : Prop :=
    match o with
    | OStarted m => started_of m (m_started (machs w0 m)) tr1 = false
    | OEnded m => ended_of m (m_ended (machs w0 m)) tr1 = false
    | OWr (WrMulti true k l b) => b = negb (has_leaf l (multi_of k (multis w0 k) tr1))
    | OWr (WrMulti false k l b) => b = has_leaf l (multi_of k (multis w0 k) tr1)
    | OWr (WrAwait p false) => latch_of p (latches w0 p) tr1 = true
    | OSubmit x _ => shut_of x (shut w0 x) tr1 = false
    | OWr (WrReject x _) => shut_of x (shut w0 x) tr1 = true
    | _ => True
    end.
  (** every access recorded in [tr] is consistent with the part before it *)
  Definition trace_true (tr : trace) : Prop :=
    forall tr1 t o tr2, tr = tr1 ++ (t, o) :: tr2 ->
      wr_true tr1 o /\ match o with ORd r => rd_true tr1 r | _ => True end.

  Record agrees (w : mem) : Prop := {
    ag_started : forall m, m_started (machs w m) = started_of m (m_started (machs w0 m)) (tr w);
    ag_ended : forall m, m_ended (machs w m) = ended_of m (m_ended (machs w0 m)) (tr w);
    ag_cur : forall m, m_cur (machs w m) = cur_of m (m_cur (machs w0 m)) (tr w);
    ag_listener : forall m, m_listener (machs w m) = listener_of m (m_listener (machs w0 m)) (tr w);
    ag_acts : forall en s, acts w en s = acts_of en s (acts w0 en s) (tr w);
    ag_pays : forall e, pays w e = pay_of e (pays w0 e) (tr w);
    ag_multis : forall k, multis w k = multi_of k (multis w0 k) (tr w);
    ag_latches : forall p, latches w p = latch_of p (latches w0 p) (tr w);
    ag_subs : forall p, subs w p = subsystems_of p (subs w0 p) (tr w);
    ag_shut : forall x, shut w x = shut_of x (shut w0 x) (tr w) }.

  Lemma snoc_split {A} (l l1 l2 : list A) x y : l ++ [x] = l1 ++ y :: l2 ->
    (l2 = [] /\ l = l1 /\ x = y) \/ (exists l3, l2 = l3 ++ [x] /\ l = l1 ++ y :: l3).
  Proof.
    intro H. destruct (rev l2) as [|z r] eqn:Er.
    - left. apply (f_equal (@rev A)) in Er. rewrite rev_involutive in Er. simpl in Er. subst l2.
      apply app_inj_tail in H. destruct H. auto.
    - right. apply (f_equal (@rev A)) in Er. rewrite rev_involutive in Er. simpl in Er. subst l2.
      exists (rev r). rewrite app_comm_cons, app_assoc in H. apply app_inj_tail in H.
      destruct H as [-> ->]. auto.
  Qed.
  Lemma trace_true_snoc tr t o :
    trace_true tr -> wr_true tr o -> match o with ORd r => rd_true tr r | _ => True end ->
    trace_true (tr ++ [(t, o)]).
  Proof.
    intros H Hw Hr tr1 t' o' tr2 Heq. apply snoc_split in Heq.
    destruct Heq as [(-> & -> & Heq)|(l3 & -> & Heq)].
    - injection Heq as <- <-. auto.
    - eapply H; eauto.
  Qed.

  Ltac nat_cases := repeat match goal with
    | |- context [Nat.eqb ?a ?b] => destruct (Nat.eqb_spec a b); subst
    end.

  Lemma next_true c vs M n :
    match option_map entry_of (match nth_error (unvisited c vs M) n with Some y => Some y | None => hd_error (owed c vs M) end) with
    | None => owed c vs M = []
    | Some il => exists y, In y (unvisited c vs M) /\ il = entry_of y
    end.
  Proof.
    destruct (nth_error (unvisited c vs M) n) as [y|] eqn:En; simpl.
    - exists y. split; [eapply nth_error_In; exact En|reflexivity].
    - destruct (owed c vs M) as [|y r] eqn:Eo; simpl; [reflexivity|]. exists y. split; [|reflexivity].
      assert (Hi : In y (owed c vs M)) by (rewrite Eo; left; reflexivity). apply filter_In in Hi. apply Hi.
  Qed.
  Lemma truth_exec w t i v w' : plain i -> agrees w /\ trace_true (tr w) ->
    exec E w t i = Some (v, w') -> agrees w' /\ trace_true (tr w').
  Proof.
    intros Hp [Ha Ht] Hx.
    destruct i; simpl in Hx;
      repeat match type of Hx with
             | (if ?b then _ else _) = _ => destruct b eqn:?
             | match ?b with _ => _ end = _ => destruct b eqn:?
             end; try discriminate; injection Hx as <- <-;
      try (match goal with |- context [match pairs w ?p with _ => _ end] => destruct (pairs w p) as [[? ?]|] end);
      try (match goal with b : bool |- context [if ?b then OEnded _ else _] => destruct b end);
      try (split; assumption);
      try match goal with o : obs |- _ => destruct o; try contradiction end;
      (split;
       [ destruct Ha as [a1 a2 a3 a4 a5 a6 a7 a8 a10 a9]; split; intros; simpl;
         unfold started_of, ended_of, cur_of, listener_of, acts_of, pay_of, multi_of, latch_of, subsystems_of, shut_of in *;
         rewrite ?replay_snoc; unfold upd;
         try (rewrite <- ?a1, <- ?a2, <- ?a3, <- ?a4, <- ?a5, <- ?a6, <- ?a7, <- ?a8, <- ?a10, <- ?a9; simpl);
         repeat match goal with
           | |- context [Nat.eqb ?a ?b] => destruct (Nat.eqb_spec a b); subst; simpl
         end;
         try congruence; auto
       | simpl; try assumption; try (apply trace_true_snoc; simpl; auto);
         try (destruct Ha as [a1 a2 a3 a4 a5 a6 a7 a8 a10 a9];
              rewrite <- ?a1, <- ?a2, <- ?a3, <- ?a4, <- ?a5, <- ?a6, <- ?a7, <- ?a8, <- ?a10, <- ?a9; simpl;
              first [ apply next_true
                    | repeat match goal with H : ?x = _ |- context [?x] => rewrite H end; auto; congruence ]) ]).
  Qed.

  Theorem truth w : tr w0 = [] -> reach E w0 w -> agrees (wm w) /\ trace_true (tr (wm w)).
  Proof.
    intros Htr. apply (mem_inv E (fun w => agrees w /\ trace_true (tr w))).
    - intros. eapply truth_exec; eauto.
    - intros w1 x tk r _ [[] Ht]. split; [split; auto|exact Ht].
    - intros w1 t tk e [Ha Ht]. split.
      + destruct Ha as [a1 a2 a3 a4 a5 a6 a7 a8 a10 a9]; split; intros; simpl;
          unfold started_of, ended_of, cur_of, listener_of, acts_of, pay_of, multi_of, latch_of, subsystems_of, shut_of in *;
          rewrite ?replay_snoc; auto.
      + simpl. apply trace_true_snoc; simpl; auto.
    - split; [split; intros; rewrite Htr; reflexivity|].
      rewrite Htr. intros tr1 t o tr2 H. destruct tr1; discriminate.
  Qed.
End Truth.
