(** * MemInv.v: invariants of the shared memory alone *)
From Verif Require Import Sched Logic Neutral.

(** Marks that programs place explicitly; all others come from [exec]. *)
Definition public (o : obs) : Prop :=
  match o with
  | OInv _ | ORet _ _ | OCall _ | OBack _ _ | OLog _ | ODone _ _ _ => True
  | _ => False
  end.
Definition plain (i : instr) : Prop := match i with IMark o => public o | _ => True end.

Section MemInv.
  Context (E : env).
  Let pre (t : tid) (g : unit) (i : instr) : Prop := plain i.
  Let post (t : tid) (g : unit) (i : instr) (v : iret i) (g' : unit) : Prop := True.
  Notation JJ := (@J unit pre post (fun _ _ => True) (fun _ _ _ => True)).
  Let rr : forall (t : tid) (g : unit), True := fun _ _ => I.
  Let rt : forall (t : tid) (a b c : unit), True -> True -> True := fun _ _ _ _ _ _ => I.

  Lemma J_plain i : plain i -> JJ (op i).
  Proof. intros H t g _. simpl. auto. Qed.
  Lemma J_boring' i : boring i = true -> JJ (op i).
  Proof. intro H. apply J_plain. destruct i; try exact I. destruct o; try discriminate; exact I. Qed.
  Ltac jp := intros; apply J_plain; exact I.
  Lemma J_default' k e m : JJ (default_process E k e m).
  Proof.
    unfold default_process, queue_size, pool_take.
    repeat first [ apply J_bind; try exact rr; try exact rt; [|intros ?]
                 | solve [jp] | apply J_skip; exact rr | apply J_throw; exact rr | apply J_ret; exact rr
                 | apply J_call_ufl; auto using J_boring'; exact rt
                 | match goal with |- J _ _ _ _ (if ?b then _ else _) => destruct b
                                 | |- J _ _ _ _ (match ?b with _ => _ end) => destruct b end ].
  Qed.
  Lemma J_process' k e m : JJ (process_event E k e m).
  Proof. apply J_process_event; auto using J_boring', J_default'; try jp. Qed.
  Lemma J_upd' m s : JJ (update_current E m s).
  Proof. apply J_update_current; auto; jp. Qed.
  Lemma J_interp' u : JJ (interp E u).
  Proof.
    apply (J_interp E pre post (fun _ _ => True) (fun _ _ _ => True) rr rt J_boring' (fun _ => True)).
    - intros a _. apply Jret_J; auto; [|jp].
      apply J_api; auto using J_boring', J_process', J_upd'.
      + intros. apply J_start; auto using J_boring', J_process'; jp.
      + intros. apply J_start_in; auto using J_boring'; jp.
      + intros i H. apply J_plain. destruct a; try discriminate; injection H as <-; exact I.
    - induction u; simpl; auto.
  Qed.
  Lemma J_drain' tk : JJ (drain_iter E tk).
  Proof.
    unfold drain_iter. apply J_bind; auto; [jp|]. intros [|]; [apply J_ret; exact rr|].
    apply J_bind; auto; [jp|]. intros [p|]; [|apply J_throw; exact rr].
    apply J_bind; auto; [|intro; apply J_ret; exact rr].
    apply J_then_res; auto; [|intro r; apply J_bind; auto; [jp|intro; apply J_of_res; exact rr]].
    apply J_bind; auto; [jp|]. intros [[e m]|]; [|apply J_throw; exact rr].
    apply J_try_finally; auto; [|jp].
    apply J_try_catch; auto; [|intro; apply J_call_ufl; auto using J_boring'].
    apply J_bind; auto; [jp|]. intros [|]; [apply J_skip; exact rr|].
    apply J_execute; auto using J_boring', J_process', J_upd'.
  Qed.

  Theorem mem_inv (P : mem -> Prop) w0 w :
    (forall w t i v w', plain i -> P w -> exec E w t i = Some (v, w') -> P w') ->
    (forall w x tk r, tasks w x = tk :: r -> P w -> P (set_tasks (upd (tasks w) x r) w)) ->
    (forall w t tk e, P w -> P (log t (OUncaught tk e) w)) ->
    P w0 -> reach E w0 w -> P (wm w).
  Proof.
    intros Hexec Htake Hdie H0 [sched ->].
    destruct (sound E pre post (fun w _ => P w) (fun _ _ _ => True) (fun _ _ _ _ => True) (fun _ _ => True)) with
      (w := init_world E w0) (gs := fun _ : tid => tt) (sched := sched) as [gs Hok].
    - intros w gs t i v w1 Hi Hp Hx. exists tt. split; [exact I|]. exact (Hexec _ _ _ _ _ Hp Hi Hx).
    - intros t g c h _. eapply wp_mono; [|apply (J_interp' _ t g I)]. intros; exact I.
    - intros w gs x i tk r Hi _ _ Et. exists tt. split; [eauto|].
      eapply wp_mono; [|apply (J_drain' tk _ tt I)]. auto.
    - intros w gs x i tk Hi _ _. exists tt. split; [auto|].
      eapply wp_mono; [|apply (J_drain' tk _ tt I)]. auto.
    - intros. exists tt. auto.
    - intros. exists tt. auto.
    - split; [exact H0|]. split; simpl; auto.
      intro n. destruct (Nat.ltb n (n_clients E)); [|exact I].
      eapply wp_mono; [|apply (J_interp' _ (TClient n) tt I)]. auto.
    - apply Hok.
  Qed.

  (** every step is an instruction, or taking a task, or a task dying, or has
      no effect on memory *)
  Definition mem_step (m : mem) (t : tid) (m' : mem) : Prop :=
    m' = m \/
    (exists i v, plain i /\ exec E m t i = Some (v, m')) \/
    (exists x tk r, tasks m x = tk :: r /\ m' = set_tasks (upd (tasks m) x r) m) \/
    (exists tk e, m' = log t (OUncaught tk e) m).
  Definition live (t : tid) : Prop :=
    match t with TClient n => n < n_clients E | TWorker x i => i < n_workers E x end.

  Theorem step_mem w0 w t w' : reach E w0 w -> step E w t = Some w' -> live t /\ mem_step (wm w) t (wm w').
  Proof.
    intros [sched ->].
    destruct (sound E pre post (fun _ _ => True) (fun _ _ _ => True) (fun _ _ _ _ => True) (fun _ _ => True)) with
      (w := init_world E w0) (gs := fun _ : tid => tt) (sched := sched) as [gs [_ [Hc Hw]]].
    - intros. exists tt. split; exact I.
    - intros t' g c h _. eapply wp_mono; [|apply (J_interp' _ t' g I)]. intros; exact I.
    - intros. exists tt. split; [exact I|].
      eapply wp_mono; [|apply (J_drain' tk _ tt I)]. auto.
    - intros. exists tt. split; [auto|].
      eapply wp_mono; [|apply (J_drain' tk _ tt I)]. auto.
    - intros. exists tt. auto.
    - intros. exists tt. auto.
    - split; [exact I|]. split; simpl; auto.
      intro n. destruct (Nat.ltb n (n_clients E)); [|exact I].
      eapply wp_mono; [|apply (J_interp' _ (TClient n) tt I)]. auto.
    - assert (Hnc : forall l w, (forall n, n_clients E <= n -> wc w n = Ret tt) ->
                 forall n, n_clients E <= n -> wc (run E w l) n = Ret tt).
      { induction l as [|u l IH]; intros w1 H1; simpl; [exact H1|]. apply IH. unfold step_or_stay.
        destruct (step E w1 u) as [w2|] eqn:Hs; [|exact H1]. intros n Hn.
        destruct u as [n'|x i]; simpl in Hs.
        - destruct (pstep E (wm w1) (TClient n') (wc w1 n')) as [[m' p']|] eqn:Hp; [|discriminate].
          injection Hs as <-. simpl. unfold upd. destruct (Nat.eqb_spec n n') as [->|]; [|auto].
          rewrite H1 in Hp by exact Hn. discriminate.
        - destruct (negb (Nat.ltb i (n_workers E x))); [discriminate|].
          destruct (ww w1 x i) as [|tk [[]|e|j k]]; [destruct (tasks (wm w1) x); [discriminate|]| | | |destruct (pstep E (wm w1) (TWorker x i) (Vis j k)) as [[? ?]|]; [|discriminate]];
            injection Hs as <-; simpl; auto. }
      assert (Hps : forall (A : Set) (p : prog A) Q g m m' p', wp pre post t p Q g ->
                pstep E m t p = Some (m', p') -> mem_step m t m').
      { intros A p Q g m m' p' Hp Hs. destruct p as [a|x|i k]; try discriminate. destruct Hp as [Hp _].
        destruct (pstep_inv E _ _ _ _ _ _ Hs) as [(c & e & -> & _)|(v & Hx & _)]; [left; reflexivity|].
        right. left. eauto. }
      set (w := run E (init_world E w0) sched) in *. intro Hs.
      destruct t as [n|x i]; simpl in Hs.
      + split.
        * simpl. destruct (Nat.lt_ge_cases n (n_clients E)) as [Hl|Hg]; [exact Hl|]. exfalso.
          unfold w in Hs. rewrite Hnc in Hs; [discriminate| |exact Hg].
          intros n' Hn'. simpl. destruct (Nat.ltb_spec n' (n_clients E)); [lia|reflexivity].
        * destruct (pstep E (wm w) (TClient n) (wc w n)) as [[m' p']|] eqn:Hp; [|discriminate].
          injection Hs as <-. eapply Hps; [apply Hc|exact Hp].
      + destruct (Nat.ltb_spec i (n_workers E x)) as [Hl|]; simpl in Hs; [|discriminate].
        split; [exact Hl|]. specialize (Hw x i). destruct (ww w x i) as [|tk p] eqn:Ew.
        * destruct (tasks (wm w) x) as [|tk r] eqn:Et; [discriminate|]. injection Hs as <-. simpl.
          right. right. left. exists x, tk, r. auto.
        * simpl in Hw. destruct p as [[|]|e|j k].
          -- injection Hs as <-. left. reflexivity.
          -- injection Hs as <-. left. reflexivity.
          -- injection Hs as <-. right. right. right. exists tk, e. reflexivity.
          -- destruct (pstep E (wm w) (TWorker x i) (Vis j k)) as [[m' p']|] eqn:Hp; [|discriminate].
             injection Hs as <-. eapply Hps; [exact Hw|exact Hp].
  Qed.

  Lemma exec_tr m t i v m' : exec E m t i = Some (v, m') -> tr m' = tr m \/ exists o, tr m' = tr m ++ [(t, o)].
  Proof.
    intro Hx. destruct i; simpl in Hx;
      repeat match type of Hx with
             | (if ?b then _ else _) = _ => destruct b eqn:?
             | match ?b with _ => _ end = _ => destruct b eqn:?
             end; try discriminate; injection Hx as <- <-;
      try (match goal with |- context [match pairs ?w ?p with _ => _ end] => destruct (pairs w p) as [[? ?]|] end);
      try (left; reflexivity); right; eexists; reflexivity.
  Qed.
  Lemma mem_step_tr m t m' : mem_step m t m' -> tr m' = tr m \/ exists o, tr m' = tr m ++ [(t, o)].
  Proof.
    intros [->|[(i & v & _ & Hx)|[(x & tk & r & _ & ->)|(tk & e & ->)]]]; auto.
    - eapply exec_tr; exact Hx.
    - right. eexists. reflexivity.
  Qed.

  Lemma run_snoc w l t : run E w (l ++ [t]) = step_or_stay E (run E w l) t.
  Proof. unfold run. rewrite fold_left_app. reflexivity. Qed.
  Lemma reach_snoc w0 w t w' : reach E w0 w -> step E w t = Some w' -> reach E w0 w'.
  Proof.
    intros [sched ->] Hs. exists (sched ++ [t]). rewrite run_snoc. unfold step_or_stay. rewrite Hs. reflexivity.
  Qed.
  (** induction over reachable worlds *)
  Lemma reach_ind w0 (P : world -> Prop) :
    P (init_world E w0) ->
    (forall w t w', reach E w0 w -> P w -> step E w t = Some w' -> P w') ->
    forall w, reach E w0 w -> P w.
  Proof.
    intros H0 H1 w [sched ->]. rewrite <- (rev_involutive sched). induction (rev sched) as [|t l IH]; [exact H0|].
    simpl. rewrite run_snoc. unfold step_or_stay. destruct (step E (run E (init_world E w0) (rev l)) t) eqn:Hs; [|exact IH].
    eapply H1; [eexists; reflexivity|exact IH|exact Hs].
  Qed.

  (** every mark of a trace was placed by a step from a reachable world whose
      trace is the part before the mark *)
  Theorem reach_mark w0 w : tr w0 = [] -> reach E w0 w -> forall tr1 t o tr2, tr (wm w) = tr1 ++ (t, o) :: tr2 ->
    exists w1 w2, reach E w0 w1 /\ step E w1 t = Some w2 /\ tr (wm w1) = tr1 /\
      tr (wm w2) = tr1 ++ [(t, o)] /\ live t /\ mem_step (wm w1) t (wm w2).
  Proof.
    intros H0 Hr. pattern w. revert w Hr. apply reach_ind.
    - simpl. rewrite H0. intros tr1 t o tr2 H. destruct tr1; discriminate.
    - intros w t w' Hr IH Hs tr1 t' o tr2 Htr. destruct (step_mem _ _ _ _ Hr Hs) as [Hl Hm].
      destruct (mem_step_tr _ _ _ Hm) as [He|[o' He]]; [rewrite He in Htr; eauto|].
      rewrite He in Htr.
      destruct (rev tr2) as [|z r] eqn:Er; apply (f_equal (@rev (tid * obs))) in Er; rewrite rev_involutive in Er; subst tr2; simpl in Htr.
      + apply app_inj_tail in Htr. destruct Htr as [<- [= <- <-]]. exists w, w'. auto 10.
      + rewrite app_comm_cons, app_assoc in Htr. apply app_inj_tail in Htr. destruct Htr as [Htr _]. eauto.
  Qed.
  Theorem reach_prefix w0 w : tr w0 = [] -> reach E w0 w -> forall tr1 tr2, tr (wm w) = tr1 ++ tr2 ->
    exists w1, reach E w0 w1 /\ tr (wm w1) = tr1.
  Proof.
    intros H0 Hr tr1 [|[t o] tr2] Htr; [rewrite app_nil_r in Htr; eauto|].
    destruct (reach_mark _ _ H0 Hr _ _ _ _ Htr) as (w1 & w2 & H1 & _ & H2 & _). eauto.
  Qed.
End MemInv.
