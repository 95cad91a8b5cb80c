(** * RejectProofs2.v: an executor of its own that rejects tasks only when others wait (C71) *)
From Verif Require Import RejectSpec Logic Neutral OwnSpec Own Tree QueueProofs TokenProofs RejectProofs.

(** A thread that has queued an event is open until it has submitted the task; a worker is
    live from taking a task for q until it has seen q empty.  As long as q is not empty,
    some thread is open or live, or a task waits. *)
Section Own.
  Context (R : xid -> world -> bool) (E : env) (q : qid).
  Notation tq := (tq E q).
  Notation kpre := (kpre E q).
  Definition lpost (t : tid) (g : token) (i : instr) : iret i -> token -> Prop :=
    match i return iret i -> token -> Prop with
    | IQOffer q' _ _ _ _ => fun _ g' => g' = (fst g, Nat.eqb q' q)
    | IExecute _ _ => fun _ g' => g' = (fst g, false)
    | IQEmpty q' => fun v g' => g' = if andb (Nat.eqb q' q) v then (false, snd g) else g
    | _ => fun _ g' => g' = g
    end.
  Definition died (w : mem) : Prop := exists t tk x, In (t, OUncaught tk x) (tr w) /\ tq tk = true /\ tk_strat tk = strat_of E (tk_mach tk).
  Definition live (w : mem) (gs : tid -> token) : Prop :=
    (exists t, fst (gs t) = true \/ snd (gs t) = true) \/ (exists x tk, In tk (tasks w x) /\ tq tk = true).
  Record linv (w : mem) (gs : tid -> token) : Prop := {
    l_live : some_shut E q w \/ died w \/ queues w q = [] \/ live w gs;
    l_mark : forall t, snd (gs t) = true -> just_queued q t (tr w);
    l_client : forall n, fst (gs (TClient n)) = false;
    l_serves : forall x i, fst (gs (TWorker x i)) = true -> exists m, exec_of E m = x /\ queue_of E m = q;
    l_tasks : forall x tk, In tk (tasks w x) -> task_ok E x tk }.
  Lemma linv_ext w gs gs' : (forall t, gs t = gs' t) -> linv w gs -> linv w gs'.
  Proof.
    intros H [H1 H2 H3 H4 H5]. split.
    - destruct H1 as [H1|[H1|[H1|[[t H1]|H1]]]]; [auto|auto|auto|right; right; right; left; exists t; rewrite <- H; exact H1|right; right; right; right; exact H1].
    - intros t. rewrite <- H. apply H2.
    - intros n. rewrite <- H. apply H3.
    - intros x i. rewrite <- H. apply H4.
    - exact H5.
  Qed.
  Lemma died_grows w w' t : grows w w' t -> died w -> died w'.
  Proof. intros Hg (t' & tk & x & Hin & Hq). exists t', tk, x. split; [|exact Hq]. destruct Hg as [->|[o ->]]; [exact Hin|apply in_or_app; auto]. Qed.

  Lemma lstep w w' gs t g' :
    grows w w' t -> (forall x tk, In tk (tasks w x) -> In tk (tasks w' x)) -> (forall x tk, In tk (tasks w' x) -> task_ok E x tk) ->
    (forall x, shut w x = true -> shut w' x = true) ->
    (queues w' q = [] \/ (queues w' q <> [] -> queues w q <> []) /\ (fst (gs t) = true -> fst g' = true) /\ (snd (gs t) = true -> snd g' = true) \/ live w' (gupd gs t g') \/ some_shut E q w') ->
    (snd g' = true -> just_queued q t (tr w')) -> (fst g' = true -> fst (gs t) = true) ->
    linv w gs -> linv w' (gupd gs t g').
  Proof.
    intros Hg Ht Ht' Hs Hn Hm Hf [H1 H2 H3 H4 H5]. split.
    - destruct H1 as [(k & Hk1 & Hk2)|[H1|H1]]; [left; exists k; auto|right; left; eapply died_grows; eauto|].
      destruct Hn as [Hn|[(Hn1 & Hn2 & Hn3)|[Hn|Hn]]]; [auto| |auto|auto].
      destruct (queues w' q) as [|p r] eqn:Eq; [auto|]. destruct H1 as [H1|H1]; [destruct Hn1; congruence|].
      right; right; right. destruct H1 as [[t' H1]|(x & tk & H1 & Hq)]; [left; exists t'|right; exists x, tk; auto].
      unfold gupd. destruct (tid_eq_dec t' t) as [->|]; [|exact H1]. destruct H1; auto.
    - intros t'. unfold gupd. destruct (tid_eq_dec t' t) as [->|N]; [exact Hm|]. intro Hq. eapply mark_other; eauto.
    - intros n. unfold gupd. destruct (tid_eq_dec (TClient n) t) as [<-|N]; [|apply H3].
      destruct (fst g') eqn:Eg; [|reflexivity]. rewrite <- (H3 n). symmetry. apply Hf. reflexivity.
    - intros x i. unfold gupd. destruct (tid_eq_dec (TWorker x i) t) as [<-|N]; [|apply H4]. intro Hg'. apply (H4 x i). apply Hf. exact Hg'.
    - exact Ht'.
  Qed.
  Lemma lstep0 w w' gs t :
    grows w w' t -> tasks w' = tasks w -> shut w' = shut w -> queues w' = queues w -> snd (gs t) = false ->
    linv w gs -> linv w' (gupd gs t (gs t)).
  Proof.
    intros Hg Ht Hs Hq Ho Hi. pose proof (l_tasks _ _ Hi) as H5. apply (lstep w); auto; try congruence; try (rewrite Ht; auto). right; left. rewrite Hq. auto.
  Qed.
  Ltac dull Hi Hp :=
    match type of Hi with linv ?w ?gs =>
    eexists; split; [reflexivity|];
    apply (lstep0 w); [first [left; reflexivity|right; eexists; reflexivity]|reflexivity|reflexivity|reflexivity|exact Hp|exact Hi] end.

  Lemma exec_live w gs1 gs t i v w' :
    inv E w gs1 -> pre E t (gs1 t) i -> linv w gs -> kpre t (gs t) i -> exec E w t i = Some (v, w') ->
    exists g', lpost t (gs t) i v g' /\ linv w' (gupd gs t g').
  Proof.
    intros Hown Hown' Hi Hp Hx. pose proof (l_tasks _ _ Hi) as Htk.
    destruct i; cbn [exec] in Hx; cbn [lpost TokenProofs.kpre] in *;
      try (injection Hx as <- <-; dull Hi Hp);
      try (match type of Hx with (if ?b then _ else _) = _ => destruct b eqn:?; injection Hx as <- <-; dull Hi Hp end);
      try (match type of Hx with (match ?l with nil => _ | cons _ _ => _ end) = _ => destruct l; injection Hx as <- <-; dull Hi Hp end).
    - (* ICfg *)
      destruct (cfg_step _ _ _ _ _) as [c' r]. injection Hx as <- <-. dull Hi Hp.
    - (* IQEmpty *)
      injection Hx as <- <-. eexists; split; [reflexivity|].
      destruct (Nat.eqb_spec q0 q) as [->|N]; cbn [andb];
        [|apply (lstep0 w); auto; right; eexists; reflexivity].
      destruct (queues w q) as [|p r] eqn:Eq; [|apply (lstep0 w); auto; right; eexists; reflexivity].
      apply (lstep w); auto; simpl; try congruence. right; eexists; reflexivity.
    - (* IQOffer *)
      assert (HP : pairs w p = Some (e', m)).
      { destruct Hown' as (g0 & Hg & Hq). destruct Hown as [[loc Hl] _ _ _ _]. eapply (il_cont _ _ _ Hl t); rewrite Hg; left; reflexivity. }
      rewrite HP in Hx. injection Hx as <- <-. eexists; split; [reflexivity|].
      apply (lstep w); auto.
      + right; eexists; reflexivity.
      + simpl. unfold upd. rewrite (Nat.eqb_sym q q0). destruct (Nat.eqb_spec q0 q) as [->|N].
        * right; right; left. left. exists t. rewrite gupd_eq. right. reflexivity.
        * right; left. rewrite Hp. split; [auto|]. split; [auto|discriminate].
      + simpl. intro Hq'. apply Nat.eqb_eq in Hq'. rewrite Hq'. eexists (thread_obs t (tr w)), _, _, _, _, _.
        cbn [tr log set_tr set_queues]. rewrite thread_obs_snoc. destruct (tid_eq_dec t t); [reflexivity|congruence].
    - (* IQPoll *)
      destruct (queues w q0) as [|p r] eqn:Eq; injection Hx as <- <-; (eexists; split; [reflexivity|]).
      + apply (lstep0 w); auto. left; reflexivity.
      + apply (lstep w); auto; simpl; try congruence; [right; eexists; reflexivity|]. right; left. split; [|auto].
        unfold upd. destruct (Nat.eqb_spec q q0) as [->|]; [rewrite Eq; congruence|auto].
    - (* IExecute *)
      destruct Hp as [Hp0 Hp]. destruct (shut w x) eqn:Es; injection Hx as <- <-; (eexists; split; [reflexivity|]).
      + apply (lstep w); auto; simpl; try congruence; [right; eexists; reflexivity|].
        destruct (snd (gs t)) eqn:Eo; [|right; left; split; [auto|]; split; [auto|discriminate]].
        right; right; right. pose proof (Hp eq_refl) as Hq. destruct Hp0 as [Hp0 Hp1]. exists (tk_mach tk).
        unfold queue_of, exec_of. rewrite <- Hp0. split; [apply Nat.eqb_eq; exact Hq|rewrite <- Hp1; exact Es].
      + apply (lstep w); auto; simpl; try congruence; [right; eexists; reflexivity| | |].
        * intros y tk' Hin. unfold upd. destruct (Nat.eqb_spec y x) as [->|]; [apply in_or_app; auto|exact Hin].
        * intros y tk'. unfold upd. destruct (Nat.eqb_spec y x) as [->|]; [|apply Htk]. intro Hin. apply in_app_or in Hin. destruct Hin as [Hin|[<-|[]]]; auto.
        * destruct (snd (gs t)) eqn:Eo.
          -- right; right; left. right. exists x, tk. split; [|apply Hp; reflexivity]. simpl. unfold upd. rewrite Nat.eqb_refl. apply in_or_app. right. left. reflexivity.
          -- right; left. split; [auto|]. split; [auto|discriminate].
    - (* IShutdown *)
      injection Hx as <- <-. eexists; split; [reflexivity|]. apply (lstep w); auto; simpl; try congruence.
      + right; eexists; reflexivity.
      + intros x'. unfold upd. destruct (Nat.eqb x' x); auto.
    - (* ILatchAwait *)
      destruct t as [n|x i]; [destruct (intrs w n); [|destruct (latches w p); [|discriminate]]|destruct (latches w p); [|discriminate]];
        injection Hx as <- <-; dull Hi Hp.
    - (* ISelfInterrupt *)
      destruct t as [n|x i]; injection Hx as <- <-; dull Hi Hp.
    - discriminate Hx.
  Qed.

  (** ** The programs *)
  Notation JJ := (@J token kpre lpost nothing_open (fun _ g g' => g' = g)).
  Lemma L_plain i : kplain i = true -> JJ (op i).
  Proof. intros H t g Hg. destruct i; try discriminate; simpl; (split; [exact Hg|]); intros v g' ->; auto. Qed.
  Lemma L_boring i : boring i = true -> JJ (op i).
  Proof. intro H. apply L_plain. destruct i; try discriminate; auto. Qed.

  Lemma L_default e m : JJ (default_process E (strat_of E m) e m).
  Proof.
    intros t g Hg. unfold default_process, queue_size.
    apply wp_bind, wp_bind, wp_op; [exact Hg|]. intros cc g' ->. apply wp_op; [exact Hg|]. intros n g' ->.
    destruct (andb _ _).
    { apply (J_call_ufl E kpre lpost nothing_open (fun _ g g' => g' = g) krefl ktrans L_boring _ _ t g Hg). }
    assert (Hfin : forall p e', wp kpre lpost t (op (IQOffer (s_queue (strat E (strat_of E m))) p e m e') ;;;
          ok <- op (IExecute (s_exec (strat E (strat_of E m))) {| tk_strat := strat_of E m; tk_mach := m |}) ;;
          if (ok : bool) then skip else Throw XRejected) (fun _ g' => g' = g /\ nothing_open t g') g).
    { intros p e'. apply wp_bind, wp_op; [exact Hg|]. intros _ g' ->.
      apply wp_bind, wp_op; [split; [split; reflexivity|intro H; exact H]|]. intros ok g' ->.
      destruct g as [b o]. unfold nothing_open in *. simpl in *. subst o. destruct ok; simpl; auto. }
    apply wp_bind. unfold pool_take. apply wp_bind, wp_op; [exact Hg|].
    assert (Hrest : forall p,
      wp kpre lpost t (py <- op (IGetPay e) ;;
        e' <- match py with
        | Some _ => nm <- op (IGetName e) ;; py' <- op (IGetPay e) ;; c <- op (INewCopy nm py') ;; op (ISetPair p c m) ;;; Ret c
        | None => op (ISetPair p e m) ;;; Ret e
        end ;;
        op (IQOffer (s_queue (strat E (strat_of E m))) p e m e') ;;;
        ok <- op (IExecute (s_exec (strat E (strat_of E m))) {| tk_strat := strat_of E m; tk_mach := m |}) ;;
        if (ok : bool) then skip else Throw XRejected)
        (fun _ g' => g' = g /\ nothing_open t g') g).
    { intros p. apply wp_bind, wp_op; [exact Hg|]. intros py g' ->. apply wp_bind. destruct py.
      - apply wp_bind, wp_op; [exact Hg|]. intros nm g' ->.
        apply wp_bind, wp_op; [exact Hg|]. intros py' g' ->.
        apply wp_bind, wp_op; [exact Hg|]. intros c' g' ->.
        apply wp_bind, wp_op; [exact Hg|]. intros _ g' ->. apply Hfin.
      - apply wp_bind, wp_op; [exact Hg|]. intros _ g' ->. apply Hfin. }
    intros [p|] g' ->; [apply Hrest|]. apply wp_op; [exact Hg|]. intros p g' ->. apply Hrest.
  Qed.
  Lemma L_process e m : JJ (process_event E (strat_of E m) e m).
  Proof.
    apply J_process_event; auto using L_boring, L_default, krefl; try exact krefl; try exact ktrans; intros; apply L_plain; reflexivity.
  Qed.
  Lemma L_interp_all u : JJ (interp E u).
  Proof.
    apply (J_interp E kpre lpost nothing_open (fun _ g g' => g' = g) krefl ktrans L_boring (fun _ => True)).
    - intros a _. apply Jret_J; try exact krefl; try exact ktrans; [|intro; apply L_plain; reflexivity].
      apply J_api; auto using L_boring, krefl, L_process; try exact krefl; try exact ktrans.
      + intros. apply J_update_current; auto using L_boring, krefl; try exact krefl; try exact ktrans; intros; apply L_plain; reflexivity.
      + intros. apply J_start; auto using L_boring, krefl, L_process; try exact krefl; try exact ktrans; intros; apply L_plain; reflexivity.
      + intros. apply J_start_in; auto using L_boring, krefl, L_process; try exact krefl; try exact ktrans; intros; apply L_plain; reflexivity.
      + intros i H. apply L_plain. destruct a; try discriminate; injection H as <-; reflexivity.
    - induction u; simpl; auto.
  Qed.
  Lemma L_exec k e m : JJ (execute E k e m).
  Proof.
    apply J_execute; auto using L_boring, krefl, L_process; try exact krefl; try exact ktrans.
    intros. apply J_update_current; auto using L_boring, krefl; try exact krefl; try exact ktrans; intros; apply L_plain; reflexivity.
  Qed.


  (** the end of a loop iteration of task tk *)
  Definition Ql (tk : task) (r : res bool) (g : token) : Prop :=
    snd g = false /\ match r with Ok true => fst g = tq tk | Ok false => fst g = false | Err _ => fst g = true -> tq tk = true end.
  Lemma wp_drain_live t tk : wp kpre lpost t (drain_iter E tk) (Ql tk) (tq tk, false).
  Proof.
    unfold drain_iter. apply wp_bind, wp_op; [reflexivity|]. intros v g' Hv.
    assert (Hg : g' = (if andb (tq tk) v then false else tq tk, false))
      by (rewrite Hv; unfold TokenProofs.tq; simpl; destruct (andb _ _); reflexivity).
    subst g'. clear Hv. destruct v.
    { rewrite Bool.andb_true_r. simpl. split; [reflexivity|]. simpl. destruct (tq tk); reflexivity. }
    rewrite Bool.andb_false_r. set (g := (tq tk, false)).
    assert (He : forall x, Ql tk (Err x) g) by (intro x; split; [reflexivity|auto]).
    apply wp_bind, wp_op; [reflexivity|]. intros v g' ->. destruct v as [p|]; [|apply He].
    apply wp_bind, wp_then_res. apply wp_bind, wp_op; [reflexivity|]. intros c g' ->.
    assert (Hmark : forall r : res unit, wp kpre lpost t (op (IMark (ODone (s_queue (strat E (tk_strat tk))) p (thrown r))) ;;; of_res r)
       (fun r g' => match r with Ok _ => wp kpre lpost t (Ret true) (Ql tk) g' | Err x => Ql tk (Err x) g' end) g).
    { intro r. apply wp_bind, wp_op; [reflexivity|]. intros _ g' ->. destruct r; [split; reflexivity|apply He]. }
    destruct c as [[e m]|]; [|apply Hmark].
    apply wp_try_finally.
    eapply wp_mono with (Q := fun _ g' => g' = g).
    { intros r g' ->. apply wp_op; [reflexivity|]. intros _ g' ->. apply Hmark. }
    assert (H : JJ (try_catch
                    (en <- op (IGetEnded (tk_mach tk)) ;;
                     if (en : bool) then skip else execute E (tk_strat tk) e m)
                    (fun x => call_ufl E (s_ufl (strat E (tk_strat tk))) (KUflExn (s_ufl (strat E (tk_strat tk))) e m x)))).
    { apply J_try_catch; try exact krefl; try exact ktrans; [|intro; apply J_call_ufl; auto using krefl, L_boring; exact ktrans].
      apply J_bind; try exact krefl; try exact ktrans; [apply L_plain; reflexivity|]. intros [|]; [apply J_skip; exact krefl|apply L_exec]. }
    eapply wp_mono; [|apply (H t g eq_refl)]. simpl. intros ? ? [-> _]. reflexivity.
  Qed.
  Definition oinv (w : mem) (gs : tid -> held * token) : Prop := inv E w (fun t => fst (gs t)) /\ linv w (fun t => snd (gs t)).
  Lemma oinv_upd w gs t g' : inv E w (gupd (fun t => fst (gs t)) t (fst g')) -> linv w (gupd (fun t => snd (gs t)) t (snd g')) ->
    oinv w (gupd gs t g').
  Proof.
    intros H1 H2. split; [eapply inv_ext; [|exact H1]|eapply linv_ext; [|exact H2]];
      intro t'; unfold gupd; destruct (tid_eq_dec t' t); reflexivity.
  Qed.
  Definition Qo (t : tid) (tk : task) (r : res bool) (g : held * token) : Prop :=
    fst g = [] /\ Ql tk r (snd g) /\ match t with TWorker x _ => task_ok E x tk | _ => True end.
  Definition ook := world_ok (pre12 (pre E) kpre) (post12 post lpost) oinv (fun _ _ _ => True) Qo (fun _ g => g = ([], idle2)).
  Lemma wp_drain_o x i tk : task_ok E x tk ->
    wp (pre12 (pre E) kpre) (post12 post lpost) (TWorker x i) (drain_iter E tk) (Qo (TWorker x i) tk) ([], (tq tk, false)).
  Proof.
    intro Ht. eapply wp_mono; [|apply wp_pair; [apply wp_drain|apply wp_drain_live]].
    intros r [g1 g2] [H1 H2]. simpl in *. split; [exact H1|]. split; [exact H2|exact Ht].
  Qed.
  Lemma ook_step w t w' gs : ook w gs -> step E w t = Some w' -> exists gs', ook w' gs'.
  Proof.
    intros H Hs. apply (world_ok_same E (pre12 (pre E) kpre) (post12 post lpost) oinv (fun _ _ _ => True) Qo (fun _ g => g = ([], idle2)))
      with (w := w) (gs := gs) (t := t); [| | | | | |exact Hs|exact H].
    - intros w1 gs1 t1 i v w2 [Hi Hk] [Hp1 Hp2] Hx.
      destruct (exec_own E w1 (fun t => fst (gs1 t)) t1 i v w2 Hi Hp1 Hx) as (g1 & Hq1 & Hi').
      destruct (exec_live w1 (fun t => fst (gs1 t)) (fun t => snd (gs1 t)) t1 i v w2 Hi Hp1 Hk Hp2 Hx) as (g2 & Hq2 & Hk').
      exists (g1, g2). split; [split; assumption|]. apply oinv_upd; assumption.
    - intros t1 [g1 g2] c h [_ Hn]. simpl in Hn.
      eapply wp_mono; [|apply wp_pair; [apply (J_interp_all E _ t1 g1 I)|apply (L_interp_all _ t1 g2 Hn)]].
      simpl. intros r [g1' g2'] [[E1 _] [E2 _]]. split; [exact E1|exact E2].
    - intros w1 gs1 x i tk r [Hi Hk] Hl Hg Et. set (t1 := TWorker x i) in *.
      assert (Htk : task_ok E x tk) by (apply (l_tasks _ _ Hk); rewrite Et; left; reflexivity).
      exists ([], (tq tk, false)). split; [|apply wp_drain_o; exact Htk]. apply oinv_upd.
      + simpl fst. replace (@nil (pid * (bool * content))) with (fst (gs1 t1)) by (rewrite Hg; reflexivity).
        apply (inv_same E w1); try reflexivity; auto. left. reflexivity.
      + simpl snd. destruct Hk as [H1 H2 H3 H4 H5]. split.
        * destruct H1 as [H1|[H1|[H1|H1]]]; [left; exact H1|right; left; exact H1|right; right; left; exact H1|right; right; right].
          destruct H1 as [[t' H1]|(y & tk' & H1 & Hq)].
          -- left. exists t'. unfold gupd. destruct (tid_eq_dec t' t1) as [->|]; [|exact H1]. cbv beta in H1. rewrite Hg in H1. destruct H1; discriminate.
          -- destruct (Nat.eqb_spec y x) as [->|N].
             ++ rewrite Et in H1. destruct H1 as [->|H1]; [left; exists t1; rewrite gupd_eq; left; exact Hq|].
                right. exists x, tk'. split; [|exact Hq]. simpl. unfold upd. rewrite Nat.eqb_refl. exact H1.
             ++ right. exists y, tk'. split; [|exact Hq]. simpl. unfold upd. destruct (Nat.eqb_spec y x); [contradiction|exact H1].
        * intros t'. unfold gupd. destruct (tid_eq_dec t' t1) as [->|N]; [discriminate|]. apply H2.
        * intros n. rewrite gupd_neq by (unfold t1; congruence). apply H3.
        * intros y j. unfold gupd. destruct (tid_eq_dec (TWorker y j) t1) as [Ey|N]; [|apply H4].
          injection Ey as -> ->. simpl. intro Hq. destruct Htk as [Ha Hb].
          exists (tk_mach tk). unfold queue_of, exec_of. rewrite <- Ha. split; [symmetry; exact Hb|apply Nat.eqb_eq; exact Hq].
        * intros y tk'. simpl. unfold upd. destruct (Nat.eqb_spec y x) as [->|]; [|apply H5].
          intro Hin. apply H5. rewrite Et. right. exact Hin.
    - intros w1 gs1 x i tk [Hi Hk] Hl (Hg & [Hs2 Hs1] & Htk). exists (gs1 (TWorker x i)). split.
      + apply oinv_upd; [eapply inv_ext; [|exact Hi]|eapply linv_ext; [|exact Hk]]; intro t'; apply (gupd_id2 (fun t => _ (gs1 t))).
      + destruct (gs1 (TWorker x i)) as [g1 [b o]]. simpl in *. subst. apply wp_drain_o. exact Htk.
    - intros w1 gs1 x i tk [Hi Hk] Hl (Hg & [Hs2 Hs1] & Htk). exists (gs1 (TWorker x i)). split.
      + apply oinv_upd; [eapply inv_ext; [|exact Hi]|eapply linv_ext; [|exact Hk]]; intro t'; apply (gupd_id2 (fun t => _ (gs1 t))).
      + destruct (gs1 (TWorker x i)) as [g1 [b o]]. simpl in *. subst. reflexivity.
    - intros w1 gs1 x i tk e [Hi Hk] Hl (Hg & [Hs2 Hs1] & Htk). set (t1 := TWorker x i) in *. exists ([], idle2). split; [|reflexivity]. apply oinv_upd.
      + simpl fst. rewrite <- Hg. apply (inv_same E w1 _ (fun t => fst (gs1 t))); try reflexivity; auto. right; eexists _, _; split; [reflexivity|exact I].
      + simpl snd. destruct (fst (snd (gs1 t1))) eqn:Ef.
        * destruct Hk as [H1 H2 H3 H4 H5]. split.
          -- right; left. exists t1, tk, e. split; [simpl; apply in_or_app; right; left; reflexivity|]. split; [apply Hs1; reflexivity|apply Htk].
          -- intros t'. unfold gupd. destruct (tid_eq_dec t' t1) as [->|N]; [discriminate|]. intro Hq. eapply (mark_other q w1 _ t1); [right; eexists; reflexivity|exact N|auto].
          -- intros n. rewrite gupd_neq by (unfold t1; congruence). apply H3.
          -- intros y j. unfold gupd. destruct (tid_eq_dec (TWorker y j) t1) as [Ey|N]; [discriminate|apply H4].
          -- exact H5.
        * replace idle2 with (snd (gs1 t1)) by (destruct (snd (gs1 t1)) as [b o]; simpl in *; subst; reflexivity).
          apply (lstep0 w1 _ (fun t => snd (gs1 t))); auto. right; eexists; reflexivity.
  Qed.
  Context (Hown : own_executors E q) (Hrw : rejects_when_others_wait R E q).
  Lemma ook_decline w t w' gs : ook w gs -> decline R E w t = Some w' -> exists gs', ook w' gs'.
  Proof.
    intros H Hd. eapply decline_ok; [|exact H|exact Hd]. intros x tk HR [Hi Hk] [Hp1 [Hp0 Hp]] ->. cbn [snd] in Hp.
    set (g' := (fst (gs t), (fst (snd (gs t)), false))). exists (gupd gs t g'). rewrite gupd_eq.
    split; [split; reflexivity|]. split; [|intros t' N; left; apply gupd_neq; exact N]. apply oinv_upd.
    - apply (inv_same E (wm w) _ (fun t => fst (gs t))); try reflexivity; auto. right. eexists _, _. split; [reflexivity|exact I].
    - pose proof (l_tasks _ _ Hk) as Htk. unfold g'. simpl snd. apply (lstep (wm w) _ (fun t => snd (gs t))); auto; simpl; try congruence; [right; eexists; reflexivity|].
      destruct (snd (snd (gs t))) eqn:Eo; [|right; left; split; [auto|]; split; [auto|discriminate]].
      right; right; left. right. specialize (Hp eq_refl). destruct Hp0 as [Ha Hb].
      assert (Hq : queue_of E (tk_mach tk) = q) by (unfold queue_of; rewrite <- Ha; apply Nat.eqb_eq; exact Hp).
      assert (Hx : x = exec_of E (tk_mach tk)) by (unfold exec_of; rewrite <- Ha; exact Hb).
      rewrite Hx in HR. specialize (Hrw _ _ Hq HR). rewrite <- Hx in Hrw.
      destruct (tasks (wm w) x) as [|tk' r] eqn:Et; [congruence|].
      exists x, tk'. split; [simpl; rewrite Et; left; reflexivity|].
      destruct (Htk x tk') as [Ha' Hb']; [rewrite Et; left; reflexivity|].
      unfold TokenProofs.tq. apply Nat.eqb_eq. rewrite Ha'. apply (Hown (tk_mach tk) (tk_mach tk') Hq).
      rewrite <- Hx, Hb', Ha'. reflexivity.
  Qed.
  Lemma ook_all w0 w : init_mem E w0 -> jreach R E w0 w -> exists gs, ook w gs.
  Proof.
    intros H0 [l ->]. induction l as [|t l [gs IH]] using rev_ind.
    - exists (fun _ => ([], idle2)). destruct H0. split; [|split].
      + split; [split|split].
        * exists (fun _ => PFresh). simpl. split; simpl; intros; rewrite ?im_pools, ?im_queues, ?im_npair in *; simpl in *;
            try constructor; try easy; try lia.
        * intro q0. simpl. rewrite im_tr, im_queues. reflexivity.
        * intros t q0 p e m e' m'. simpl. rewrite im_tr. intros [].
        * intros t p. simpl. rewrite im_tr. simpl. split; [intros []|intros [c []]].
        * simpl. rewrite im_tr. constructor.
        * right; right; left. simpl. apply im_queues.
        * discriminate.
        * reflexivity.
        * discriminate.
        * intros x tk. simpl. rewrite im_tasks. intros [].
      + intro n. simpl. destruct (Nat.ltb n (n_clients E)); [|exact I].
        eapply wp_mono; [|apply wp_pair; [apply (J_interp_all E _ _ _ I)|apply L_interp_all; reflexivity]]. auto.
      + reflexivity.
    - rewrite jrun_snoc. unfold jstep_or_stay. destruct (jstep R E (jrun R E (init_world E w0) l) t) as [w'|] eqn:Hs; [|eauto].
      apply jstep_inv in Hs. destruct Hs as [Hs|Hs]; [eapply ook_decline|eapply ook_step]; eauto.
  Qed.
  Lemma p_C71_own_executor w0 w : init_mem E w0 -> jreach R E w0 w -> at_rest E q w -> no_task_died E q (tr (wm w)) ->
    accepted q (tr (wm w)) = taken q (tr (wm w)).
  Proof.
    intros H0 Hr (A1 & A2 & A3 & A4) Hnd. rewrite (p_C71_in_order R E w0 w q H0 Hr).
    destruct (ook_all w0 w H0 Hr) as (gs & [Hi [H1 H2 H3 H4 H5]] & _ & Hw).
    destruct H1 as [(k & Hk1 & Hk2)|[(t & tk & x & Hin & Hq & Ha)|[->|[[t H1]|(x & tk & H1 & Hq)]]]].
    - destruct (A4 k Hk1). eapply shut_known; eauto.
    - destruct (Hnd _ _ _ Hin). unfold queue_of. rewrite <- Ha. apply Nat.eqb_eq. exact Hq.
    - apply app_nil_r.
    - exfalso. destruct H1 as [H1|H1]; [|exact (A3 t (H2 t H1))]. destruct t as [n|x i]; [rewrite H3 in H1; discriminate|].
      destruct (H4 x i H1) as (m & Hx & Hm). specialize (Hw x i). rewrite <- Hx, (A1 m i Hm) in Hw. simpl in Hw. rewrite <- Hx in H1. cbv beta in H1. rewrite Hw in H1. discriminate.
    - exfalso. destruct (H5 x tk H1) as [Ha _]. apply (A2 x tk H1). unfold queue_of. rewrite <- Ha. apply Nat.eqb_eq. exact Hq.
  Qed.
End Own.
