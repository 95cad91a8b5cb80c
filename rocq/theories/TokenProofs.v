(** * TokenProofs.v: no accepted event is stranded (proofs for C10)

    A thread that has queued an event holds a token until it has submitted the
    task; a submitted task holds a token until the worker running it has polled
    the queue or seen it empty.  There are at least as many tokens as queued
    pairs. *)
From Verif Require Import ApiSpec Logic Neutral Own Tree QueueProofs RaceSpec.

(** ** Sums over finitely many places *)
Section Count.
  Context {A : Type} (dec : forall a b : A, {a = b} + {a <> b}).
  Definition total (f : A -> nat) (L : list A) : nat := list_sum (map f L).
  Definition bounded (n : nat) (f : A -> nat) : Prop :=
    exists L, NoDup L /\ (forall a, ~ In a L -> f a = 0) /\ n <= total f L.

  Lemma total_ext f f' L : (forall a, In a L -> f a = f' a) -> total f L = total f' L.
  Proof. intro H. unfold total. f_equal. apply map_ext_in. exact H. Qed.
  Lemma bounded_zero n f : (forall a, f a = 0) -> bounded n f -> n = 0.
  Proof.
    intros H (L & _ & _ & Hn). assert (total f L = 0) by (clear Hn; induction L; simpl; [reflexivity|]; unfold total in *; simpl; rewrite H, IHL; reflexivity). lia.
  Qed.
  Lemma bounded_upd n n' f f' a : (forall b, b <> a -> f' b = f b) -> n' + f a <= n + f' a -> bounded n f -> bounded n' f'.
  Proof.
    intros Hf Hn (L & Hd & H0 & HL).
    assert (Hin : forall L, NoDup L -> In a L -> total f' L + f a = total f L + f' a).
    { clear - Hf. intros L Hd. induction Hd as [|b L Hb Hd IH]; [intros []|]. unfold total in *. simpl. intros [->|Hin].
      - assert (He : total f' L = total f L) by (apply total_ext; intros c Hc; apply Hf; congruence). unfold total in He. lia.
      - specialize (IH Hin). rewrite (Hf b) by congruence. lia. }
    destruct (in_dec dec a L) as [Ha|Ha].
    - exists L. split; [exact Hd|]. split; [|specialize (Hin L Hd Ha); lia].
      intros b Hb. rewrite Hf by congruence. auto.
    - exists (a :: L). split; [constructor; auto|]. split.
      + intros b Hb. rewrite Hf by (intro; subst; apply Hb; left; reflexivity). apply H0. intro Hc. apply Hb. right. exact Hc.
      + specialize (Hin (a :: L) (NoDup_cons _ Ha Hd) (or_introl eq_refl)). unfold total in *. simpl in *. lia.
  Qed.
  Lemma bounded_empty n f f' a : (forall b, b <> a -> f' b = f b) -> bounded n f -> bounded 0 f'.
  Proof.
    intros Hf (L & Hd & H0 & _). destruct (in_dec dec a L) as [Ha|Ha]; [exists L|exists (a :: L)].
    - split; [exact Hd|]. split; [|lia]. intros b Hb. rewrite Hf by congruence. auto.
    - split; [constructor; auto|]. split; [|lia].
      intros b Hb. rewrite Hf by (intro; subst; apply Hb; left; reflexivity). apply H0. intro Hc. apply Hb. right. exact Hc.
  Qed.
  Lemma bounded_ext n f f' : (forall a, f a = f' a) -> bounded n f -> bounded n f'.
  Proof.
    intros Hf (L & Hd & H0 & HL). exists L. split; [exact Hd|]. split; [intros a Ha; rewrite <- Hf; auto|].
    rewrite <- (total_ext f f'); auto.
  Qed.
End Count.

Definition place_dec (a b : tid + xid) : {a = b} + {a <> b}.
Proof. decide equality; [apply tid_eq_dec|apply Nat.eq_dec]. Defined.

Section Token.
  (** [strict]: also relate the tokens to the marks (needs the ownership of pairs) *)
  Context (E : env) (q : qid) (strict : bool).
  (** (running a task that has not looked at q yet, queued in q and not yet submitted) *)
  Definition token := (bool * bool)%type.
  Definition tq (tk : task) : bool := Nat.eqb (s_queue (strat E (tk_strat tk))) q.

  Definition kpre (t : tid) (g : token) (i : instr) : Prop :=
    match i with
    | IExecute x tk => task_ok E x tk /\ (snd g = true -> tq tk = true)
    | _ => snd g = false
    end.
  Definition kpost (t : tid) (g : token) (i : instr) : iret i -> token -> Prop :=
    match i return iret i -> token -> Prop with
    | IQOffer q' _ _ _ _ => fun _ g' => g' = (fst g, Nat.eqb q' q)
    | IExecute _ _ => fun _ g' => g' = (fst g, false)
    | IQEmpty q' => fun v g' => g' = if andb (Nat.eqb q' q) v then (false, snd g) else g
    | IQPoll q' => fun _ g' => g' = if Nat.eqb q' q then (false, snd g) else g
    | _ => fun _ g' => g' = g
    end.

  Definition b2n (b : bool) : nat := if b then 1 else 0.
  Definition cost (w : mem) (gs : tid -> token) (a : tid + xid) : nat :=
    match a with
    | inl t => b2n (fst (gs t)) + b2n (snd (gs t))
    | inr x => List.length (filter tq (tasks w x))
    end.
  Definition some_shut (w : mem) : Prop := exists m, queue_of E m = q /\ shut w (exec_of E m) = true.
  Record kinv (w : mem) (gs : tid -> token) : Prop := {
    k_count : some_shut w \/ bounded (List.length (queues w q)) (cost w gs);
    k_mark : strict = true -> forall t, snd (gs t) = true -> just_queued q t (tr w);
    k_client : forall n, fst (gs (TClient n)) = false;
    k_serves : forall x i, fst (gs (TWorker x i)) = true -> exists m, exec_of E m = x /\ queue_of E m = q;
    k_tasks : forall x tk, In tk (tasks w x) -> task_ok E x tk }.

  Lemma kinv_ext w gs gs' : (forall t, gs t = gs' t) -> kinv w gs -> kinv w gs'.
  Proof.
    intros H [H1 H2 H3 H4 H5]. split.
    - destruct H1 as [H1|H1]; [left; exact H1|right]. eapply bounded_ext; [|exact H1].
      intros [t|x]; simpl; [rewrite H; reflexivity|reflexivity].
    - intros Hs t. rewrite <- H. apply (H2 Hs).
    - intros n. rewrite <- H. apply H3.
    - intros x i. rewrite <- H. apply H4.
    - exact H5.
  Qed.
  Lemma gupd_id2 {G : Type} (gs : tid -> G) t : forall t', gs t' = gupd gs t (gs t) t'.
  Proof. intro t'. unfold gupd. destruct (tid_eq_dec t' t); congruence. Qed.

  (** the trace grows by at most one entry of thread t *)
  Definition grows (w w' : mem) (t : tid) : Prop := tr w' = tr w \/ exists o, tr w' = tr w ++ [(t, o)].
  Lemma mark_other w w' t t' : grows w w' t -> t' <> t -> just_queued q t' (tr w) -> just_queued q t' (tr w').
  Proof.
    intros [->|[o ->]] N; [auto|]. unfold just_queued. rewrite thread_obs_snoc.
    destruct (tid_eq_dec t t'); [congruence|auto].
  Qed.
  (** a step of t: tokens g', queue length n' *)
  Lemma kstep w w' gs t g' :
    grows w w' t -> tasks w' = tasks w -> (forall x, shut w x = true -> shut w' x = true) ->
    queues w' q = [] \/
    List.length (queues w' q) + b2n (fst (gs t)) + b2n (snd (gs t)) <= List.length (queues w q) + b2n (fst g') + b2n (snd g') ->
    (strict = true -> snd g' = true -> just_queued q t (tr w')) -> (fst g' = true -> fst (gs t) = true) ->
    kinv w gs -> kinv w' (gupd gs t g').
  Proof.
    intros Hg Ht Hs Hn Hm Hf [H1 H2 H3 H4 H5]. split.
    - destruct H1 as [(k & Hk1 & Hk2)|H1]; [left; exists k; auto|right].
      assert (Hc : forall b, b <> inl t -> cost w' (gupd gs t g') b = cost w gs b).
      { intros [t'|x] N; simpl; [rewrite gupd_neq by congruence; reflexivity|rewrite Ht; reflexivity]. }
      destruct Hn as [->|Hn]; [eapply (bounded_empty place_dec); eauto|].
      eapply (bounded_upd place_dec); [exact Hc| |exact H1]. simpl. rewrite gupd_eq. lia.
    - intros Hst t'. unfold gupd. destruct (tid_eq_dec t' t) as [->|N]; [exact (Hm Hst)|].
      intro Hq. eapply mark_other; eauto.
    - intros n. unfold gupd. destruct (tid_eq_dec (TClient n) t) as [<-|N]; [|apply H3].
      destruct (fst g') eqn:Eg; [|reflexivity]. rewrite <- (H3 n). symmetry. apply Hf. reflexivity.
    - intros x i. unfold gupd. destruct (tid_eq_dec (TWorker x i) t) as [<-|N]; [|apply H4].
      intro Hg'. apply (H4 x i). apply Hf. exact Hg'.
    - rewrite Ht. exact H5.
  Qed.
  (** an uninteresting step *)
  Lemma kstep0 w w' gs t :
    grows w w' t -> tasks w' = tasks w -> shut w' = shut w -> queues w' = queues w -> snd (gs t) = false ->
    kinv w gs -> kinv w' (gupd gs t (gs t)).
  Proof.
    intros Hg Ht Hs Hq Ho. apply kstep; auto; try congruence. right. rewrite Hq. lia.
  Qed.

  Ltac dull Hi Hp :=
    match type of Hi with kinv ?w ?gs =>
    eexists; split; [reflexivity|];
    apply (kstep0 w); [first [left; reflexivity|right; eexists; reflexivity]|reflexivity|reflexivity|reflexivity|exact Hp|exact Hi] end.

  Lemma exec_token w gs1 gs t i v w' :
    (strict = true -> inv E w gs1 /\ pre E t (gs1 t) i) -> kinv w gs -> kpre t (gs t) i -> exec E w t i = Some (v, w') ->
    exists g', kpost t (gs t) i v g' /\ kinv w' (gupd gs t g').
  Proof.
    intros Hstr Hi Hp Hx.
    destruct i; cbn [exec] in Hx; cbn [kpost kpre] in *;
      try (injection Hx as <- <-; dull Hi Hp);
      try (match type of Hx with (if ?b then _ else _) = _ => destruct b eqn:?; injection Hx as <- <-; dull Hi Hp end);
      try (match type of Hx with (match ?l with nil => _ | cons _ _ => _ end) = _ => destruct l; injection Hx as <- <-; dull Hi Hp end).
    - (* ICfg *)
      destruct (cfg_step _ _ _ _ _) as [c' r]. injection Hx as <- <-. dull Hi Hp.
    - (* IQEmpty *)
      injection Hx as <- <-. eexists; split; [reflexivity|].
      destruct (Nat.eqb_spec q0 q) as [->|N]; cbn [andb];
        [|apply (kstep0 w); auto; right; eexists; reflexivity].
      destruct (queues w q) as [|p r] eqn:Eq; [|apply (kstep0 w); auto; right; eexists; reflexivity].
      apply (kstep w); auto; simpl; try congruence. right; eexists; reflexivity.
    - (* IQOffer *)
      assert (HP : strict = true -> pairs w p = Some (e', m)).
      { intro Hs. destruct (Hstr Hs) as [Hown (g0 & Hg & Hq)].
        destruct Hown as [[loc Hl] _ _ _ _]. eapply (il_cont _ _ _ Hl t); rewrite Hg; left; reflexivity. }
      injection Hx as <- <-. eexists; split; [reflexivity|].
      apply (kstep w); auto.
      + destruct (pairs w p) as [[? ?]|]; [right; eexists|left]; reflexivity.
      + destruct (pairs w p) as [[? ?]|]; reflexivity.
      + destruct (pairs w p) as [[? ?]|]; auto.
      + assert (Hq : forall q', queues (match pairs w p with Some (e'0, m') => log t (OOffer q0 p e m e'0 m') (set_queues (upd (queues w) q0 (queues w q0 ++ [p])) w) | None => set_queues (upd (queues w) q0 (queues w q0 ++ [p])) w end) q' = upd (queues w) q0 (queues w q0 ++ [p]) q')
          by (intro q'; destruct (pairs w p) as [[? ?]|]; reflexivity). rewrite Hq. simpl.
        right. unfold upd. rewrite (Nat.eqb_sym q q0). rewrite Hp. destruct (Nat.eqb_spec q0 q) as [->|N]; [rewrite app_length|]; simpl; lia.
      + simpl. intros Hs Hq'. rewrite (HP Hs). apply Nat.eqb_eq in Hq'. rewrite Hq'. eexists (thread_obs t (tr w)), _, _, _, _, _.
        cbn [tr log set_tr set_queues]. rewrite thread_obs_snoc. destruct (tid_eq_dec t t); [reflexivity|congruence].
    - (* IQPoll *)
      destruct (queues w q0) as [|p r] eqn:Eq; injection Hx as <- <-; (eexists; split; [reflexivity|]).
      + destruct (Nat.eqb_spec q0 q) as [->|N]; [|apply (kstep0 w); auto; left; reflexivity].
        apply (kstep w); auto; simpl; try congruence. left; reflexivity.
      + destruct (Nat.eqb_spec q0 q) as [->|N].
        * apply (kstep w); auto; simpl; try congruence; [right; eexists; reflexivity|]. right. unfold upd. rewrite Nat.eqb_refl, Eq, Hp.
          simpl. destruct (fst (gs t)); simpl; lia.
        * apply (kstep w); auto; simpl; try congruence; [right; eexists; reflexivity|]. right.
          unfold upd. destruct (Nat.eqb_spec q q0) as [->|]; [congruence|]. lia.
    - (* IExecute *)
      destruct (shut w x) eqn:Es; injection Hx as <- <-; (eexists; split; [reflexivity|]).
      + destruct Hi as [H1 H2 H3 H4 H5]. destruct Hp as [Hp0 Hp]. split.
        * destruct (snd (gs t)) eqn:Eo.
          -- left. pose proof (Hp eq_refl) as Hq. destruct Hp0 as [Hp0 Hp1]. exists (tk_mach tk). unfold queue_of, exec_of. rewrite <- Hp0. split; [apply Nat.eqb_eq; exact Hq|rewrite <- Hp1; exact Es].
          -- destruct H1 as [H1|H1]; [left; exact H1|right]. eapply bounded_ext; [|exact H1].
             intros [t'|x']; simpl; [|reflexivity]. unfold gupd. destruct (tid_eq_dec t' t) as [->|]; [|reflexivity]. simpl. rewrite Eo. reflexivity.
        * intros Hs t'. unfold gupd. destruct (tid_eq_dec t' t) as [->|N]; [discriminate|].
          intro Hq. eapply (mark_other w _ t); [right; eexists; reflexivity|exact N|auto].
        * intros n. unfold gupd. destruct (tid_eq_dec (TClient n) t) as [<-|N]; [apply H3|apply H3].
        * intros y j. unfold gupd. destruct (tid_eq_dec (TWorker y j) t) as [<-|N]; [apply (H4 y j)|apply H4].
        * exact H5.
      + destruct Hi as [H1 H2 H3 H4 H5]. destruct Hp as [Hp0 Hp]. split.
        * destruct H1 as [H1|H1]; [left; exact H1|right]. simpl.
          set (w' := log t (OSubmit x tk) (set_tasks (upd (tasks w) x (tasks w x ++ [tk])) w)).
          assert (Hb : bounded (List.length (queues w q) + b2n (tq tk)) (cost w' gs)).
          { eapply (bounded_upd place_dec _ _ (cost w gs) _ (inr x)); [| |exact H1].
            - intros [t'|x'] N; simpl; [reflexivity|]. unfold upd. destruct (Nat.eqb_spec x' x); [congruence|reflexivity].
            - simpl. unfold upd. rewrite Nat.eqb_refl, filter_app, app_length. simpl. destruct (tq tk); simpl; lia. }
          eapply (bounded_upd place_dec _ _ (cost w' gs) _ (inl t)); [| |exact Hb].
          -- intros [t'|x'] N; simpl; [rewrite gupd_neq by congruence|]; reflexivity.
          -- simpl. rewrite gupd_eq. simpl.
             destruct (snd (gs t)) eqn:Eo; simpl; [rewrite (Hp eq_refl); simpl; lia|lia].
        * intros Hs t'. unfold gupd. destruct (tid_eq_dec t' t) as [->|N]; [discriminate|].
          intro Hq. eapply (mark_other w _ t); [right; eexists; reflexivity|exact N|auto].
        * intros n. unfold gupd. destruct (tid_eq_dec (TClient n) t) as [<-|N]; [apply H3|apply H3].
        * intros y j. unfold gupd. destruct (tid_eq_dec (TWorker y j) t) as [<-|N]; [apply (H4 y j)|apply H4].
        * intros y tk'. simpl. unfold upd. destruct (Nat.eqb_spec y x) as [->|]; [|apply H5].
          intro Hin. apply in_app_or in Hin. destruct Hin as [Hin|[<-|[]]]; [apply H5; exact Hin|exact Hp0].
    - (* IShutdown *)
      injection Hx as <- <-. eexists; split; [reflexivity|]. apply (kstep w); auto; simpl; try congruence; try lia.
      + right; eexists; reflexivity.
      + intros x'. unfold upd. destruct (Nat.eqb x' x); auto.
    - (* ILatchAwait *)
      destruct t as [n|x i]; [destruct (intrs w n); [|destruct (latches w p); [|discriminate]]|destruct (latches w p); [|discriminate]];
        injection Hx as <- <-; dull Hi Hp.
    - (* ISelfInterrupt *)
      destruct t as [n|x i]; injection Hx as <- <-; dull Hi Hp.
    - discriminate Hx.
  Qed.

  (** ** The programs *)
  Definition nothing_open (t : tid) (g : token) : Prop := snd g = false.
  Notation JJ := (@J token kpre kpost nothing_open (fun _ g g' => g' = g)).
  Lemma krefl : forall (t : tid) (g : token), g = g. Proof. reflexivity. Qed.
  Lemma ktrans : forall (t : tid) (a b c : token), b = a -> c = b -> c = a. Proof. congruence. Qed.
  Definition kplain (i : instr) : bool :=
    match i with IQOffer _ _ _ _ _ | IExecute _ _ | IQEmpty _ | IQPoll _ => false | _ => true end.
  Lemma K_plain i : kplain i = true -> JJ (op i).
  Proof. intros H t g Hg. destruct i; try discriminate; simpl; (split; [exact Hg|]); intros v g' ->; auto. Qed.
  Lemma K_boring i : boring i = true -> JJ (op i).
  Proof. intro H. apply K_plain. destruct i; try discriminate; auto. Qed.

  Lemma K_default e m : JJ (default_process E (strat_of E m) e m).
  Proof.
    intros t g Hg. unfold default_process, queue_size.
    apply wp_bind, wp_bind, wp_op; [exact Hg|]. intros cc g' ->. apply wp_op; [exact Hg|]. intros n g' ->.
    destruct (andb _ _).
    { apply (J_call_ufl E kpre kpost nothing_open (fun _ g g' => g' = g) krefl ktrans K_boring _ _ t g Hg). }
    assert (Hfin : forall p e', wp kpre kpost t (op (IQOffer (s_queue (strat E (strat_of E m))) p e m e') ;;;
          ok <- op (IExecute (s_exec (strat E (strat_of E m))) {| tk_strat := strat_of E m; tk_mach := m |}) ;;
          if (ok : bool) then skip else Throw XRejected) (fun _ g' => g' = g /\ nothing_open t g') g).
    { intros p e'. apply wp_bind, wp_op; [exact Hg|]. intros _ g' ->.
      apply wp_bind, wp_op; [split; [split; reflexivity|intro H; exact H]|]. intros ok g' ->.
      destruct g as [b o]. unfold nothing_open in *. simpl in *. subst o. destruct ok; simpl; auto. }
    apply wp_bind. unfold pool_take. apply wp_bind, wp_op; [exact Hg|].
    assert (Hrest : forall p,
      wp kpre kpost t (py <- op (IGetPay e) ;;
        e' <- match py with
        | Some _ => nm <- op (IGetName e) ;; py' <- op (IGetPay e) ;; c <- op (INewCopy nm py') ;; op (ISetPair p c m) ;;; Ret c
        | None => op (ISetPair p e m) ;;; Ret e
        end ;;
        op (IQOffer (s_queue (strat E (strat_of E m))) p e m e') ;;;
        ok <- op (IExecute (s_exec (strat E (strat_of E m))) {| tk_strat := strat_of E m; tk_mach := m |}) ;;
        if (ok : bool) then skip else Throw XRejected)
        (fun _ g' => g' = g /\ nothing_open t g') g).
    { intros p. apply wp_bind, wp_op; [exact Hg|]. intros py g' ->. apply wp_bind. destruct py.
      - apply wp_bind, wp_op; [exact Hg|]. intros nm g' ->.
        apply wp_bind, wp_op; [exact Hg|]. intros py' g' ->.
        apply wp_bind, wp_op; [exact Hg|]. intros c' g' ->.
        apply wp_bind, wp_op; [exact Hg|]. intros _ g' ->. apply Hfin.
      - apply wp_bind, wp_op; [exact Hg|]. intros _ g' ->. apply Hfin. }
    intros [p|] g' ->; [apply Hrest|]. apply wp_op; [exact Hg|]. intros p g' ->. apply Hrest.
  Qed.
  Lemma K_process e m : JJ (process_event E (strat_of E m) e m).
  Proof.
    apply J_process_event; auto using K_boring, K_default, krefl; try exact krefl; try exact ktrans; intros; apply K_plain; reflexivity.
  Qed.
  Lemma K_interp_all u : JJ (interp E u).
  Proof.
    apply (J_interp E kpre kpost nothing_open (fun _ g g' => g' = g) krefl ktrans K_boring (fun _ => True)).
    - intros a _. apply Jret_J; try exact krefl; try exact ktrans; [|intro; apply K_plain; reflexivity].
      apply J_api; auto using K_boring, krefl, K_process; try exact krefl; try exact ktrans.
      + intros. apply J_update_current; auto using K_boring, krefl; try exact krefl; try exact ktrans; intros; apply K_plain; reflexivity.
      + intros. apply J_start; auto using K_boring, krefl, K_process; try exact krefl; try exact ktrans; intros; apply K_plain; reflexivity.
      + intros. apply J_start_in; auto using K_boring, krefl, K_process; try exact krefl; try exact ktrans; intros; apply K_plain; reflexivity.
      + intros i H. apply K_plain. destruct a; try discriminate; injection H as <-; reflexivity.
    - induction u; simpl; auto.
  Qed.
  Lemma K_exec k e m : JJ (execute E k e m).
  Proof.
    apply J_execute; auto using K_boring, krefl, K_process; try exact krefl; try exact ktrans.
    intros. apply J_update_current; auto using K_boring, krefl; try exact krefl; try exact ktrans; intros; apply K_plain; reflexivity.
  Qed.

  Definition idle2 : token := (false, false).
  Lemma wp_drain_token t tk b : (tq tk = false -> b = false) ->
    wp kpre kpost t (drain_iter E tk) (fun _ g' => g' = idle2) (b, false).
  Proof.
    intro Hb. unfold drain_iter. apply wp_bind, wp_op; [reflexivity|]. intros v g' Hv.
    assert (Hg : g' = (if andb (tq tk) v then false else b, false))
      by (rewrite Hv; unfold tq; simpl; destruct (andb _ _); reflexivity).
    subst g'. clear Hv. destruct v.
    { rewrite Bool.andb_true_r. simpl. destruct (tq tk); [reflexivity|]. rewrite Hb; reflexivity. }
    rewrite Bool.andb_false_r.
    apply wp_bind, wp_op; [reflexivity|]. intros v g' Hv.
    assert (Hg : g' = idle2).
    { rewrite Hv. change (Nat.eqb (s_queue (strat E (tk_strat tk))) q) with (tq tk). destruct (tq tk); [reflexivity|]. rewrite Hb; reflexivity. }
    subst g'. clear Hv. destruct v as [p|]; [|reflexivity].
    apply wp_bind, wp_then_res. apply wp_bind, wp_op; [reflexivity|]. intros c g' ->.
    assert (Hmark : forall r : res unit, wp kpre kpost t (op (IMark (ODone (s_queue (strat E (tk_strat tk))) p (thrown r))) ;;; of_res r)
       (fun r g' => match r with Ok _ => wp kpre kpost t (Ret true) (fun _ g' => g' = idle2) g' | Err _ => g' = idle2 end) idle2).
    { intro r. apply wp_bind, wp_op; [reflexivity|]. intros _ g' ->. destruct r; reflexivity. }
    destruct c as [[e m]|]; [|apply Hmark].
    apply wp_try_finally.
    eapply wp_mono with (Q := fun _ g' => g' = idle2).
    { intros r g' ->. apply wp_op; [reflexivity|]. intros _ g' ->. apply Hmark. }
    assert (H : JJ (try_catch
                    (en <- op (IGetEnded (tk_mach tk)) ;;
                     if (en : bool) then skip else execute E (tk_strat tk) e m)
                    (fun x => call_ufl E (s_ufl (strat E (tk_strat tk))) (KUflExn (s_ufl (strat E (tk_strat tk))) e m x)))).
    { apply J_try_catch; try exact krefl; try exact ktrans; [|intro; apply J_call_ufl; auto using krefl, K_boring; exact ktrans].
      apply J_bind; try exact krefl; try exact ktrans; [apply K_plain; reflexivity|]. intros [|]; [apply J_skip; exact krefl|apply K_exec]. }
    eapply wp_mono; [|apply (H t idle2 eq_refl)]. simpl. intros ? ? [-> _]. reflexivity.
  Qed.

  (** a worker takes a task *)
  Lemma ktake w gs x i tk r : kinv w gs -> gs (TWorker x i) = idle2 -> tasks w x = tk :: r ->
    kinv (set_tasks (upd (tasks w) x r) w) (gupd gs (TWorker x i) (tq tk, false)).
  Proof.
    intros Hk Hg Et. set (t := TWorker x i) in *. destruct Hk as [H1 H2 H3 H4 H5]. split.
    - destruct H1 as [H1|H1]; [left; exact H1|right]. simpl.
      assert (Hb : bounded (List.length (queues w q) + b2n (tq tk)) (cost w (gupd gs t (tq tk, false)))).
      { eapply (bounded_upd place_dec _ _ _ _ (inl t)); [| |exact H1].
        - intros [t'|x'] N; simpl; [|reflexivity]. rewrite gupd_neq by congruence. reflexivity.
        - simpl. rewrite gupd_eq, Hg. simpl. lia. }
      eapply (bounded_upd place_dec _ _ _ _ (inr x)); [| |exact Hb].
      + intros [t'|x'] N; simpl; [reflexivity|]. unfold upd. destruct (Nat.eqb_spec x' x); [congruence|reflexivity].
      + simpl. unfold upd. rewrite Nat.eqb_refl, Et. simpl. destruct (tq tk); simpl; lia.
    - intros Hs t'. unfold gupd. destruct (tid_eq_dec t' t) as [->|N]; [discriminate|]. apply (H2 Hs).
    - intros n. rewrite gupd_neq by (unfold t; congruence). apply H3.
    - intros y j. unfold gupd. destruct (tid_eq_dec (TWorker y j) t) as [Ey|N]; [|apply H4].
      injection Ey as -> ->. simpl. intro Hq.
      destruct (H5 x tk) as [Ha Hb]; [rewrite Et; left; reflexivity|].
      exists (tk_mach tk). unfold queue_of, exec_of. rewrite <- Ha. split; [symmetry; exact Hb|apply Nat.eqb_eq; exact Hq].
    - intros y tk'. simpl. unfold upd. destruct (Nat.eqb_spec y x) as [->|]; [|apply H5].
      intro Hin. apply H5. rewrite Et. right. exact Hin.
  Qed.

  (** without the marks, no ownership is needed *)
  Definition run_ok (t : tid) (g : token) (k : worker) : Prop :=
    match k with WIdle => g = idle2 | WRun _ p => wp kpre kpost t p (fun _ g' => g' = idle2) g end.
End Token.

Section Strict.
  Context (E : env) (q : qid).
  Notation kinv := (kinv E q true).
  Notation tq := (tq E q).
  Notation kpre := (kpre E q).
  Notation kpost := (kpost q).
  Notation cost := (cost E q).
  Definition tinv2 (w : mem) (gs : tid -> held * token) : Prop :=
    inv E w (fun t => fst (gs t)) /\ kinv w (fun t => snd (gs t)).
  Lemma tinv2_upd w gs t g' : inv E w (gupd (fun t => fst (gs t)) t (fst g')) -> kinv w (gupd (fun t => snd (gs t)) t (snd g')) ->
    tinv2 w (gupd gs t g').
  Proof.
    intros H1 H2. split; [eapply inv_ext; [|exact H1]|eapply kinv_ext; [|exact H2]];
      intro t'; unfold gupd; destruct (tid_eq_dec t' t); reflexivity.
  Qed.

  Definition Qi (g : held * token) : Prop := g = ([], idle2).
  Lemma wp_drain_both t tk b : (tq tk = false -> b = false) ->
    wp (pre12 (pre E) kpre) (post12 post kpost) t (drain_iter E tk) (fun _ g => Qi g) ([], (b, false)).
  Proof.
    intro Hb. eapply wp_mono; [|apply wp_pair; [apply wp_drain|apply (wp_drain_token E q); exact Hb]].
    intros r [g1 g2] [H1 H2]. simpl in *. subst. reflexivity.
  Qed.

  Lemma token_world w0 w : init_mem E w0 -> reach E w0 w ->
    exists gs, kinv (wm w) gs /\ forall x i, ww w x i = WIdle -> gs (TWorker x i) = idle2.
  Proof.
    intros H0 [sched ->].
    destruct (sound E (pre12 (pre E) kpre) (post12 post kpost) tinv2 (fun _ _ _ => True) (fun _ _ _ g => Qi g) (fun _ g => Qi g)) with
      (w := init_world E w0) (gs := fun _ : tid => (@nil (pid * (bool * content)), idle2)) (sched := sched) as [gs Hok].
    - intros w gs t i v w' [Hi Hk] [Hp1 Hp2] Hx.
      destruct (exec_own E w (fun t => fst (gs t)) t i v w' Hi Hp1 Hx) as (g1 & Hq1 & Hi').
      destruct (exec_token E q true w (fun t => fst (gs t)) (fun t => snd (gs t)) t i v w' (fun _ => conj Hi Hp1) Hk Hp2 Hx) as (g2 & Hq2 & Hk').
      exists (g1, g2). split; [split; assumption|]. apply tinv2_upd; assumption.
    - intros t [g1 g2] c h [_ Hn]. simpl in Hn.
      eapply wp_mono; [|apply wp_pair; [apply (J_interp_all E _ t g1 I)|apply (K_interp_all E q _ t g2 Hn)]].
      simpl. intros r [g1' g2'] [[E1 _] [E2 _]]. split; [exact E1|exact E2].
    - intros w gs x i tk r [Hi Hk] Hl Hg Et. exists ([], (tq tk, false)). split; [|apply wp_drain_both; auto].
      set (t := TWorker x i) in *. apply tinv2_upd.
      + simpl fst. replace (@nil (pid * (bool * content))) with (fst (gs t)) by (rewrite Hg; reflexivity).
        apply (inv_same E w); try reflexivity; auto. left. reflexivity.
      + apply (ktake E q true w (fun t => snd (gs t))); [exact Hk|fold t; cbv beta; rewrite Hg; reflexivity|exact Et].
    - intros w gs x i tk [Hi Hk] Hl Hg. exists (gs (TWorker x i)). split; [|rewrite Hg; apply wp_drain_both; auto].
      apply tinv2_upd; [eapply inv_ext; [|exact Hi]|eapply kinv_ext; [|exact Hk]]; intro t'; apply (gupd_id2 (fun t => _ (gs t))).
    - intros w gs x i tk [Hi Hk] Hl Hg. exists (gs (TWorker x i)). split; [|exact Hg].
      apply tinv2_upd; [eapply inv_ext; [|exact Hi]|eapply kinv_ext; [|exact Hk]]; intro t'; apply (gupd_id2 (fun t => _ (gs t))).
    - intros w gs x i tk e [Hi Hk] Hl Hg. exists (gs (TWorker x i)). split; [|exact Hg].
      apply tinv2_upd.
      + apply (inv_same E w _ (fun t => fst (gs t))); try reflexivity; auto. right; eexists _, _; split; [reflexivity|exact I].
      + apply (kstep0 E q true w _ (fun t => snd (gs t))); auto; [right; eexists; reflexivity|]. rewrite Hg. reflexivity.
    - destruct H0. split; [|split].
      + split; [split|split].
        * exists (fun _ => PFresh). simpl. split; simpl; intros; rewrite ?im_pools, ?im_queues, ?im_npair in *; simpl in *;
            try constructor; try easy; try lia.
        * intro q0. simpl. rewrite im_tr, im_queues. reflexivity.
        * intros t q0 p e m e' m'. simpl. rewrite im_tr. intros [].
        * intros t p. simpl. rewrite im_tr. simpl. split; [intros []|intros [c []]].
        * simpl. rewrite im_tr. constructor.
        * right. exists []. split; [constructor|]. split; [|simpl; rewrite im_queues; simpl; lia].
          intros [t|x] _; simpl; [reflexivity|rewrite im_tasks; reflexivity].
        * discriminate.
        * reflexivity.
        * discriminate.
        * intros x tk. simpl. rewrite im_tasks. intros [].
      + intro n. simpl. destruct (Nat.ltb n (n_clients E)); [|exact I].
        eapply wp_mono; [|apply wp_pair; [apply (J_interp_all E _ _ _ I)|apply K_interp_all; reflexivity]]. auto.
      + reflexivity.
    - destruct Hok as ([_ Hk] & _ & Hw). exists (fun t => snd (gs t)). split; [exact Hk|].
      intros x i Hid. specialize (Hw x i). rewrite Hid in Hw. unfold worker_ok, Qi in Hw. rewrite Hw. reflexivity.
  Qed.

  (** in a quiet world the queue is empty *)
  Lemma nothing_stranded w0 w : init_mem E w0 -> reach E w0 w ->
    (forall m i, queue_of E m = q -> ww w (exec_of E m) i = WIdle) ->
    (forall x tk, In tk (tasks (wm w) x) -> queue_of E (tk_mach tk) <> q) ->
    (forall t, ~ just_queued q t (tr (wm w))) ->
    (forall m, queue_of E m = q -> shut (wm w) (exec_of E m) = false) ->
    queues (wm w) q = [].
  Proof.
    intros H0 Hr Hid Htk Hjq Hsh. destruct (token_world w0 w H0 Hr) as (gs & [H1 H2 H3 H4 H5] & Hw).
    destruct H1 as [(k & Hk1 & Hk2)|H1]; [rewrite (Hsh k Hk1) in Hk2; discriminate|].
    apply length_zero_iff_nil. eapply bounded_zero; [|exact H1].
    intros [t|x]; simpl.
    - assert (Hs : snd (gs t) = false) by (destruct (snd (gs t)) eqn:Es; [destruct (Hjq t (H2 eq_refl t Es))|reflexivity]).
      rewrite Hs. destruct t as [n|x i]; [rewrite H3; reflexivity|].
      destruct (fst (gs (TWorker x i))) eqn:Eg; [|reflexivity]. destruct (H4 x i Eg) as (m & <- & Hm).
      rewrite (Hw _ _ (Hid m i Hm)) in Eg. discriminate.
    - apply length_zero_iff_nil. destruct (filter tq (tasks (wm w) x)) as [|tk l] eqn:Ef; [reflexivity|].
      assert (Hin : In tk (filter tq (tasks (wm w) x))) by (rewrite Ef; left; reflexivity).
      apply filter_In in Hin. destruct Hin as [Hin Hq]. destruct (Htk x tk Hin). destruct (H5 x tk Hin) as [Ha _].
      unfold queue_of. rewrite <- Ha. apply Nat.eqb_eq. exact Hq.
  Qed.
End Strict.

(** the tokens and the programs that hold them *)
Lemma token_programs E q w0 w : init_mem E w0 -> reach E w0 w ->
  exists gs, kinv E q false (wm w) gs /\
    (forall n, wp (kpre E q) (kpost q) (TClient n) (wc w n) (fun _ g => snd g = false) (gs (TClient n))) /\
    (forall x i, run_ok E q (TWorker x i) (gs (TWorker x i)) (ww w x i)).
Proof.
  intros H0 [sched ->].
  destruct (sound E (kpre E q) (kpost q) (kinv E q false) (fun _ _ g => snd g = false) (fun _ _ _ g => g = idle2) (fun _ g => g = idle2)) with
    (w := init_world E w0) (gs := fun _ : tid => idle2) (sched := sched) as [gs (H1 & H2 & H3)]; [| | | | | | |exists gs; auto].
  - intros w gs t i v w' Hk Hp Hx. eapply (exec_token E q false w (fun _ => [])); eauto. discriminate.
  - intros t g c h Hn. eapply wp_mono; [|apply (K_interp_all E q _ t g Hn)]. simpl. intros r g' [-> _]. reflexivity.
  - intros w gs x i tk r Hk Hl Hg Et. eexists. split; [apply (ktake E q false w gs x i tk r Hk Hg Et)|]. apply wp_drain_token. auto.
  - intros w gs x i tk Hk Hl Hg. exists (gs (TWorker x i)). split; [|rewrite Hg; apply wp_drain_token; auto].
    eapply kinv_ext; [|exact Hk]. apply gupd_id2.
  - intros w gs x i tk Hk Hl Hg. exists (gs (TWorker x i)). split; [|exact Hg]. eapply kinv_ext; [|exact Hk]. apply gupd_id2.
  - intros w gs x i tk e Hk Hl Hg. exists (gs (TWorker x i)). split; [|exact Hg].
    apply (kstep0 E q false w _ gs); auto; [right; eexists; reflexivity|]. rewrite Hg. reflexivity.
  - destruct H0. split; [|split].
    + split; [right| |reflexivity| |].
      * exists []. split; [constructor|]. split; [|simpl; rewrite im_queues; simpl; lia].
        intros [t|x] _; simpl; [reflexivity|rewrite im_tasks; reflexivity].
      * discriminate.
      * discriminate.
      * intros x tk. simpl. rewrite im_tasks. intros [].
    + intro n. simpl. destruct (Nat.ltb n (n_clients E)); [|reflexivity].
      eapply wp_mono; [|apply (K_interp_all E q); reflexivity]. intros r g [_ Hg]. exact Hg.
    + intros x i. reflexivity.
Qed.
