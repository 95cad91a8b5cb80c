(** * OfferProofs.v: what a thread did before it put an event into a queue
    (proofs for C26, C27) *)
From Verif Require Import ApiSpec Logic Neutral Own Lang Tree QueueProofs Truth.

Section Offer.
  Context (E : env).

  (** accesses of a thread on the way to the queue *)
  Definition small (o : obs) : Prop :=
    match o with ORd (RdLook _ _) | ORd (RdSize _ _ _) | ORd (RdIter _ _) => False | ORd _ | OWr _ => True | _ => False end.
  (** [g]: what the thread did so far; it is about to queue e' for e *)
  Definition offered (m : mid) (e e' : eid) (g : list obs) : Prop :=
    exists g0 c n mid, g = g0 ++ ORd (RdLook (queue_of E m) c) :: ORd (RdSize (queue_of E m) c n) :: mid /\ full E (strat_of E m) n = false /\ Forall small mid /\
      (e' = e \/ exists nm y, In (ORd (RdName e nm)) mid /\ In (OWr (WrCopy e' nm y)) mid) /\
      (s_drop (strat E (strat_of E m)) = true ->
         exists g1 c' nm scan, g0 = g1 ++ ORd (RdIter (queue_of E m) c') :: ORd (RdName e nm) :: scan /\ scanL nm (queue_of E m) (snd c') (fst c') (inr false) scan).

  Definition opre (t : tid) (g : list obs) (i : instr) : Prop :=
    match i with IQOffer q p e m e' => q = queue_of E m /\ offered m e e' g | _ => True end.
  Definition opost (t : tid) (g : list obs) (i : instr) (v : iret i) (g' : list obs) : Prop :=
    exists l, g' = g ++ l /\
      match i return iret i -> Prop with
      | IQLook q => fun v => l = [ORd (RdLook q v)]
      | IQSize q c => fun v => l = [ORd (RdSize q c v)]
      | IQIter q => fun v => l = [ORd (RdIter q v)]
      | IQNext q c => fun v => l = [ORd (RdNext q c v)]
      | IQRest q c => fun v => l = [ORd (RdRest q c v)]
      | IGetPair p => fun v => l = [ORd (RdPair p v)]
      | IGetName e => fun v => l = [ORd (RdName e v)]
      | INewCopy nm y => fun v => l = [OWr (WrCopy v nm y)]
      | IPoolPoll _ | INewPair | ISetPair _ _ _ | IGetPay _ => fun _ => Forall small l
      | _ => fun _ => True
      end v.

  Definition oinv (w : mem) (gs : tid -> list obs) : Prop :=
    (forall t, gs t = thread_obs t (tr w)) /\
    (forall h t q p e m e' m' r, tr w = h ++ (t, OOffer q p e m e' m') :: r ->
       q = queue_of E m /\ m' = m /\ offered m e e' (thread_obs t h)).

  Definition no_offer (o : obs) : Prop := match o with OOffer _ _ _ _ _ _ => False | _ => True end.
  Lemma oinv_same w w' gs t : tr w' = tr w -> oinv w gs -> oinv w' (gupd gs t (gs t ++ [])).
  Proof.
    intros He [H1 H2]. split; rewrite He; [|exact H2]. intro t'. unfold gupd. destruct (tid_eq_dec t' t) as [->|]; [rewrite app_nil_r|]; apply H1.
  Qed.
  Lemma oinv_ext w gs gs' : (forall t, gs t = gs' t) -> oinv w gs -> oinv w gs'.
  Proof. intros H [H1 H2]. split; [|exact H2]. intro t. rewrite <- H. apply H1. Qed.
  Lemma oinv_log w w' gs t o : tr w' = tr w ++ [(t, o)] ->
    match o with OOffer q _ e m e' m' => q = queue_of E m /\ m' = m /\ offered m e e' (gs t) | _ => True end ->
    oinv w gs -> oinv w' (gupd gs t (gs t ++ [o])).
  Proof.
    intros He Ho [H1 H2]. split; rewrite He.
    - intro t'. rewrite thread_obs_snoc. unfold gupd. destruct (tid_eq_dec t' t) as [->|N].
      + destruct (tid_eq_dec t t); [rewrite H1; reflexivity|congruence].
      + destruct (tid_eq_dec t t'); [congruence|apply H1].
    - intros h t' q p e m e' m' r Hs. apply snoc_split in Hs. destruct Hs as [(-> & <- & [= <- ->])|(r' & -> & Hs)].
      + rewrite <- H1. exact Ho.
      + eapply H2. exact Hs.
  Qed.

  Lemma small1 o : small o -> Forall small [o].
  Proof. intro H. constructor; [exact H|constructor]. Qed.
  Lemma exec_offer w gs1 gs t i v w' :
    inv E w gs1 -> pre E t (gs1 t) i -> oinv w gs -> opre t (gs t) i -> exec E w t i = Some (v, w') ->
    exists g', opost t (gs t) i v g' /\ oinv w' (gupd gs t g').
  Proof.
    intros Hown Hpre Hi Hp Hx.
    assert (Hlog : forall o : obs, no_offer o -> tr w' = tr w ++ [(t, o)] -> oinv w' (gupd gs t (gs t ++ [o]))).
    { intros o Hn He. apply (oinv_log w); [exact He| |exact Hi]. destruct o; auto; contradiction. }
    assert (Hsame : tr w' = tr w -> oinv w' (gupd gs t (gs t ++ []))).
    { intro He. apply (oinv_same w); auto. }
    Ltac fin Hlog Hsame := eexists; split; [exists []; split; [reflexivity|first [exact I|constructor]]|apply Hsame; reflexivity].
    Ltac finl Hlog := eexists; split; cycle 1; [apply Hlog; [|reflexivity]; exact I|eexists; split; [reflexivity|first [reflexivity|exact I|apply small1; exact I]]].
    destruct i; cbn [exec] in Hx; cbn [opost opre] in *;
      try (injection Hx as <- <-; first [finl Hlog|fin Hlog Hsame]);
      try (match type of Hx with (if ?b then _ else _) = _ => destruct b eqn:?; injection Hx as <- <-; finl Hlog end);
      try (match type of Hx with (match ?l with nil => _ | cons _ _ => _ end) = _ => destruct l; injection Hx as <- <-; first [finl Hlog|fin Hlog Hsame] end).
    - destruct (m_ended _); injection Hx as <- <-; [finl Hlog|]. destruct b; finl Hlog.
    - destruct (cfg_step _ _ _ _ _) as [c' r]. injection Hx as <- <-. finl Hlog.
    - destruct Hpre as (g0 & Hg & Hq). destruct Hp as [Hq' Hp].
      assert (HP : pairs w p = Some (e', m)).
      { destruct Hown as [[loc Hl] _ _ _ _]. eapply (il_cont _ _ _ Hl t); rewrite Hg; left; reflexivity. }
      rewrite HP in Hx. injection Hx as <- <-.
      eexists; split; [eexists; split; [reflexivity|exact I]|]. apply (oinv_log w); [reflexivity| |exact Hi]. simpl. auto.
    - destruct t as [n|x i]; [destruct (intrs w n); [|destruct (latches w p); [|discriminate]]|destruct (latches w p); [|discriminate]];
        injection Hx as <- <-; finl Hlog.
    - destruct t as [n|x i]; injection Hx as <- <-; finl Hlog.
    - discriminate Hx.
    - injection Hx as <- <-. eexists; split; [eexists; split; [reflexivity|exact I]|]. apply Hlog; [|reflexivity].
      destruct o; try exact I. exact Hpre.
  Qed.

  (** ** The programs *)
  Definition anyg (t : tid) (g : list obs) : Prop := True.
  Definition anyr (t : tid) (g g' : list obs) : Prop := True.
  Notation JJ := (@J (list obs) opre opost anyg anyr).
  Lemma orefl : forall t g, anyr t g g. Proof. exact (fun _ _ => I). Qed.
  Lemma otrans : forall t a b c, anyr t a b -> anyr t b c -> anyr t a c. Proof. exact (fun _ _ _ _ _ _ => I). Qed.
  Lemma O_plain i : match i with IQOffer _ _ _ _ _ => False | _ => True end -> JJ (op i).
  Proof. intros H t g _. destruct i; try contradiction; simpl; (split; [exact I|]); intros; split; exact I. Qed.
  Lemma O_boring i : boring i = true -> JJ (op i).
  Proof. intro H. apply O_plain. destruct i; try discriminate; exact I. Qed.

  Lemma wp_any {A : Set} t (p : prog A) g : JJ p -> wp opre opost t p (fun _ _ => True) g.
  Proof. intro H. eapply wp_mono; [|apply (H t g I)]. auto. Qed.

  Lemma small_app mid l : Forall small mid -> Forall small l -> Forall small (mid ++ l).
  Proof. intros. apply Forall_app. auto. Qed.

  Lemma O_default e m t g0 :
    (s_drop (strat E (strat_of E m)) = true ->
         exists g1 c' nm scan, g0 = g1 ++ ORd (RdIter (queue_of E m) c') :: ORd (RdName e nm) :: scan /\ scanL nm (queue_of E m) (snd c') (fst c') (inr false) scan) ->
    wp opre opost t (default_process E (strat_of E m) e m) (fun _ _ => True) g0.
  Proof.
    intros Hdrop. unfold default_process.
    unfold queue_size. apply wp_bind, wp_bind, wp_op; [exact I|]. intros c g' (l & -> & ->).
    apply wp_op; [exact I|]. intros n g' (l & -> & ->). rewrite <- app_assoc. cbn [List.app].
    fold (full E (strat_of E m) n). destruct (full E (strat_of E m) n) eqn:Hf.
    { apply wp_any. apply J_call_ufl; auto using O_boring, orefl; exact otrans. }
    assert (Hfin : forall p e' mid, Forall small mid ->
          (e' = e \/ exists nm y, In (ORd (RdName e nm)) mid /\ In (OWr (WrCopy e' nm y)) mid) ->
          wp opre opost t (op (IQOffer (s_queue (strat E (strat_of E m))) p e m e') ;;;
          ok <- op (IExecute (s_exec (strat E (strat_of E m))) {| tk_strat := strat_of E m; tk_mach := m |}) ;;
          if (ok : bool) then skip else Throw XRejected) (fun _ _ => True) (g0 ++ ORd (RdLook (queue_of E m) c) :: ORd (RdSize (queue_of E m) c n) :: mid)).
    { intros p e' mid Hm He. apply wp_bind, wp_op.
      - split; [reflexivity|]. exists g0, c, n, mid. auto.
      - intros _ g' _. apply wp_bind, wp_op; [exact I|]. intros ok g'' _. destruct ok; exact I. }
    assert (Hrest : forall p mid, Forall small mid ->
      wp opre opost t (py <- op (IGetPay e) ;;
        e' <- match py with
        | Some _ => nm <- op (IGetName e) ;; py' <- op (IGetPay e) ;; c <- op (INewCopy nm py') ;; op (ISetPair p c m) ;;; Ret c
        | None => op (ISetPair p e m) ;;; Ret e
        end ;;
        op (IQOffer (s_queue (strat E (strat_of E m))) p e m e') ;;;
        ok <- op (IExecute (s_exec (strat E (strat_of E m))) {| tk_strat := strat_of E m; tk_mach := m |}) ;;
        if (ok : bool) then skip else Throw XRejected)
        (fun _ _ => True) (g0 ++ ORd (RdLook (queue_of E m) c) :: ORd (RdSize (queue_of E m) c n) :: mid)).
    { intros p mid Hm.
      apply wp_bind, wp_op; [exact I|]. intros py g' (l & -> & Hl). rewrite <- app_assoc. simpl.
      apply wp_bind. destruct py.
      - apply wp_bind, wp_op; [exact I|]. intros nm g' (l1 & -> & ->).
        apply wp_bind, wp_op; [exact I|]. intros py' g' (l2 & -> & Hl2).
        apply wp_bind, wp_op; [exact I|]. intros cp g' (l3 & -> & ->).
        apply wp_bind, wp_op; [exact I|]. intros _ g' (l4 & -> & Hl4). simpl. rewrite <- !app_assoc. simpl. rewrite <- !app_assoc.
        apply Hfin.
        + repeat (apply small_app; auto). constructor; [exact I|]. apply small_app; auto. constructor; [exact I|]. exact Hl4.
        + right. exists nm, py'. rewrite !in_app_iff. simpl. rewrite !in_app_iff. simpl. tauto.
      - apply wp_bind, wp_op; [exact I|]. intros _ g' (l1 & -> & Hl1). simpl. rewrite <- !app_assoc. simpl. rewrite <- !app_assoc.
        apply Hfin; [repeat (apply small_app; auto)|left; reflexivity]. }
    apply wp_bind. unfold pool_take. apply wp_bind, wp_op; [exact I|]. intros [p|] g' (l & -> & Hl).
    - simpl wp. rewrite <- app_assoc. apply Hrest. exact Hl.
    - apply wp_op; [exact I|]. intros p g' (l1 & -> & Hl1). rewrite <- !app_assoc. apply Hrest.
      apply small_app; auto.
  Qed.
  Lemma O_match nm ps t g : wp opre opost t (any_match nm ps) (fun r g' =>
    exists out, g' = g ++ out /\ (r = Ok false -> matchL nm ps (inr false) out)) g.
  Proof.
    revert g. induction ps as [|p r IH]; intro g.
    - simpl. exists []. rewrite app_nil_r. split; [reflexivity|]. constructor.
    - simpl any_match. apply wp_bind. unfold same_event. apply wp_bind, wp_op; [exact I|]. intros v g' (l & -> & ->).
      destruct v as [[e' m']|]; [|simpl; eexists; split; [reflexivity|discriminate]].
      apply wp_bind, wp_op; [exact I|]. intros nm' g' (l & -> & ->).
      simpl wp. destruct (String.eqb_spec nm' nm) as [->|N].
      + simpl. rewrite <- app_assoc. eexists. split; [reflexivity|discriminate].
      + eapply wp_mono; [|apply IH]. intros y g' (out & -> & Hm). rewrite <- !app_assoc. eexists. split; [reflexivity|].
        intro Hy. simpl. constructor; auto.
  Qed.
  Lemma O_next nm q f c t g : wp opre opost t (any_next nm q f c) (fun r g' =>
    exists out, g' = g ++ out /\ (r = Ok false -> scanL nm q f c (inr false) out)) g.
  Proof.
    revert c g. induction f as [|f IH]; intros c g; simpl any_next.
    - apply wp_bind, wp_op; [exact I|]. intros ps g' (l & -> & ->).
      eapply wp_mono; [|apply O_match]. intros y g' (out & -> & Hm). rewrite <- app_assoc. eexists. split; [reflexivity|].
      intro Hy. simpl. constructor. auto.
    - apply wp_bind, wp_op; [exact I|]. intros v g' (l & -> & ->). destruct v as [[[p c'] fin]|].
      2:{ simpl. eexists. split; [reflexivity|]. constructor. }
      apply wp_bind. unfold same_event. apply wp_bind, wp_op; [exact I|]. intros v g' (l & -> & ->).
      destruct v as [[e' m']|]; [|simpl; rewrite <- app_assoc; eexists; split; [reflexivity|discriminate]].
      apply wp_bind, wp_op; [exact I|]. intros nm' g' (l & -> & ->).
      simpl wp. destruct (String.eqb_spec nm' nm) as [->|N].
      + simpl. rewrite <- !app_assoc. eexists. split; [reflexivity|discriminate].
      + destruct fin.
        * simpl. rewrite <- !app_assoc. eexists. split; [reflexivity|]. intros _. simpl. constructor. exact N.
        * eapply wp_mono; [|apply IH]. intros y g' (out & -> & Hm). rewrite <- !app_assoc. eexists. split; [reflexivity|].
          intro Hy. simpl. constructor; auto.
  Qed.
  Lemma O_process e m : JJ (process_event E (strat_of E m) e m).
  Proof.
    intros t g _. eapply wp_mono with (Q := fun _ _ => True); [intros; split; exact I|]. unfold process_event.
    destruct (s_drop (strat E (strat_of E m))) eqn:Hd; [|apply O_default; congruence].
    apply wp_bind, wp_op; [exact I|]. intros ps g' (l & -> & ->).
    apply wp_bind, wp_op; [exact I|]. intros nm g' (l & -> & ->).
    apply wp_bind. eapply wp_mono; [|apply O_next]. intros [dup|x] g' (out & -> & Hm); [|exact I].
    destruct dup; [apply wp_any, J_log_line; auto using orefl, O_boring; exact otrans|].
    apply O_default. intros _. exists g, ps, nm, out. split; [|auto]. rewrite <- !app_assoc. reflexivity.
  Qed.
  Lemma O_interp_all u : JJ (interp E u).
  Proof.
    apply (J_interp E opre opost anyg anyr orefl otrans O_boring (fun _ => True)).
    - intros a _. apply Jret_J; try exact orefl; try exact otrans; [|intro; apply O_plain; exact I].
      apply J_api; auto using O_boring, orefl, O_process; try exact orefl; try exact otrans.
      + intros. apply J_update_current; auto using O_boring, orefl; try exact orefl; try exact otrans; intros; apply O_plain; exact I.
      + intros. apply J_start; auto using O_boring, orefl, O_process; try exact orefl; try exact otrans; intros; apply O_plain; exact I.
      + intros. apply J_start_in; auto using O_boring, orefl, O_process; try exact orefl; try exact otrans; intros; apply O_plain; exact I.
      + intros i H. apply O_plain. destruct a; try discriminate; injection H as <-; exact I.
    - induction u; simpl; auto.
  Qed.
  Lemma O_exec k e m : JJ (execute E k e m).
  Proof.
    apply J_execute; auto using O_boring, orefl, O_process; try exact orefl; try exact otrans.
    intros. apply J_update_current; auto using O_boring, orefl; try exact orefl; try exact otrans; intros; apply O_plain; exact I.
  Qed.
  Lemma O_drain tk : JJ (drain_iter E tk).
  Proof.
    unfold drain_iter.
    assert (B : forall {A B : Set} (p : prog A) (f : A -> prog B), JJ p -> (forall a, JJ (f a)) -> JJ (bind p f))
      by (intros; apply J_bind; auto using orefl; exact otrans).
    apply B; [apply O_plain; exact I|]. intros [|]; [apply J_ret; exact orefl|].
    apply B; [apply O_plain; exact I|]. intros [p|]; [|apply J_throw; exact orefl].
    apply B; [|intros; apply J_ret; exact orefl]. apply J_then_res; try exact orefl; try exact otrans.
    - apply B; [apply O_plain; exact I|]. intros [[e m]|]; [|apply J_throw; exact orefl].
      apply J_try_finally; try exact orefl; try exact otrans; [|apply O_plain; exact I].
      apply J_try_catch; try exact orefl; try exact otrans; [|intro; apply J_call_ufl; auto using orefl, O_boring; exact otrans].
      apply B; [apply O_plain; exact I|]. intros [|]; [apply J_skip; exact orefl|apply O_exec].
    - intros r. apply B; [apply O_plain; exact I|]. intros _. apply J_of_res; exact orefl.
  Qed.

  Definition oinv2 (w : mem) (gs : tid -> held * list obs) : Prop :=
    inv E w (fun t => fst (gs t)) /\ oinv w (fun t => snd (gs t)).
  Lemma oinv2_upd w gs t g' : inv E w (gupd (fun t => fst (gs t)) t (fst g')) -> oinv w (gupd (fun t => snd (gs t)) t (snd g')) ->
    oinv2 w (gupd gs t g').
  Proof.
    intros H1 H2. split; [eapply inv_ext; [|exact H1]|eapply oinv_ext; [|exact H2]];
      intro t'; unfold gupd; destruct (tid_eq_dec t' t); reflexivity.
  Qed.
  Lemma O_drain_both t tk g : fst g = [] ->
    wp (pre12 (pre E) opre) (post12 post opost) t (drain_iter E tk) (fun _ g => fst g = []) g.
  Proof.
    intro Hb. destruct g as [g1 g2]. simpl in Hb. subst g1. eapply wp_mono; [|apply wp_pair; [apply wp_drain|apply (O_drain tk t g2 I)]].
    intros r [g1' g2'] [H1 H2]. exact H1.
  Qed.

  (** what precedes every OOffer *)
  Theorem offer_past w0 w : init_mem E w0 -> reach E w0 w ->
    forall h t q p e m e' m' r, tr (wm w) = h ++ (t, OOffer q p e m e' m') :: r ->
       q = queue_of E m /\ m' = m /\ offered m e e' (thread_obs t h).
  Proof.
    intros H0 [sched ->].
    destruct (sound E (pre12 (pre E) opre) (post12 post opost) oinv2 (fun _ _ _ => True) (fun _ _ _ g => fst g = []) (fun _ g => fst g = [])) with
      (w := init_world E w0) (gs := fun _ : tid => (@nil (pid * (bool * content)), @nil obs)) (sched := sched) as [gs Hok].
    - intros w gs t i v w' [Hi Hk] [Hp1 Hp2] Hx.
      destruct (exec_own E w (fun t => fst (gs t)) t i v w' Hi Hp1 Hx) as (g1 & Hq1 & Hi').
      destruct (exec_offer w (fun t => fst (gs t)) (fun t => snd (gs t)) t i v w' Hi Hp1 Hk Hp2 Hx) as (g2 & Hq2 & Hk').
      exists (g1, g2). split; [split; assumption|]. apply oinv2_upd; assumption.
    - intros t [g1 g2] c h [_ Hn].
      (* the ghost of a call: everything the thread did in it *)
      assert (Hext : forall (A : Set) (p : prog A) g, wp opre opost t p (fun _ _ => True) g -> wp opre opost t p (fun _ g' => exists l, g' = g ++ l) g).
      { clear. intros A p. induction p as [a|x|i k IH]; simpl; intros g H; [exists []; rewrite app_nil_r; reflexivity..|].
        destruct H as [H1 H2]. split; [exact H1|]. intros v g' Hg'. eapply wp_mono; [|apply IH, (H2 v g' Hg')].
        intros r g'' [l ->]. destruct Hg' as (l' & -> & _). exists (l' ++ l). rewrite app_assoc. reflexivity. }
      eapply wp_mono; [|apply wp_pair; [apply (J_interp_all E _ t g1 I)|apply Hext, wp_any, O_interp_all]].
      simpl. intros r [g1' g2'] [[E1 _] [l E2]]. simpl in *. split; [exact E1|]. exists l. auto.
    - intros w gs x i tk r [Hi Hk] Hl Hg Et. exists (gs (TWorker x i)). split; [|apply O_drain_both; auto].
      apply oinv2_upd.
      + apply (inv_same E w _ (fun t => fst (gs t))); try reflexivity; auto. left. reflexivity.
      + eapply oinv_ext; [|apply (oinv_same w _ (fun t => snd (gs t)) (TWorker x i)); [reflexivity|exact Hk]].
        intro t'. rewrite app_nil_r. reflexivity.
    - intros w gs x i tk [Hi Hk] Hl Hg. exists (gs (TWorker x i)). split; [|apply O_drain_both; auto].
      apply oinv2_upd; [eapply inv_ext; [|exact Hi]|eapply oinv_ext; [|exact Hk]]; intro t'; unfold gupd; destruct (tid_eq_dec t' (TWorker x i)); congruence.
    - intros w gs x i tk [Hi Hk] Hl Hg. exists (gs (TWorker x i)). split; [|exact Hg].
      apply oinv2_upd; [eapply inv_ext; [|exact Hi]|eapply oinv_ext; [|exact Hk]]; intro t'; unfold gupd; destruct (tid_eq_dec t' (TWorker x i)); congruence.
    - intros w gs x i tk e [Hi Hk] Hl Hg. exists (fst (gs (TWorker x i)), snd (gs (TWorker x i)) ++ [OUncaught tk e]). split; [|exact Hg].
      apply oinv2_upd.
      + apply (inv_same E w _ (fun t => fst (gs t))); try reflexivity; auto. right; eexists _, _; split; [reflexivity|exact I].
      + simpl snd. apply (oinv_log w _ (fun t => snd (gs t))); auto.
    - destruct H0. split; [|split].
      + split; [split|split].
        * exists (fun _ => PFresh). simpl. split; simpl; intros; rewrite ?im_pools, ?im_queues, ?im_npair in *; simpl in *;
            try constructor; try easy; try lia.
        * intro q0. simpl. rewrite im_tr, im_queues. reflexivity.
        * intros t q0 p e m e' m'. simpl. rewrite im_tr. intros [].
        * intros t p. simpl. rewrite im_tr. simpl. split; [intros []|intros [c []]].
        * simpl. rewrite im_tr. constructor.
        * simpl. rewrite im_tr. reflexivity.
        * simpl. rewrite im_tr. intros h; destruct h; discriminate.
      + intro n. simpl. destruct (Nat.ltb n (n_clients E)); [|exact I].
        eapply wp_mono; [|apply wp_pair; [apply (J_interp_all E _ _ _ I)|apply wp_any, O_interp_all]]. auto.
      + reflexivity.
    - destruct Hok as ([_ Hk] & _). apply Hk.
  Qed.
End Offer.
