(** * Chain.v: pair objects pass from hand to hand (proofs for C62) *)
From Verif Require Import Spec Logic Neutral Own Hands HbSpec MemInv.

(** ** where a pair object is, read off the history *)
Definition place_step (p : pid) (pl : place) (to : tid * obs) : place :=
  match snd to with
  | OWr (WrGot p') | OTake _ p' _ => if Nat.eqb p' p then PHeld (fst to) else pl
  | OOffer q p' _ _ _ _ => if Nat.eqb p' p then PQueue q else pl
  | OWr (WrGive l p') => if Nat.eqb p' p then PPool l else pl
  | _ => pl
  end.
Definition place_of (p : pid) (h : trace) : place := fold_left (place_step p) h PFresh.
Lemma place_snoc p h to : place_of p (h ++ [to]) = place_step p (place_of p h) to.
Proof. unfold place_of. rewrite fold_left_app. reflexivity. Qed.

(** what may happen to a pair object, given where it is *)
Definition lawful (h : trace) (t : tid) (o : obs) : Prop :=
  match o with
  | OWr (WrGot p) => place_of p h = PFresh \/ exists l, place_of p h = PPool l
  | OWr (WrPair p _ _) | OWr (WrGive _ p) | OOffer _ p _ _ _ _ => place_of p h = PHeld t
  | OTake q p _ => place_of p h = PQueue q
  | _ => True
  end.

Section Chain.
  Context (E : env).
  Record chain_ok (w : mem) (gs : tid -> held) : Prop := {
    ch_at : forall p, match place_of p (tr w) with
                      | PFresh => npair w <= p
                      | PPool l => In p (pools w l)
                      | PQueue q => In p (queues w q)
                      | PHeld t => In p (map fst (gs t))
                      end;
    ch_law : forall h t o r, tr w = h ++ (t, o) :: r -> lawful h t o }.

  Lemma chain_loc w gs loc p : inv_loc w gs loc -> chain_ok w gs -> loc p = place_of p (tr w).
  Proof.
    intros [H1 H2 H3 H4 _ _ _ _ _] [Hp _]. specialize (Hp p). destruct (place_of p (tr w)).
    - apply H1, Hp.
    - apply H2, Hp.
    - apply H3, Hp.
    - apply H4, Hp.
  Qed.

  Lemma law_snoc w w' gs t o : chain_ok w gs -> tr w' = tr w ++ [(t, o)] -> lawful (tr w) t o ->
    forall h t' o' r, tr w' = h ++ (t', o') :: r -> lawful h t' o'.
  Proof.
    intros [_ Hl] He Ho h t' o' r Hs. rewrite He in Hs. apply snoc_cases in Hs.
    destruct Hs as [(-> & <- & Hx)|(l3 & -> & Hx)]; [|eauto]. injection Hx as <- <-. exact Ho.
  Qed.

  Lemma chain_calm w w' gs gs' : (forall t, gs' t = gs t) ->
    npair w' = npair w -> pools w' = pools w -> queues w' = queues w ->
    tr w' = tr w \/ (exists t o, tr w' = tr w ++ [(t, o)] /\ calm o) -> chain_ok w gs -> chain_ok w' gs'.
  Proof.
    intros Hg E1 E2 E3 [He|(t & o & He & Ho)] Hc; split.
    - destruct Hc as [Hp _]. intro p. specialize (Hp p). rewrite He, ?E1, ?E2, ?E3. destruct (place_of p (tr w)); rewrite ?E2, ?E3, ?Hg; auto.
    - rewrite He. apply Hc.
    - destruct Hc as [Hp _]. intro p. specialize (Hp p). rewrite He, place_snoc, E1.
      assert (Hs : place_step p (place_of p (tr w)) (t, o) = place_of p (tr w)).
      { unfold place_step. simpl. destruct o; try reflexivity; try contradiction.
        match goal with x : wr |- _ => destruct x; try reflexivity; contradiction end. }
      rewrite Hs. destruct (place_of p (tr w)); rewrite ?E2, ?E3, ?Hg; auto.
    - eapply law_snoc; eauto. destruct o; try exact I; try contradiction.
      match goal with x : wr |- _ => destruct x; try exact I; contradiction end.
  Qed.

  (** [p] goes from place [a] to place [b]; nothing else moves *)
  Lemma chain_move w w' gs gs' t o p a b loc : inv_loc w gs loc -> chain_ok w gs ->
    tr w' = tr w ++ [(t, o)] -> loc p = a -> (place_of p (tr w) = a -> lawful (tr w) t o) ->
    (forall p' pl, place_step p' pl (t, o) = if Nat.eqb p p' then b else pl) ->
    match b with PFresh => False | PPool l => In p (pools w' l) | PQueue q => In p (queues w' q) | PHeld t => In p (map fst (gs' t)) end ->
    (forall p', p' <> p -> npair w <= p' -> npair w' <= p') ->
    (forall p' l, p' <> p -> In p' (pools w l) -> In p' (pools w' l)) ->
    (forall p' q, p' <> p -> In p' (queues w q) -> In p' (queues w' q)) ->
    (forall p' t, p' <> p -> In p' (map fst (gs t)) -> In p' (map fst (gs' t))) ->
    chain_ok w' gs'.
  Proof.
    intros Hi Hc He Ha Hl Hs Hb K1 K2 K3 K4. pose proof (chain_loc _ _ _ p Hi Hc) as Hlp.
    split; [|eapply law_snoc; eauto; apply Hl; congruence].
    intro p'. rewrite He, place_snoc, Hs. destruct (Nat.eqb_spec p p') as [<-|N].
    - destruct b; auto. contradiction.
    - destruct Hc as [Hp _]. specialize (Hp p'). destruct (place_of p' (tr w)); auto.
  Qed.

  Lemma exec_chain w gs t i v w' g' : inv E w gs -> chain_ok w gs -> pre E t (gs t) i -> exec E w t i = Some (v, w') ->
    post t (gs t) i v g' -> chain_ok w' (gupd gs t g').
  Proof.
    intros Hi Hh Hp Hx Hpost.
    destruct Hi as [[loc Hloc] _ _ _ _]. pose proof Hloc as [H1 H2 H3 H4 H5 H6 H7 H8 H9].
    assert (Hsame : g' = gs t -> npair w' = npair w -> pools w' = pools w -> queues w' = queues w ->
              tr w' = tr w \/ (exists t o, tr w' = tr w ++ [(t, o)] /\ calm o) -> chain_ok w' (gupd gs t g')).
    { intros -> E1 E2 E3 Ht. eapply chain_calm; [apply gupd_id|exact E1|exact E2|exact E3|exact Ht|exact Hh]. }
    assert (Hgs : forall p0 g0, (forall p', p' <> p0 -> In p' (map fst (gs t)) -> In p' (map fst g0)) ->
              forall p' t', p' <> p0 -> In p' (map fst (gs t')) -> In p' (map fst (gupd gs t g0 t'))).
    { intros p0 g0 H p' t' Hn Hin. unfold gupd. destruct (tid_eq_dec t' t) as [->|]; auto. }
    assert (Hown : forall g0, gupd gs t g0 t = g0) by (intro; unfold gupd; destruct (tid_eq_dec t t); congruence).
    destruct i; simpl in Hx, Hpost;
      try (repeat match type of Hx with
             | (if ?b then _ else _) = _ => destruct b
             | match ?b with _ => _ end = _ => destruct b eqn:?
             end; try discriminate; injection Hx as <- <-;
           (apply Hsame; [exact Hpost|reflexivity|reflexivity|reflexivity|]);
           solve [left; reflexivity|right; eexists _, _; split; [reflexivity|exact I]]).
    - (* ICasEnded *)
      destruct (m_ended (machs w m)); [|destruct b]; injection Hx as <- <-; (apply Hsame; [exact Hpost|reflexivity..|]); right; eexists _, _; (split; [reflexivity|exact I]).
    - (* INewPair *)
      injection Hx as <- <-. subst g'. eapply (chain_move w _ gs _ t _ (npair w) PFresh (PHeld t)); [exact Hloc|exact Hh|reflexivity|..].
      + apply H1. lia.
      + simpl. auto.
      + intros p' pl. reflexivity.
      + rewrite Hown. left. reflexivity.
      + simpl. lia.
      + auto.
      + auto.
      + apply Hgs. intros. right. assumption.
    - (* ISetPair *)
      injection Hx as <- <-. subst g'. destruct Hp as (c0 & g0 & Hg).
      assert (Hpl : place_of p (tr w) = PHeld t).
      { rewrite <- (chain_loc _ _ _ p Hloc Hh). apply H4. rewrite Hg. left. reflexivity. }
      split; [|eapply law_snoc; [exact Hh|reflexivity|exact Hpl]].
      intro p'. simpl. rewrite place_snoc. simpl. destruct Hh as [Hat _]. specialize (Hat p').
      unfold place_step. simpl. destruct (place_of p' (tr w)); auto. unfold gupd. destruct (tid_eq_dec t0 t) as [->|]; [|exact Hat].
      rewrite Hg in Hat |- *. exact Hat.
    - (* IGetPair *)
      injection Hx as <- <-. apply Hsame; [apply Hpost|reflexivity..|]. right. eexists _, _. split; [reflexivity|exact I].
    - (* IPoolPoll *)
      destruct (pools w l) as [|p r] eqn:El; injection Hx as <- <-.
      { apply Hsame; [exact Hpost|reflexivity..|]. left. reflexivity. }
      destruct Hpost as [c ->].
      eapply (chain_move w _ gs _ t _ p (PPool l) (PHeld t)); [exact Hloc|exact Hh|reflexivity|..].
      + apply H2. rewrite El. left. reflexivity.
      + simpl. eauto.
      + intros p' pl. reflexivity.
      + rewrite Hown. left. reflexivity.
      + auto.
      + simpl. intros p' l' Hn Hin. unfold upd. destruct (Nat.eqb_spec l' l) as [->|]; [|exact Hin]. rewrite El in Hin. destruct Hin as [->|]; [congruence|assumption].
      + auto.
      + apply Hgs. intros. right. assumption.
    - (* IPoolOffer *)
      injection Hx as <- <-. destruct Hp as (c0 & g0 & Hg). subst g'. 
      eapply (chain_move w _ gs _ t _ p (PHeld t) (PPool l)); [exact Hloc|exact Hh|reflexivity|..].
      + apply H4. rewrite Hg. left. reflexivity.
      + simpl. auto.
      + intros p' pl. reflexivity.
      + simpl. unfold upd. rewrite Nat.eqb_refl. apply in_or_app. right. left. reflexivity.
      + auto.
      + simpl. intros p' l' Hn Hin. unfold upd. destruct (Nat.eqb_spec l' l) as [->|]; [|exact Hin]. apply in_or_app. auto.
      + auto.
      + apply Hgs. intros p' Hn. rewrite Hg. simpl. intros [->|]; congruence.
    - (* IQOffer *)
      destruct Hp as (g0 & Hg & Hq).
      assert (HP : pairs w p = Some (e', m)) by (eapply H8; rewrite Hg; left; reflexivity).
      rewrite HP in Hx. injection Hx as <- <-. subst g'.
      eapply (chain_move w _ gs _ t _ p (PHeld t) (PQueue q)); [exact Hloc|exact Hh|reflexivity|..].
      + apply H4. rewrite Hg. left. reflexivity.
      + simpl. auto.
      + intros p' pl. reflexivity.
      + simpl. unfold upd. rewrite Nat.eqb_refl. apply in_or_app. right. left. reflexivity.
      + auto.
      + auto.
      + simpl. intros p' l' Hn Hin. unfold upd. destruct (Nat.eqb_spec l' q) as [->|]; [|exact Hin]. apply in_or_app. auto.
      + apply Hgs. intros p' Hn. rewrite Hg. simpl. intros [->|]; congruence.
    - (* IQPoll *)
      destruct (queues w q) as [|p r] eqn:El; injection Hx as <- <-.
      { apply Hsame; [exact Hpost|reflexivity..|]. left. reflexivity. }
      destruct Hpost as [c ->].
      eapply (chain_move w _ gs _ t _ p (PQueue q) (PHeld t)); [exact Hloc|exact Hh|reflexivity|..].
      + apply H3. rewrite El. left. reflexivity.
      + simpl. eauto.
      + intros p' pl. reflexivity.
      + rewrite Hown. left. reflexivity.
      + auto.
      + auto.
      + simpl. intros p' l' Hn Hin. unfold upd. destruct (Nat.eqb_spec l' q) as [->|]; [|exact Hin]. rewrite El in Hin. destruct Hin as [->|]; [congruence|assumption].
      + apply Hgs. intros. right. assumption.
    - (* IMark *)
      injection Hx as <- <-. apply Hsame; [exact Hpost|reflexivity..|]. right. exists t, o. split; [reflexivity|].
      destruct o; simpl in *; auto; contradiction.
  Qed.

  Theorem own_chain w0 w : init_mem E w0 -> reach E w0 w ->
    forall h t o r, tr (wm w) = h ++ (t, o) :: r -> lawful h t o.
  Proof.
    intros H0 [sched ->].
    destruct (sound E (pre E) post (fun w gs => inv E w gs /\ chain_ok w gs) (fun _ _ _ => True) (fun _ _ _ g => g = []) (fun _ g => g = [])) with
      (w := init_world E w0) (gs := fun _ : tid => @nil (pid * (bool * content))) (sched := sched) as [gs Hok].
    - intros w gs t i v w' [Hi Hh] Hp Hx. destruct (exec_own E _ _ _ _ _ _ Hi Hp Hx) as (g' & Hpost & Hi').
      exists g'. split; [exact Hpost|]. split; [exact Hi'|]. eapply exec_chain; eauto.
    - intros t g c h _. eapply wp_mono; [|apply (J_interp_all E _ t g I)]. simpl. intros ? ? [-> _]; reflexivity.
    - intros w gs x i tk r [Hi Hh] Hl Hg Et. exists []. split; [|apply wp_drain].
      rewrite <- Hg. split.
      + apply (inv_same E w); try reflexivity; auto. left; reflexivity.
      + apply (chain_calm w _ gs); [apply gupd_id|reflexivity..|left; reflexivity|exact Hh].
    - intros w gs x i tk [Hi Hh] Hl Hg. exists []. split; [|apply wp_drain].
      rewrite <- Hg. split.
      + eapply inv_ext; [apply gupd_same|auto].
      + apply (chain_calm w _ gs); [apply gupd_id|reflexivity..|left; reflexivity|exact Hh].
    - intros w gs x i tk [Hi Hh] Hl Hg. exists []. split; [|reflexivity].
      rewrite <- Hg. split.
      + eapply inv_ext; [apply gupd_same|auto].
      + apply (chain_calm w _ gs); [apply gupd_id|reflexivity..|left; reflexivity|exact Hh].
    - intros w gs x i tk e [Hi Hh] Hl Hg. exists []. split; [|reflexivity].
      rewrite <- Hg. split.
      + apply (inv_same E w); try reflexivity; auto. right; eexists _, _; split; [reflexivity|exact I].
      + apply (chain_calm w _ gs); [apply gupd_id|reflexivity..| |exact Hh]. right; eexists _, _; split; [reflexivity|exact I].
    - split; [|split].
      + split.
        * destruct H0. split.
          -- exists (fun _ => PFresh). simpl. split; simpl; intros; rewrite ?im_pools, ?im_queues, ?im_npair in *; simpl in *;
               try constructor; try easy; try lia.
          -- intro q. simpl. rewrite im_tr, im_queues. reflexivity.
          -- intros t q p e m e' m'. simpl. rewrite im_tr. intros [].
          -- intros t p. simpl. rewrite im_tr. simpl. split; [intros []|intros [c []]].
          -- simpl. rewrite im_tr. constructor.
        * destruct H0. split; simpl; rewrite im_tr.
          -- intros p. simpl. rewrite im_npair. lia.
          -- intros h t o r Hs. destruct h; discriminate.
      + intro n. simpl. destruct (Nat.ltb n (n_clients E)); [|exact I].
        eapply wp_mono; [|apply (J_interp_all E _ _ _ I)]. auto.
      + reflexivity.
    - apply (ch_law _ _ (proj2 (proj1 Hok))).
  Qed.
End Chain.

(** ** from hand to hand: happens-before *)
Section Hb.
  Context (T : trace) (Hlaw : forall h t o r, T = h ++ (t, o) :: r -> lawful h t o).
  Notation hb := (hb sw_min T).
  Definition hbe (i j : nat) : Prop := i = j \/ hb i j.

  Lemma on_split i t o : on T i t o -> T = firstn i T ++ (t, o) :: skipn (S i) T.
  Proof.
    unfold on. generalize T. induction i as [|i IH]; intros [|x l] H; try discriminate; simpl in *.
    - injection H as ->. reflexivity.
    - f_equal. apply IH, H.
  Qed.
  Lemma on_law i t o : on T i t o -> lawful (firstn i T) t o.
  Proof. intro H. eapply Hlaw, on_split, H. Qed.
  Lemma firstn_on i t o : on T i t o -> firstn (S i) T = firstn i T ++ [(t, o)].
  Proof.
    unfold on. generalize T. induction i as [|i IH]; intros [|x l] H; try discriminate.
    - simpl in H. injection H as ->. reflexivity.
    - rewrite firstn_cons. rewrite (IH l H). reflexivity.
  Qed.
  Lemma hbe_trans i j k : hbe i j -> hbe j k -> hbe i k.
  Proof. intros [->|H1] [->|H2]; unfold hbe; auto. right. eapply hb_trans; eauto. Qed.
  Lemma hbe_po i j t o o' : i <= j -> on T i t o -> on T j t o' -> hbe i j.
  Proof. intros H H1 H2. destruct (Nat.eq_dec i j) as [->|]; [left; reflexivity|right]. eapply hb_po; eauto. lia. Qed.

  (** a lawful access of [p] by [t] at position [i] *)
  Definition access (p : pid) (i : nat) : Prop :=
    exists t o, on T i t o /\ place_of p (firstn i T) = PHeld t /\
      place_step p (PHeld t) (t, o) = PHeld t.

  Definition handed (p : pid) (i n : nat) : Prop :=
    match place_of p (firstn n T) with
    | PFresh => False
    | PHeld t => exists k o, k < n /\ on T k t o /\ hbe i k
    | PQueue q => exists k t e m e' m', k < n /\ on T k t (OOffer q p e m e' m') /\ hbe i k /\ none_between T (moves_in_queue q p) k n
    | PPool l => exists k t, k < n /\ on T k t (OWr (WrGive l p)) /\ hbe i k /\ none_between T (moves_in_pool p) k n
    end.

  Lemma none_more P k n t o : on T n t o -> ~ P o -> none_between T P k n -> none_between T P k (S n).
  Proof.
    intros Ho HP Hn j t' o' H1 H2 Hj. destruct (Nat.eq_dec j n) as [->|]; [|eapply Hn; eauto; lia].
    unfold on in *. congruence.
  Qed.

  Lemma handed_on p i n : access p i -> i < n -> n <= List.length T -> handed p i n.
  Proof.
    intros (t & o & Hi & Hpl & Hst) Hlt. revert Hlt.
    induction n as [|n IH]; [lia|]. intros Hlt Hn.
    destruct (nth_error T n) as [[t' o']|] eqn:En; [|apply nth_error_None in En; lia].
    assert (Hon : on T n t' o') by exact En. unfold handed. rewrite (firstn_on _ _ _ Hon), place_snoc.
    destruct (Nat.eq_dec n i) as [->|Hne].
    - assert (Hx : Some (t', o') = Some (t, o)) by (rewrite <- En; exact Hi). injection Hx as -> ->. rewrite Hpl, Hst.
      exists i, o. split; [lia|]. split; [exact Hi|left; reflexivity].
    - assert (IHn : handed p i n) by (apply IH; lia). clear IH. unfold handed in IHn. pose proof (on_law _ _ _ Hon) as Hl.
      assert (Hkeep : place_step p (place_of p (firstn n T)) (t', o') = place_of p (firstn n T) ->
                ~ moves_in_pool p o' -> (forall q, ~ moves_in_queue q p o') -> handed p i (S n)).
      { intros Hs M1 M2. unfold handed. rewrite (firstn_on _ _ _ Hon), place_snoc, Hs. destruct (place_of p (firstn n T)) as [|l|q|t0].
        - contradiction.
        - destruct IHn as (k & t0 & H1 & H2 & H3 & H4). exists k, t0. repeat split; auto. eapply none_more; eauto.
        - destruct IHn as (k & t0 & e & m & e' & m' & H1 & H2 & H3 & H4). exists k, t0, e, m, e', m'. repeat split; auto. eapply none_more; eauto.
        - destruct IHn as (k & o0 & H1 & H2 & H3). exists k, o0. auto. }
      unfold handed in Hkeep. rewrite (firstn_on _ _ _ Hon), place_snoc in Hkeep.
      destruct o'; try (apply Hkeep; [reflexivity|exact (fun x => x)|exact (fun _ x => x)]).
      + (* OOffer *)
        simpl in Hl. unfold place_step in *. simpl in *. destruct (Nat.eqb_spec p0 p) as [->|N].
        * rewrite Hl in IHn. destruct IHn as (k & o0 & H1 & H2 & H3). exists n, t', e, m, e', m'.
          split; [lia|]. split; [exact Hon|]. split; [|intros ? ? ? ? ?; lia].
          eapply hbe_trans; [exact H3|]. eapply hbe_po; eauto. lia.
        * apply Hkeep; [reflexivity|auto|]. intros q0 [_ H]. congruence.
      + (* OTake *)
        simpl in Hl. unfold place_step in *. simpl in *. destruct (Nat.eqb_spec p0 p) as [->|N].
        * rewrite Hl in IHn. destruct IHn as (k & t0 & e & m & e' & m' & H1 & H2 & H3 & H4). exists n, (OTake q p c).
          split; [lia|]. split; [exact Hon|]. eapply hbe_trans; [exact H3|]. right. apply hb_sw; [lia|]. eapply sw_queue; eauto.
        * apply Hkeep; [reflexivity|auto|]. intros q0 [_ H]. congruence.
      + (* OWr *)
        destruct w; try (apply Hkeep; [reflexivity|exact (fun x => x)|exact (fun _ x => x)]).
        * (* WrGot *)
          simpl in Hl. unfold place_step in *. simpl in *. destruct (Nat.eqb_spec p0 p) as [->|N].
          -- destruct Hl as [Hl|[l Hl]]; rewrite Hl in IHn; [contradiction|].
             destruct IHn as (k & t0 & H1 & H2 & H3 & H4). exists n, (OWr (WrGot p)).
             split; [lia|]. split; [exact Hon|]. eapply hbe_trans; [exact H3|]. right. apply hb_sw; [lia|]. eapply sw_pool; eauto.
          -- apply Hkeep; [reflexivity|auto|auto].
        * (* WrGive *)
          simpl in Hl. unfold place_step in *. simpl in *. destruct (Nat.eqb_spec p0 p) as [->|N].
          -- rewrite Hl in IHn. destruct IHn as (k & o0 & H1 & H2 & H3). exists n, t'.
             split; [lia|]. split; [exact Hon|]. split; [|intros ? ? ? ? ?; lia].
             eapply hbe_trans; [exact H3|]. eapply hbe_po; eauto. lia.
          -- apply Hkeep; [reflexivity|auto|auto].
  Qed.

  Lemma access_hb p i j : access p i -> access p j -> i < j -> hb i j.
  Proof.
    intros Ha (t & o & Hj & Hpl & _) Hlt.
    assert (Hn : j < List.length T) by (apply nth_error_Some; unfold on in Hj; congruence).
    pose proof (handed_on p i j Ha Hlt ltac:(lia)) as Hh. unfold handed in Hh. rewrite Hpl in Hh.
    destruct Hh as (k & o' & H1 & H2 & [->|H3]).
    - eapply hb_po; eauto.
    - eapply hb_trans; [exact H3|]. eapply hb_po; eauto.
  Qed.

  (** who holds a pair object keeps it until it moves it *)
  Lemma held_kept p t i n : place_of p (firstn i T) = PHeld t -> i <= n -> n <= List.length T ->
    (forall k t' o, i <= k -> k < n -> on T k t' o -> t' <> t) -> place_of p (firstn n T) = PHeld t.
  Proof.
    intros Hp Hle. induction Hle as [|n Hle IH]; [auto|]. intros Hn Hno.
    destruct (nth_error T n) as [[t' o]|] eqn:En; [|apply nth_error_None in En; lia].
    assert (Hon : on T n t' o) by exact En.
    assert (IHp : place_of p (firstn n T) = PHeld t) by (apply IH; [lia|intros; eapply Hno; eauto]).
    rewrite (firstn_on _ _ _ Hon), place_snoc, IHp. pose proof (on_law _ _ _ Hon) as Hl.
    assert (Hne : t' <> t) by (eapply (Hno n); eauto).
    unfold place_step. simpl. destruct o; try reflexivity; simpl in Hl.
    - destruct (Nat.eqb_spec p0 p) as [->|]; [|reflexivity]. congruence.
    - destruct (Nat.eqb_spec p0 p) as [->|]; [|reflexivity]. congruence.
    - destruct w; try reflexivity; simpl in Hl; (destruct (Nat.eqb_spec p0 p) as [->|]; [|reflexivity]).
      + destruct Hl as [Hl|[l Hl]]; congruence.
      + congruence.
  Qed.
  Lemma write_access p t i : writes_pair T i t p -> access p i.
  Proof. intros (e & m & H). exists t, (OWr (WrPair p e m)). split; [exact H|]. split; [exact (on_law _ _ _ H)|reflexivity]. Qed.
  Lemma fetch_access p t i : fetches_pair T i t p -> access p i.
  Proof.
    intros ((c & H) & k & q & c' & Hk & Ht & Hno). exists t, (ORd (RdPair p c)). split; [exact H|].
    split; [|reflexivity]. assert (Hn : i < List.length T) by (apply nth_error_Some; unfold on in H; congruence).
    apply (held_kept p t (S k)); [|lia|lia|].
    - rewrite (firstn_on _ _ _ Ht), place_snoc. unfold place_step. simpl. rewrite Nat.eqb_refl. reflexivity.
    - intros n t' o H1 H2 Ho. eapply Hno; eauto.
  Qed.
End Hb.
