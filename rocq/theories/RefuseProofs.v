(** * RefuseProofs.v: queues that may refuse an event (C69) *)
From Verif Require Import RefuseSpec Logic Neutral OwnSpec Own BoundProofs QueueProofs Live.

Section Refuse.
  Context (R : qid -> trace -> bool) (E : env).
  Notation refused := (refused R).
  Notation rstep := (rstep R E).
  Notation rrun := (rrun R E).

  Lemma refused_inv {A : Set} w (p : prog A) q n e m p' : refused w p = Some (q, n, e, m, p') ->
    R q (tr w) = true /\ exists e' k, p = Vis (IQOffer q n e m e') k /\ p' = k tt.
  Proof.
    intro H. destruct p as [a|x|i k]; try discriminate. destruct i; try discriminate. simpl in H.
    destruct (R q0 (tr w)) eqn:HR; [|discriminate]. injection H as <- <- <- <- <-. eauto.
  Qed.

  (** a step is a step of Sched.v, or an offer is refused *)
  Lemma rstep_inv w t w' : rstep w t = Some w' ->
    (step E (rw w) t = Some (rw w') /\ lost w' = lost w) \/
    (exists q p e m, R q (tr (wm (rw w))) = true /\ lost w' = lost w ++ [(t, (q, p, e, m))] /\ wm (rw w') = wm (rw w) /\
       exists w2, step E (rw w) t = Some w2 /\ queues (wm w2) q = queues (wm (rw w)) q ++ [p] /\
         (tr (wm w2) = tr (wm (rw w)) \/ exists e' m', tr (wm w2) = tr (wm (rw w)) ++ [(t, OOffer q p e m e' m')])).
  Proof.
    assert (Hgo : forall o, match step E (rw w) t with Some w' => Some {| rw := w'; lost := lost w |} | None => None end = Some o ->
              step E (rw w) t = Some (rw o) /\ lost o = lost w).
    { intros o H. destruct (step E (rw w) t); [|discriminate]. injection H as <-. auto. }
    assert (Hq : forall q p e m, queues (match pairs (wm (rw w)) p with
                     | Some (e', m') => log t (OOffer q p e m e' m') (set_queues (upd (queues (wm (rw w))) q (queues (wm (rw w)) q ++ [p])) (wm (rw w)))
                     | None => set_queues (upd (queues (wm (rw w))) q (queues (wm (rw w)) q ++ [p])) (wm (rw w))
                     end) q = queues (wm (rw w)) q ++ [p]).
    { intros. destruct (pairs _ p) as [[e' m']|]; simpl; unfold upd; rewrite Nat.eqb_refl; reflexivity. }
    assert (Ht : forall q p e m, let w2 := match pairs (wm (rw w)) p with
                     | Some (e', m') => log t (OOffer q p e m e' m') (set_queues (upd (queues (wm (rw w))) q (queues (wm (rw w)) q ++ [p])) (wm (rw w)))
                     | None => set_queues (upd (queues (wm (rw w))) q (queues (wm (rw w)) q ++ [p])) (wm (rw w))
                     end in tr w2 = tr (wm (rw w)) \/ exists e' m', tr w2 = tr (wm (rw w)) ++ [(t, OOffer q p e m e' m')]).
    { intros. subst w2. destruct (pairs _ p) as [[e' m']|]; simpl; eauto. }
    intro H. unfold Refuse.rstep in H. destruct (refusal R E w t) as [w''|] eqn:Hf; [|left; apply Hgo; exact H].
    injection H as ->. right. destruct t as [n|x i]; unfold refusal in Hf.
    - destruct (refused (wm (rw w)) (wc (rw w) n)) as [[[[[q p] e] m] p']|] eqn:Hr; [|discriminate].
      injection Hf as <-. apply refused_inv in Hr. destruct Hr as (HR & e' & k & Ep & ->). exists q, p, e, m. split; [exact HR|].
      split; [reflexivity|]. split; [reflexivity|]. eexists. split; [simpl; rewrite Ep; simpl; reflexivity|]. simpl. split; [apply Hq|apply Ht].
    - destruct (Nat.ltb i (n_workers E x)) eqn:Hi; simpl in Hf; [|discriminate].
      destruct (ww (rw w) x i) as [|tk p0] eqn:Ew; [discriminate|].
      destruct (refused (wm (rw w)) p0) as [[[[[q p] e] m] p']|] eqn:Hr; [|discriminate].
      injection Hf as <-. apply refused_inv in Hr. destruct Hr as (HR & e' & k & Ep & ->). exists q, p, e, m. split; [exact HR|].
      split; [reflexivity|]. split; [reflexivity|]. eexists. split; [simpl; rewrite Hi, Ew, Ep; simpl; reflexivity|]. simpl. split; [apply Hq|apply Ht].
  Qed.

  Lemma rrun_snoc w l t : rrun w (l ++ [t]) = rstep_or_stay R E (rrun w l) t.
  Proof. unfold Refuse.rrun. rewrite fold_left_app. reflexivity. Qed.
  Lemma lost_grows w t : exists l, lost (rstep_or_stay R E w t) = lost w ++ l.
  Proof.
    unfold rstep_or_stay. destruct (rstep w t) as [w'|] eqn:Hs; [|exists []; rewrite app_nil_r; reflexivity].
    apply rstep_inv in Hs. destruct Hs as [[_ ->]|(q & p & e & m & _ & -> & _)]; [exists []; rewrite app_nil_r; reflexivity|eauto].
  Qed.
  Lemma reach_step w0 w t w' : reach E w0 w -> step E w t = Some w' -> reach E w0 w'.
  Proof.
    intros [l ->] Hs. exists (l ++ [t]). unfold run in *. rewrite fold_left_app. simpl. unfold step_or_stay at 1. rewrite Hs. reflexivity.
  Qed.

  (** an execution without refused events is one of Sched.v *)
  Lemma p_C69_none_refused w0 w : rreach R E w0 w -> lost w = [] -> reach E w0 (rw w).
  Proof.
    intros [l ->]. induction l as [|t l IH] using rev_ind; intro Hl; [exists []; reflexivity|].
    rewrite rrun_snoc in *. set (w1 := rrun _ l) in *. destruct (lost_grows w1 t) as [y Hy]. rewrite Hl in Hy. symmetry in Hy.
    apply app_eq_nil in Hy. destruct Hy as [Hy _]. specialize (IH Hy). unfold rstep_or_stay in *.
    destruct (rstep w1 t) as [w'|] eqn:Hs; [|exact IH]. apply rstep_inv in Hs.
    destruct Hs as [[Hs _]|(q & p & e & m & _ & X & _)]; [exact (reach_step _ _ _ _ IH Hs)|]. rewrite X in Hl. destruct (lost w1); discriminate.
  Qed.

  (** sufficient capacity *)
  Lemma tr_grows w t : exists r, tr (wm (rw (rstep_or_stay R E w t))) = tr (wm (rw w)) ++ r.
  Proof.
    unfold rstep_or_stay. destruct (rstep w t) as [w'|] eqn:Hs; [|exists []; rewrite app_nil_r; reflexivity].
    apply rstep_inv in Hs. destruct Hs as [[Hs _]|(q & p & e & m & _ & _ & -> & _)]; [|exists []; rewrite app_nil_r; reflexivity].
    destruct (step_grows E (rw w) t) as (r & Hr & _). unfold step_or_stay in Hr. rewrite Hs in Hr. eauto.
  Qed.
  Lemma tries_mono q t' w t : tries q t' w -> tries q t' (rstep_or_stay R E w t).
  Proof.
    intros [(p & e & m & e' & m' & Hin)|(p & e & m & Hin)].
    - left. exists p, e, m, e', m'. destruct (tr_grows w t) as [r ->]. apply in_or_app. auto.
    - right. exists p, e, m. destruct (lost_grows w t) as [r ->]. apply in_or_app. auto.
  Qed.
  Lemma p_C69_large_enough w0 w : init_mem E w0 -> rreach R E w0 w ->
    (forall q, (forall h, R q h = false) \/ large_enough R E q w) -> lost w = [] /\ reach E w0 (rw w).
  Proof.
    intros H0 [l ->]. induction l as [|t l IH] using rev_ind; intro Hl; [split; [reflexivity|exists []; reflexivity]|].
    rewrite rrun_snoc in *. set (w1 := rrun _ l) in *. destruct IH as [IH1 IH2].
    { intro q. destruct (Hl q) as [|(cap & max & ts & A1 & A2 & A3 & A4 & A5)]; [auto|]. right. exists cap, max, ts.
      repeat (split; [assumption|]). split; [|assumption]. intros t' Ht'. apply A4. apply tries_mono. exact Ht'. }
    destruct (rstep w1 t) as [w'|] eqn:Hs; [|unfold rstep_or_stay; rewrite Hs; auto].
    assert (Ew : rstep_or_stay R E w1 t = w') by (unfold rstep_or_stay; rewrite Hs; reflexivity).
    assert (Hold : forall q t', tries q t' w1 -> tries q t' w') by (intros q t' X; rewrite <- Ew; apply tries_mono; exact X).
    rewrite Ew in *. apply rstep_inv in Hs.
    destruct Hs as [[Hs ->]|(q & p & e & m & HR & Hlost & _ & w2 & Hs & Hq & Htr)]; [split; [exact IH1|exact (reach_step _ _ _ _ IH2 Hs)]|].
    exfalso. destruct (Hl q) as [X|(cap & max & ts & A1 & A2 & A3 & A4 & A5)]; [rewrite X in HR; discriminate|].
    pose proof (A1 _ HR) as Hcap. pose proof (reach_step _ _ _ _ IH2 Hs) as Hr2.
    assert (Hw : forall w, reach E w0 w -> List.length (waiting q (tr (wm w))) = List.length (queues (wm w) q)).
    { intros w Hr. rewrite waiting_length, (fifo E w0 w q H0 Hr), app_length, map_length. lia. }
    assert (Hts : forall t', feeds q t' (tr (wm w2)) -> In t' ts).
    { intros t' (p' & e1 & m1 & e2 & m2 & Hin).
      assert (Hor : In (t', OOffer q p' e1 m1 e2 m2) (tr (wm (rw w1))) \/ t' = t).
      { destruct Htr as [Htr|(e' & m' & Htr)]; rewrite Htr in Hin; [auto|]. apply in_app_or in Hin. destruct Hin as [Hin|[Hin|[]]]; [auto|]. right. congruence. }
      destruct Hor as [Hor| ->].
      - apply A4, Hold. left. exists p', e1, m1, e2, m2. exact Hor.
      - apply A4. right. exists p, e, m. rewrite Hlost. apply in_or_app. right. left. reflexivity. }
    pose proof (bound_threads E w0 w2 H0 Hr2 q max ts A2 A3 Hts _ _ (eq_sym (app_nil_r _))) as Hb.
    rewrite (Hw _ Hr2), Hq, app_length in Hb. rewrite (Hw _ IH2) in Hcap. simpl in Hb. lia.
  Qed.

  (** *** ownership: a refused pair object is as if held by a thread that does nothing *)
  Definition ph : tid := TWorker 0 (n_workers E 0).
  Definition pre' (t : tid) (g : held) (i : instr) : Prop := t <> ph /\ pre E t g i.
  Lemma wp_pre' {A : Set} t (p : prog A) Q g : t <> ph -> wp (pre E) post t p Q g -> wp pre' post t p Q g.
  Proof.
    intro Hn. revert g. induction p as [a|x|i k IH]; simpl; intro g; auto. intros [H1 H2]. split; [split; assumption|]. intros v g' Hp. apply IH. auto.
  Qed.
  Definition linv (L : held) (w : mem) (gs : tid -> held) : Prop := inv E w gs /\ gs ph = L.
  Definition ridle (t : tid) (g : held) : Prop := t = ph \/ g = [].
  Definition lok (L : held) := world_ok pre' post (linv L) (fun _ _ _ => True) (fun t _ _ g => t <> ph /\ g = []) ridle.
  Lemma not_ph x i : i < n_workers E x -> TWorker x i <> ph.
  Proof. intros H X. injection X as -> ->. lia. Qed.

  Lemma lok_step L w t w' gs : lok L w gs -> step E w t = Some w' -> exists gs', lok L w' gs'.
  Proof.
    intros H Hs. apply (world_ok_same E pre' post (linv L) (fun _ _ _ => True) (fun t _ _ g => t <> ph /\ g = []) ridle) with (w := w) (gs := gs) (t := t); [| | | | | |exact Hs|exact H].
    - intros w1 gs1 t1 i v w2 [Hi HL] [Hn Hp] Hx. destruct (exec_own E w1 gs1 t1 i v w2 Hi Hp Hx) as (g' & Hg & Hi'). exists g'. split; [exact Hg|].
      split; [exact Hi'|]. rewrite gupd_neq by congruence. exact HL.
    - intros t1 g c h [Hn _]. apply wp_pre'; [exact Hn|]. eapply wp_mono; [|apply (J_interp_all E _ t1 g I)]. simpl. intros ? ? [-> _]; reflexivity.
    - intros w1 gs1 x i tk r [Hi HL] Hl Hid Et. pose proof (not_ph x i Hl) as Hn. destruct Hid as [X|Hg]; [contradiction|]. exists []. split.
      + split; [|rewrite gupd_neq by congruence; exact HL]. rewrite <- Hg. apply (inv_same E w1); try reflexivity; auto. left; reflexivity.
      + apply wp_pre'; [exact Hn|]. eapply wp_mono; [|apply (wp_drain E)]. simpl. auto.
    - intros w1 gs1 x i tk [Hi HL] Hl [Hn Hg]. exists []. split.
      + split; [|rewrite gupd_neq by congruence; exact HL]. rewrite <- Hg. eapply inv_ext; [apply gupd_same|auto].
      + apply wp_pre'; [exact Hn|]. eapply wp_mono; [|apply (wp_drain E)]. simpl. auto.
    - intros w1 gs1 x i tk [Hi HL] Hl [Hn Hg]. exists []. split; [|right; reflexivity].
      split; [|rewrite gupd_neq by congruence; exact HL]. rewrite <- Hg. eapply inv_ext; [apply gupd_same|auto].
    - intros w1 gs1 x i tk e [Hi HL] Hl [Hn Hg]. exists []. split; [|right; reflexivity].
      split; [|rewrite gupd_neq by congruence; exact HL]. rewrite <- Hg. apply (inv_same E w1); try reflexivity; auto.
      right; eexists _, _; split; [reflexivity|exact I].
  Qed.

  (** what a refused offer does to the ownership *)
  Lemma inv_lose w gs t p c g0 : t <> ph -> inv E w gs -> gs t = (p, (false, c)) :: g0 ->
    inv E w (gupd (gupd gs t g0) ph ((p, (false, c)) :: gs ph)).
  Proof.
    intros Hn [[loc [H1 H2 H3 H4 H5 H6 H7 H8 H9]] Hf Hr Hpr Hnp] Hg.
    assert (HL : loc p = PHeld t) by (apply H4; rewrite Hg; left; reflexivity).
    pose proof (H7 t) as Hnd. rewrite Hg in Hnd. simpl in Hnd. inversion Hnd as [|? ? Hn1 Hn2]; subst.
    split; auto.
    - exists (fun p' => if Nat.eqb p' p then PHeld ph else loc p'). split; auto.
      + intro p'. destruct (Nat.eqb_spec p' p) as [->|]; [|apply H1]. rewrite <- H1. split; congruence.
      + intros l p'. destruct (Nat.eqb_spec p' p) as [->|]; [|apply H2]. rewrite H2. split; congruence.
      + intros q p'. destruct (Nat.eqb_spec p' p) as [->|]; [|apply H3]. rewrite H3. split; congruence.
      + intros t' p'. unfold gupd. destruct (tid_eq_dec t' ph) as [->|N1]; [|destruct (tid_eq_dec t' t) as [->|N2]]; simpl;
          destruct (Nat.eqb_spec p' p) as [->|N3].
        * split; auto.
        * rewrite <- H4. intuition congruence.
        * split; [intro; contradiction|congruence].
        * rewrite <- H4, Hg. simpl. intuition congruence.
        * rewrite H4. split; congruence.
        * apply H4.
      + intro t'. unfold gupd. destruct (tid_eq_dec t' ph) as [->|N1]; [|destruct (tid_eq_dec t' t) as [->|N2]]; simpl; auto.
        constructor; [|apply H7]. rewrite H4. congruence.
      + intros t' p' b c'. unfold gupd. destruct (tid_eq_dec t' ph) as [->|N1]; [|destruct (tid_eq_dec t' t) as [->|N2]]; simpl; eauto.
        * intros [X|X]; [|eauto]. injection X as <- <- <-. apply (H8 t p false). rewrite Hg. left. reflexivity.
        * intro X. apply (H8 t p' b). rewrite Hg. right. exact X.
    - intros t' p'. rewrite Hpr. unfold gupd. destruct (tid_eq_dec t' ph) as [->|N1]; [|destruct (tid_eq_dec t' t) as [->|N2]]; simpl; [| |reflexivity].
      + split; [intros [c' X]; eauto|]. intros [c' [X|X]]; [discriminate|eauto].
      + rewrite Hg. simpl. split; [intros [c' [X|X]]; [discriminate|eauto]|intros [c' X]; eauto].
  Qed.

  Lemma rstep_lok L w t w' gs : lok L (rw w) gs -> rstep w t = Some w' ->
    exists gs', (lost w' = lost w /\ lok L (rw w') gs') \/
                (exists q p e m c, lost w' = lost w ++ [(t, (q, p, e, m))] /\ lok ((p, c) :: L) (rw w') gs').
  Proof.
    intros Hok H. unfold Refuse.rstep in H. destruct (refusal R E w t) as [w''|] eqn:Hf.
    2:{ destruct (step E (rw w) t) eqn:Hs; [|discriminate]. injection H as <-. destruct (lok_step _ _ _ _ _ Hok Hs) as [gs' Hx]. eauto. }
    injection H as ->. destruct Hok as ([Hi HL] & Hc & Hw).
    assert (Hph : forall x i g, TWorker x i = ph -> worker_ok pre' post (fun t _ _ g => t <> ph /\ g = []) ridle (TWorker x i) (gs (TWorker x i)) (ww (rw w) x i) ->
              worker_ok pre' post (fun t _ _ g => t <> ph /\ g = []) ridle (TWorker x i) g (ww (rw w) x i)).
    { intros x i g X Hk. destruct (ww (rw w) x i) as [|tk [a|e|ins k]]; simpl in *; [left; exact X| | |]; exfalso; [destruct Hk as [Y _]|destruct Hk as [Y _]|destruct Hk as [[Y _] _]]; auto. }
    destruct t as [n|x i]; unfold refusal in Hf.
    - destruct (refused (wm (rw w)) (wc (rw w) n)) as [[[[[q p] e] m] p']|] eqn:Hr; [|discriminate].
      injection Hf as <-. apply refused_inv in Hr. destruct Hr as (HR & e' & k & Ep & ->).
      pose proof (Hc n) as Hp. rewrite Ep in Hp. destruct Hp as [[Hn (g0 & Hg & _)] Hk].
      exists (gupd (gupd gs (TClient n) g0) ph ((p, (false, Some (e', m))) :: gs ph)). right. exists q, p, e, m, (false, Some (e', m)).
      split; [reflexivity|]. split; [split; [apply inv_lose; assumption|rewrite gupd_eq, HL; reflexivity]|]. split.
      + intro n'. simpl. rewrite gupd_neq by (unfold ph; congruence). unfold upd. destruct (Nat.eqb_spec n' n) as [->|N].
        * rewrite gupd_eq. apply Hk. rewrite Hg. reflexivity.
        * rewrite gupd_neq by congruence. apply Hc.
      + intros x i. simpl. destruct (tid_eq_dec (TWorker x i) ph) as [X|X]; [apply Hph; auto|].
        rewrite gupd_neq by exact X. rewrite gupd_neq by congruence. apply Hw.
    - destruct (Nat.ltb_spec i (n_workers E x)) as [Hlt|]; simpl in Hf; [|discriminate].
      destruct (ww (rw w) x i) as [|tk p0] eqn:Ew; [discriminate|].
      destruct (refused (wm (rw w)) p0) as [[[[[q p] e] m] p']|] eqn:Hr; [|discriminate].
      injection Hf as <-. apply refused_inv in Hr. destruct Hr as (HR & e' & k & Ep & ->).
      pose proof (Hw x i) as Hp. rewrite Ew, Ep in Hp. destruct Hp as [[Hn (g0 & Hg & _)] Hk].
      exists (gupd (gupd gs (TWorker x i) g0) ph ((p, (false, Some (e', m))) :: gs ph)). right. exists q, p, e, m, (false, Some (e', m)).
      split; [reflexivity|]. split; [split; [apply inv_lose; assumption|rewrite gupd_eq, HL; reflexivity]|]. split.
      + intro n'. simpl. rewrite !gupd_neq by (unfold ph; congruence). apply Hc.
      + intros x' i'. simpl. unfold set_worker. destruct (Nat.eqb_spec x' x) as [->|N]; simpl; [destruct (Nat.eqb_spec i' i) as [->|N]|].
        * rewrite gupd_neq by exact Hn. rewrite gupd_eq. apply Hk. rewrite Hg. reflexivity.
        * destruct (tid_eq_dec (TWorker x i') ph) as [X|X]; [apply Hph; auto|]. rewrite gupd_neq by exact X. rewrite gupd_neq by congruence. apply Hw.
        * destruct (tid_eq_dec (TWorker x' i') ph) as [X|X]; [apply Hph; auto|]. rewrite gupd_neq by exact X. rewrite gupd_neq by congruence. apply Hw.
  Qed.

  Lemma lok_all w0 w : init_mem E w0 -> rreach R E w0 w ->
    exists L gs, lok L (rw w) gs /\ forall t q p e m, In (t, (q, p, e, m)) (lost w) -> In p (map fst L).
  Proof.
    intros H0 [l ->]. induction l as [|t l IH] using rev_ind.
    - exists [], (fun _ => []). split; [|intros ? ? ? ? ? []]. destruct H0. split; [|split].
      + split; [|reflexivity]. split.
        * exists (fun _ => PFresh). simpl. split; simpl; intros; rewrite ?im_pools, ?im_queues, ?im_npair in *; simpl in *;
            try constructor; try easy; try lia.
        * intro q. simpl. rewrite im_tr, im_queues. reflexivity.
        * intros t q p e m e' m'. simpl. rewrite im_tr. intros [].
        * intros t p. simpl. rewrite im_tr. simpl. split; [intros []|intros [c []]].
        * simpl. rewrite im_tr. constructor.
      + intro n. simpl. destruct (Nat.ltb n (n_clients E)); [|exact I].
        apply wp_pre'; [unfold ph; congruence|]. eapply wp_mono; [|apply (J_interp_all E _ _ _ I)]. auto.
      + intros x i. right. reflexivity.
    - rewrite rrun_snoc. set (w1 := rrun _ l) in *. destruct IH as (L & gs & Hok & HL). unfold rstep_or_stay.
      destruct (rstep w1 t) as [w'|] eqn:Hs; [|eauto].
      destruct (rstep_lok L w1 t w' gs Hok Hs) as (gs' & [[-> Hok']|(q & p & e & m & c & -> & Hok')]).
      + eauto.
      + exists ((p, c) :: L), gs'. split; [exact Hok'|]. intros t' q' p' e1 m1 Hin. apply in_app_or in Hin.
        destruct Hin as [Hin|[Hin|[]]]; [right; eauto|]. injection Hin as <- <- <- <- <-. left. reflexivity.
  Qed.

  Lemma p_C69_in_order w0 w q : init_mem E w0 -> rreach R E w0 w ->
    accepted q (tr (wm (rw w))) = taken q (tr (wm (rw w))) ++ map (fun p => (p, pairs (wm (rw w)) p)) (queues (wm (rw w)) q).
  Proof. intros H0 Hr. destruct (lok_all w0 w H0 Hr) as (L & gs & ([Hi _] & _) & _). apply (i_fifo _ _ _ Hi). Qed.
  Lemma p_C69_pair_gone w0 w t q p e m : init_mem E w0 -> rreach R E w0 w -> In (t, (q, p, e, m)) (lost w) ->
    (forall q', ~ In p (queues (wm (rw w)) q')) /\ (forall l, ~ In p (pools (wm (rw w)) l)).
  Proof.
    intros H0 Hr Hin. destruct (lok_all w0 w H0 Hr) as (L & gs & ([Hi HL] & _) & Hl). apply Hl in Hin. rewrite <- HL in Hin.
    destruct Hi as [[loc [H1 H2 H3 H4 _ _ _ _ _]] _ _ _ _]. apply H4 in Hin.
    split; [intro q'; rewrite H3|intro l; rewrite H2]; congruence.
  Qed.
End Refuse.
