(** * RejectProofs.v: executors that may reject a task at any time (C71) *)
From Verif Require Import RejectSpec Logic Neutral OwnSpec Own Tree Moments BoundProofs QueueProofs FireProofs TokenProofs Live Lang StartProofs.

Section Reject.
  Context (R : xid -> world -> bool) (E : env).
  Notation jstep := (jstep R E).
  Notation jrun := (jrun R E).

  Lemma declined_inv {A : Set} w (p : prog A) x tk p' : declined R w p = Some (x, tk, p') ->
    R x w = true /\ exists k, p = Vis (IExecute x tk) k /\ p' = k false.
  Proof.
    intro H. destruct p as [a|e|i k]; try discriminate. destruct i; try discriminate. simpl in H.
    destruct (R x0 w) eqn:HR; [|discriminate]. injection H as <- <- <-. eauto.
  Qed.
  Lemma decline_tr w t w' : decline R E w t = Some w' ->
    exists x tk, wm w' = log t (OWr (WrReject x tk)) (wm w).
  Proof.
    intro H. destruct t as [n|y i]; simpl in H.
    - destruct (declined R w (wc w n)) as [[[x tk] p']|]; [|discriminate]. injection H as <-. exists x, tk. reflexivity.
    - destruct (negb (Nat.ltb i (n_workers E y))); [discriminate|]. destruct (ww w y i) as [|tk0 p]; [discriminate|].
      destruct (declined R w p) as [[[x tk] p']|]; [|discriminate]. injection H as <-. exists x, tk. reflexivity.
  Qed.
  Lemma jstep_inv w t w' : jstep w t = Some w' -> decline R E w t = Some w' \/ step E w t = Some w'.
  Proof. unfold Reject.jstep. destruct (decline R E w t) eqn:H; auto. Qed.
  Lemma jrun_snoc w l t : jrun w (l ++ [t]) = jstep_or_stay R E (jrun w l) t.
  Proof. unfold Reject.jrun. rewrite fold_left_app. reflexivity. Qed.

  (** a step of Sched.v: the memory *)
  Lemma step_mem w t w' : step E w t = Some w' ->
    (wm w' = wm w) \/ (exists i v, exec E (wm w) t i = Some (v, wm w')) \/
    (exists x r, wm w' = set_tasks (upd (tasks (wm w)) x r) (wm w)) \/ (exists tk e, wm w' = log t (OUncaught tk e) (wm w)).
  Proof.
    assert (Hp : forall (A : Set) (p : prog A) m' p', pstep E (wm w) t p = Some (m', p') ->
      m' = wm w \/ exists i v, exec E (wm w) t i = Some (v, m')).
    { intros A p m' p' H. destruct p as [a|x|i k]; try discriminate.
      destruct (pstep_inv _ _ _ _ _ _ _ H) as [(c & e & -> & ->)|(v & Hx & ->)]; eauto. }
    intro Hs. destruct t as [n|x i]; simpl in Hs.
    - destruct (pstep E (wm w) (TClient n) (wc w n)) as [[m' p']|] eqn:H; [|discriminate]. injection Hs as <-. simpl.
      destruct (Hp _ _ _ _ H) as [->|X]; auto.
    - destruct (negb (Nat.ltb i (n_workers E x))); [discriminate|]. destruct (ww w x i) as [|tk p].
      + destruct (tasks (wm w) x) as [|tk r]; [discriminate|]. injection Hs as <-. right; right; left. exists x, r. reflexivity.
      + destruct p as [[|]|e|ins k]; try (injection Hs as <-); [auto|auto|right; right; right; exists tk, e; reflexivity|].
        destruct (pstep E (wm w) (TWorker x i) (Vis ins k)) as [[m' p']|] eqn:H; [|discriminate]. injection Hs as <-. simpl.
        destruct (Hp _ _ _ _ H) as [->|X]; auto.
  Qed.
  Lemma step_one w t w' : step E w t = Some w' -> tr (wm w') = tr (wm w) \/ exists o, tr (wm w') = tr (wm w) ++ [(t, o)].
  Proof.
    intro Hs. destruct (step_mem _ _ _ Hs) as [->|[(i & v & Hx)|[(x & r & ->)|(tk & e & ->)]]]; simpl; eauto. eapply exec_grows; eauto.
  Qed.
  Lemma jstep_one w t w' : jstep w t = Some w' -> tr (wm w') = tr (wm w) \/ exists o, tr (wm w') = tr (wm w) ++ [(t, o)].
  Proof.
    intro Hs. apply jstep_inv in Hs. destruct Hs as [Hs|Hs]; [|eapply step_one; eauto].
    apply decline_tr in Hs. destruct Hs as (x & tk & ->). simpl. eauto.
  Qed.

  (** an execution without rejected tasks is one of Sched.v *)
  Lemma p_C71_none_rejected w0 w : jreach R E w0 w -> (forall t x tk, ~ In (t, OWr (WrReject x tk)) (tr (wm w))) -> reach E w0 w.
  Proof.
    intros [l ->]. induction l as [|t l IH] using rev_ind; intro Hl; [exists []; reflexivity|].
    rewrite jrun_snoc in *. set (w1 := jrun _ l) in *. unfold jstep_or_stay in *.
    destruct (jstep w1 t) as [w'|] eqn:Hs; [|exact (IH Hl)].
    assert (IH' : reach E w0 w1).
    { apply IH. intros t' x tk Hin. apply (Hl t' x tk). destruct (jstep_one _ _ _ Hs) as [->|[o ->]]; [exact Hin|apply in_or_app; auto]. }
    apply jstep_inv in Hs. destruct Hs as [Hs|Hs].
    - exfalso. apply decline_tr in Hs. destruct Hs as (x & tk & Hw). apply (Hl t x tk). rewrite Hw. simpl. apply in_or_app. right. left. reflexivity.
    - destruct IH' as [l' ->]. exists (l' ++ [t]). unfold run. rewrite fold_left_app. simpl. unfold step_or_stay at 1.
      unfold run in Hs. rewrite Hs. reflexivity.
  Qed.

  (** prefixes of the history *)
  Lemma jreach_prefix w0 w : tr w0 = [] -> jreach R E w0 w -> forall a b, tr (wm w) = a ++ b -> exists w1, jreach R E w0 w1 /\ tr (wm w1) = a.
  Proof.
    intros H0 [l ->]. induction l as [|t l IH] using rev_ind; intros a b Hab.
    - simpl in Hab. rewrite H0 in Hab. symmetry in Hab. apply app_eq_nil in Hab. destruct Hab as [-> ->].
      exists (init_world E w0). split; [exists []; reflexivity|exact H0].
    - rewrite jrun_snoc in Hab. unfold jstep_or_stay in Hab. destruct (jstep (jrun _ l) t) as [w'|] eqn:Hs; [|eapply IH; eauto].
      destruct b as [|z b] using rev_ind.
      + rewrite app_nil_r in Hab. exists w'. split; [|exact Hab]. exists (l ++ [t]). rewrite jrun_snoc. unfold jstep_or_stay. rewrite Hs. reflexivity.
      + clear IHb. destruct (jstep_one _ _ _ Hs) as [Ht|[o Ht]]; rewrite Ht in Hab; [eapply IH; exact Hab|].
        rewrite app_assoc in Hab. apply app_inj_tail in Hab. destruct Hab as [Hab _]. eapply IH; exact Hab.
  Qed.

  (** *** soundness of the logic with rejected tasks *)
  Section Sound.
    Context {G : Type} (pre : tid -> G -> instr -> Prop) (post : tid -> G -> forall i, iret i -> G -> Prop).
    Context (inv inv' : mem -> (tid -> G) -> Prop).
    Context (Qc : tid -> res unit -> G -> Prop) (Qw : tid -> task -> res bool -> G -> Prop) (widle : tid -> G -> Prop).
    Notation wok := (worker_ok pre post Qw widle).
    Lemma decline_ok w gs t w' :
      (forall x tk, R x w = true -> inv (wm w) gs -> pre t (gs t) (IExecute x tk) -> wm w' = log t (OWr (WrReject x tk)) (wm w) ->
         exists gs', post t (gs t) (IExecute x tk) false (gs' t) /\ inv' (wm w') gs' /\
           forall t', t' <> t -> gs' t' = gs t' \/ exists x i, t' = TWorker x i /\ forall k, wok t' (gs t') k -> wok t' (gs' t') k) ->
      world_ok pre post inv Qc Qw widle w gs -> decline R E w t = Some w' ->
      exists gs', world_ok pre post inv' Qc Qw widle w' gs'.
    Proof.
      intros Hrej (Hi & Hc & Hw) Hd. destruct t as [n|y i]; simpl in Hd.
      - destruct (declined R w (wc w n)) as [[[x tk] p']|] eqn:Hp; [|discriminate]. injection Hd as <-.
        apply declined_inv in Hp. destruct Hp as (HR & k & Hp & ->). pose proof (Hc n) as Hn. rewrite Hp in Hn. destruct Hn as [Hn1 Hn2].
        destruct (Hrej x tk HR Hi Hn1 eq_refl) as (gs' & Hpost & Hi' & Ho). exists gs'. split; [exact Hi'|]. split.
        + intro n'. simpl. unfold upd. destruct (Nat.eqb_spec n' n) as [->|N]; [apply Hn2; exact Hpost|].
          destruct (Ho (TClient n')) as [->|(? & ? & X & _)]; [congruence|apply Hc|discriminate].
        + intros x' i'. simpl. destruct (Ho (TWorker x' i')) as [->|(? & ? & _ & X)]; [congruence|apply Hw|apply X, Hw].
      - destruct (negb (Nat.ltb i (n_workers E y))); [discriminate|]. destruct (ww w y i) as [|tk0 p] eqn:Ew; [discriminate|].
        destruct (declined R w p) as [[[x tk] p']|] eqn:Hp; [|discriminate]. injection Hd as <-.
        apply declined_inv in Hp. destruct Hp as (HR & k & -> & ->). pose proof (Hw y i) as Hn. rewrite Ew in Hn. destruct Hn as [Hn1 Hn2].
        destruct (Hrej x tk HR Hi Hn1 eq_refl) as (gs' & Hpost & Hi' & Ho). exists gs'. split; [exact Hi'|]. split.
        + intro n'. simpl. destruct (Ho (TClient n')) as [->|(? & ? & X & _)]; [congruence|apply Hc|discriminate].
        + intros x' i'. simpl. unfold set_worker. destruct (Nat.eqb_spec x' y) as [->|N]; simpl; [destruct (Nat.eqb_spec i' i) as [->|N]|].
          * simpl. apply Hn2. exact Hpost.
          * destruct (Ho (TWorker y i')) as [->|(? & ? & _ & X)]; [congruence|apply Hw|apply X, Hw].
          * destruct (Ho (TWorker x' i')) as [->|(? & ? & _ & X)]; [congruence|apply Hw|apply X, Hw].
    Qed.
  End Sound.

  (** *** the shapes of calls *)
  Definition tok := world_ok (pre12 (pre E) (tpre E)) (post12 post tpost) (inv2 E) (fun t _ g => rooted t (snd g))
    (fun t tk _ g => Qd t g /\ match t with TWorker x _ => task_ok E x tk | _ => True end) Qd.
  Lemma tok_step w t w' gs : tok w gs -> step E w t = Some w' -> exists gs', tok w' gs'.
  Proof.
    intros H Hs. apply (world_ok_same E (pre12 (pre E) (tpre E)) (post12 post tpost) (inv2 E) (fun t _ g => rooted t (snd g))
      (fun t tk _ g => Qd t g /\ match t with TWorker x _ => task_ok E x tk | _ => True end) Qd) with (w := w) (gs := gs) (t := t); [| | | | | |exact Hs|exact H].
    - intros. eapply exec_inv2; eauto.
    - intros t1 [g1 g2] c h [_ Hn]. simpl in Hn. destruct g2 as [|[k its] st]; [congruence|].
      eapply wp_mono; [|apply wp_pair; [apply (J_interp_all E _ t1 g1 I)|apply W_interp]].
      simpl. intros r [g1' g2'] [[E1 _] (out & E2 & Hu)]. split; [exact E1|]. simpl in *. eauto.
    - intros w1 gs1 x i tk r (Hi1 & Hi2 & Hl) Hlt Hd Et. exists (gs1 (TWorker x i)).
      assert (Htk : task_ok E x tk) by (apply (ti_tasks _ _ _ Hi2 x); rewrite Et; left; reflexivity).
      split.
      + apply inv2_upd; [| |exact Hl|apply Hl].
        * apply (inv_same E w1); try reflexivity; auto. left. reflexivity.
        * apply (tinv_same E w1); auto. simpl. intros x' tk'. unfold upd.
          destruct (Nat.eqb_spec x' x) as [->|]; [|apply (ti_tasks _ _ _ Hi2)].
          intro Hin. apply (ti_tasks _ _ _ Hi2). rewrite Et. right. exact Hin.
      + eapply wp_mono; [|apply wp_drain2; eauto]. simpl. auto.
    - intros w1 gs1 x i tk (Hi1 & Hi2 & Hl) Hlt [Hd Htk]. exists (gs1 (TWorker x i)). split.
      + apply inv2_upd; [| |exact Hl|apply Hl].
        * eapply inv_ext; [apply gupd_same|exact Hi1].
        * apply (tinv_same E w1); auto. apply (ti_tasks _ _ _ Hi2).
      + eapply wp_mono; [|apply wp_drain2; eauto]. simpl. auto.
    - intros w1 gs1 x i tk (Hi1 & Hi2 & Hl) Hlt [Hd Htk]. exists (gs1 (TWorker x i)). split; [|exact Hd].
      apply inv2_upd; [| |exact Hl|apply Hl].
      + eapply inv_ext; [apply gupd_same|exact Hi1].
      + apply (tinv_same E w1); auto. apply (ti_tasks _ _ _ Hi2).
    - intros w1 gs1 x i tk e (Hi1 & Hi2 & Hl) Hlt [[Hd1 (its & Hd2 & Hd3)] Htk].
      exists (fst (gs1 (TWorker x i)), scan_st (snd (gs1 (TWorker x i))) (OUncaught tk e)). split.
      + apply inv2_upd; auto.
        * apply (inv_same E w1); try reflexivity; auto. right. eexists _, _. split; [reflexivity|exact I].
        * eapply tinv_log; [exact Hi2|reflexivity|discriminate|apply (ti_tasks _ _ _ Hi2)].
        * intros q p c r. simpl. rewrite Hd2. discriminate.
      + split; [exact Hd1|]. simpl. rewrite Hd2. exists (its ++ [OUncaught tk e]). split; [reflexivity|].
        apply Forall_app. split; [exact Hd3|]. repeat constructor.
  Qed.
  Lemma tok_decline w t w' gs : tok w gs -> decline R E w t = Some w' -> exists gs', tok w' gs'.
  Proof.
    intros H Hd. eapply decline_ok; [|exact H|exact Hd]. intros x tk _ (Hi1 & Hi2 & Hl) [Hp1 Hp2] ->.
    set (g' := (fst (gs t), addl [OWr (WrReject x tk)] (snd (gs t)))). exists (gupd gs t g'). rewrite gupd_eq.
    split; [split; reflexivity|]. split; [|intros t' N; left; apply gupd_neq; exact N].
    apply inv2_upd; [| |exact Hl|].
    - apply (inv_same E (wm w) _ (fun t => fst (gs t))); try reflexivity; auto. right. eexists _, _. split; [reflexivity|exact I].
    - unfold g'. simpl snd. rewrite addl_one by reflexivity.
      apply (tinv_log E (wm w) _ (fun t => snd (gs t)) t (OWr (WrReject x tk))); [exact Hi2|reflexivity|discriminate|apply (ti_tasks _ _ _ Hi2)].
    - intros q p c r Hg. exfalso. simpl in Hg. destruct (snd (gs t)) as [|[k its] r0]; [discriminate|]. injection Hg as _ Hg _. destruct its; discriminate.
  Qed.
  Lemma tok_all w0 w : init_mem E w0 -> jreach R E w0 w -> exists gs, tok w gs.
  Proof.
    intros H0 [l ->]. induction l as [|t l [gs IH]] using rev_ind.
    - exists (fun _ : tid => (@nil (pid * (bool * content)), [(FRoot, [])] : stack)). destruct H0. split; [|split].
      + split; [|split].
        * split; simpl.
          -- exists (fun _ => PFresh). simpl. split; simpl; intros; rewrite ?im_pools, ?im_queues, ?im_npair in *; simpl in *;
              try constructor; try easy; try lia.
          -- intro q. simpl. rewrite im_tr, im_queues. reflexivity.
          -- intros t q p e m e' m'. simpl. rewrite im_tr. intros [].
          -- intros t p. simpl. rewrite im_tr. simpl. split; [intros []|intros [c []]].
          -- simpl. rewrite im_tr. constructor.
        * split; simpl.
          -- intro t. rewrite im_tr. reflexivity.
          -- intro t. rewrite im_tr. constructor.
          -- intros x tk. rewrite im_tasks. intros [].
        * intros t q p c r. discriminate.
      + intro n. simpl. destruct (Nat.ltb n (n_clients E)).
        * eapply wp_mono; [|apply wp_pair; [apply (J_interp_all E _ _ _ I)|apply W_interp]].
          simpl. intros r [g1 g2] [_ (out & E2 & Hu)]. simpl in *. exists out. auto.
        * exists []. split; [reflexivity|constructor].
      + intros x i. split; [reflexivity|]. exists []. split; [reflexivity|constructor].
    - rewrite jrun_snoc. unfold jstep_or_stay. destruct (jstep (jrun _ l) t) as [w'|] eqn:Hs; [|eauto].
      apply jstep_inv in Hs. destruct Hs as [Hs|Hs]; [eapply tok_decline|eapply tok_step]; eauto.
  Qed.
  Lemma jnode w0 w t a op b its z d k : init_mem E w0 -> jreach R E w0 w ->
    span t (tr (wm w)) a op b its z d -> opens op = Some k -> node_ok E t (k, its, z).
  Proof.
    intros H0 Hr Hs Ho. destruct (tok_all w0 w H0 Hr) as (gs & (_ & Hi & _) & _).
    pose proof (ti_nodes _ _ _ Hi t) as Hn. rewrite Forall_forall in Hn. apply Hn. eapply span_closed; eauto.
  Qed.
  Lemma p_C71_in_order w0 w q : init_mem E w0 -> jreach R E w0 w ->
    accepted q (tr (wm w)) = taken q (tr (wm w)) ++ map (fun p => (p, pairs (wm w) p)) (queues (wm w) q).
  Proof. intros H0 Hr. destruct (tok_all w0 w H0 Hr) as (gs & (Hi & _) & _). apply (i_fifo _ _ _ Hi). Qed.

  (** *** fire() when the task is rejected *)
  Lemma fire_shape m e x its X tk : fireL E m e x its -> In (OWr (WrReject X tk)) its ->
    x = Some XRejected /\ X = exec_of E m /\ tk_mach tk = m /\
    exists p e', shown its = [OOffer (queue_of E m) p e m e' m] /\ In (OOffer (queue_of E m) p e m e' m) its.
  Proof.
    intros Hl Hin.
    assert (Hd : forall o, In (OWr (WrReject X tk)) o -> defaultL E (strat_of E m) e m x o ->
      x = Some XRejected /\ X = exec_of E m /\ tk_mach tk = m /\
      exists p e', shown o = [OOffer (queue_of E m) p e m e' m] /\ In (OOffer (queue_of E m) p e m e' m) o).
    { intros o Ho (c & n & o' & -> & Hf). destruct Ho as [Ho|[Ho|Ho]]; [discriminate|discriminate|]. destruct (full E (strat_of E m) n).
      - rewrite Hf in Ho. simpl in Ho. intuition discriminate.
      - destruct Hf as (p & o2 & Hsub & Hf).
        assert (Hi2 : In (OWr (WrReject X tk)) o2).
        { destruct Hf as [->|(y0 & nm & y' & e2 & ->)]; apply in_app_or in Ho; destruct Ho as [Ho|]; auto; simpl in Ho; intuition discriminate. }
        destruct Hsub as [[_ ->]|[-> ->]]; [destruct Hi2 as [Hi2|[]]; discriminate|]. destruct Hi2 as [Hi2|[]]. injection Hi2 as <- <-.
        split; [reflexivity|]. split; [reflexivity|]. split; [reflexivity|].
        destruct Hf as [->|(y0 & nm & y' & e2 & ->)]; exists p; eexists; (split; [reflexivity|simpl; eauto 12]). }
    assert (Hpr : forall i1 o, reads i1 -> In (OWr (WrReject X tk)) (i1 ++ o) -> (In (OWr (WrReject X tk)) o ->
        x = Some XRejected /\ X = exec_of E m /\ tk_mach tk = m /\
        exists p e', shown o = [OOffer (queue_of E m) p e m e' m] /\ In (OOffer (queue_of E m) p e m e' m) o) ->
      x = Some XRejected /\ X = exec_of E m /\ tk_mach tk = m /\
      exists p e', shown (i1 ++ o) = [OOffer (queue_of E m) p e m e' m] /\ In (OOffer (queue_of E m) p e m e' m) (i1 ++ o)).
    { intros i1 o Hrd Hio Ho. apply in_app_or in Hio. destruct Hio as [Hio|Hio].
      { unfold reads in Hrd. rewrite Forall_forall in Hrd. discriminate (Hrd _ Hio). }
      destruct (Ho Hio) as (H1 & H2 & H3 & p & e' & H4 & H5). repeat (split; [assumption|]). exists p, e'.
      split; [|apply in_or_app; auto]. unfold shown in *. rewrite filter_app, H4.
      replace (filter visible i1) with (@nil obs); [reflexivity|]. clear -Hrd.
      induction Hrd as [|o l Ho _ IH]; [reflexivity|]. destruct o; try discriminate. exact IH. }
    assert (HP : forall o, In (OWr (WrReject X tk)) o -> processL E (strat_of E m) e m x o ->
      x = Some XRejected /\ X = exec_of E m /\ tk_mach tk = m /\
      exists p e', shown o = [OOffer (queue_of E m) p e m e' m] /\ In (OOffer (queue_of E m) p e m e' m) o).
    { intros o Hio Hp. unfold processL in Hp. destruct (s_drop (strat E (strat_of E m))); [|eapply Hd; eauto].
      destruct Hp as (ps & nm & yy & o1 & o2 & -> & Hm & Hy). pose proof (scan_reads _ _ _ _ _ _ Hm) as Hmr.
      apply (Hpr [ORd (RdIter (s_queue (strat E (strat_of E m))) ps); ORd (RdName e nm)]); [repeat constructor|exact Hio|].
      intro Hio1. apply Hpr; [exact Hmr|exact Hio1|]. intro Hio2. destruct yy as [yy|[|]].
      - destruct Hy as [_ ->]. destruct Hio2.
      - destruct Hy as [_ ->]. destruct Hio2 as [Hio2|[]]. discriminate.
      - apply Hd; assumption. }
    destruct Hl as [->|[->|(o & Ho & Hl)]]; [simpl in Hin; intuition discriminate|simpl in Hin; intuition discriminate|].
    destruct Ho as [->| ->]; (apply Hpr; [repeat constructor|exact Hin|]); intro Hio; apply HP; assumption.
  Qed.

  Lemma p_C71_rejected w0 w : init_mem E w0 -> jreach R E w0 w ->
    forall m e t a b its v d x tk, span t (tr (wm w)) a (OInv (AFire m e)) b its (ORet (AFire m e) v) d ->
    In (OWr (WrReject x tk)) its ->
    v = RvErr XRejected /\ x = exec_of E m /\
    exists p e', shown its = [OOffer (queue_of E m) p e m e' m] /\
      (taken (queue_of E m) b = [] -> In (p, Some (e', m)) (waiting (queue_of E m) (a ++ (t, OInv (AFire m e)) :: b ++ [(t, ORet (AFire m e) v)]))).
  Proof.
    intros H0 Hr m e t a b its v d x tk Hs Hin.
    pose proof (jnode w0 w _ _ _ _ _ _ _ (FApi (AFire m e)) H0 Hr Hs eq_refl) as [_ (y & Hv & Hl)].
    destruct (fire_shape _ _ _ _ _ _ Hl Hin) as (-> & -> & _ & p & e' & Hsh & Hio). split; [exact Hv|]. split; [reflexivity|].
    exists p, e'. split; [exact Hsh|]. intro Htk. set (q := queue_of E m) in *.
    apply in_split in Hio. destruct Hio as (j1 & j2 & Hj). destruct (item_moment w _ _ _ _ _ _ _ _ _ _ Hs Hj eq_refl) as (c1 & c2 & Hb & _ & HT).
    set (h1 := a ++ (t, OInv (AFire m e)) :: c1) in *. set (r := c2 ++ [(t, ORet (AFire m e) v)]).
    assert (Hg : a ++ (t, OInv (AFire m e)) :: b ++ [(t, ORet (AFire m e) v)] = h1 ++ [(t, OOffer q p e m e' m)] ++ r).
    { unfold h1, r. rewrite Hb. repeat (rewrite <- ?app_assoc; simpl). reflexivity. }
    assert (HT' : tr (wm w) = (h1 ++ [(t, OOffer q p e m e' m)] ++ r) ++ d).
    { unfold r. rewrite HT. repeat (rewrite <- ?app_assoc; simpl). reflexivity. }
    destruct (jreach_prefix w0 w (im_tr _ _ H0) Hr h1 _ (eq_trans HT' (eq_sym (app_assoc _ _ _)))) as (w1 & Hr1 & Hw1).
    pose proof (p_C71_in_order w0 w1 q H0 Hr1) as Hf. rewrite Hw1 in Hf. rewrite Hg.
    assert (Hc : taken q c2 = []) by (rewrite Hb in Htk; unfold taken in *; rewrite flat_map_app in Htk; apply app_eq_nil in Htk; apply Htk).
    unfold waiting, taken, accepted in *. rewrite !flat_map_app. unfold r. rewrite !flat_map_app, Hc. simpl. rewrite !Nat.eqb_refl, !app_nil_r.
    rewrite Hf, <- app_assoc, skipn_app, skipn_all, Nat.sub_diag. simpl. apply in_or_app. right. left. reflexivity.
  Qed.

  (** *** what is left when everything is at rest *)
  Section Token.
    Context (q : qid).
    Definition real (t : tid) : Prop := match t with TClient _ => True | TWorker x i => i < n_workers E x end.
    Definition jpre (t : tid) (g : held * token) (i : instr) : Prop := real t /\ pre12 (pre E) (kpre E q) t g i.
    Lemma wp_jpre {A : Set} t (p : prog A) Q g : real t -> wp (pre12 (pre E) (kpre E q)) (post12 post (kpost q)) t p Q g ->
      wp jpre (post12 post (kpost q)) t p Q g.
    Proof.
      intro Hn. revert g. induction p as [a|x|i k IH]; simpl; intro g; auto. intros [H1 H2]. split; [split; assumption|]. intros v g' Hp. apply IH. auto.
    Qed.
    (** a rejected task is as if held by a thread that does nothing; these threads are S *)
    Definition spare (S : list tid) (gs : tid -> held * token) : Prop :=
      forall t, ~ real t -> gs t = ([], idle2) \/ (In t S /\ gs t = ([], (true, false))).
    Definition kept (S : list tid) : Prop := forall x i, In (TWorker x i) S -> i < n_workers E x + List.length S.
    Definition sinv (S : list tid) (w : mem) (gs : tid -> held * token) : Prop := tinv2 E q w gs /\ spare S gs.
    Definition sidle (t : tid) (g : held * token) : Prop := ~ real t \/ Qi g.
    Definition sok (S : list tid) := world_ok jpre (post12 post (kpost q)) (sinv S) (fun _ _ _ => True) (fun t _ _ g => real t /\ Qi g) sidle.
    Lemma spare_upd S gs t g : real t -> spare S gs -> spare S (gupd gs t g).
    Proof. intros Hr Hs t' Ht. rewrite gupd_neq; [apply Hs; exact Ht|intros ->; contradiction]. Qed.

    Lemma sok_step S w t w' gs : sok S w gs -> step E w t = Some w' -> exists gs', sok S w' gs'.
    Proof.
      intros H Hs. apply (world_ok_same E jpre (post12 post (kpost q)) (sinv S) (fun _ _ _ => True) (fun t _ _ g => real t /\ Qi g) sidle)
        with (w := w) (gs := gs) (t := t); [| | | | | |exact Hs|exact H].
      - intros w1 gs1 t1 i v w2 [[Hi Hk] Hsp] [Hre [Hp1 Hp2]] Hx.
        destruct (exec_own E w1 (fun t => fst (gs1 t)) t1 i v w2 Hi Hp1 Hx) as (g1 & Hq1 & Hi').
        destruct (exec_token E q true w1 (fun t => fst (gs1 t)) (fun t => snd (gs1 t)) t1 i v w2 (fun _ => conj Hi Hp1) Hk Hp2 Hx) as (g2 & Hq2 & Hk').
        exists (g1, g2). split; [split; assumption|]. split; [apply tinv2_upd; assumption|apply spare_upd; assumption].
      - intros t1 [g1 g2] c h [Hre [_ Hn]]. simpl in Hn. apply wp_jpre; [exact Hre|].
        eapply wp_mono; [|apply wp_pair; [apply (J_interp_all E _ t1 g1 I)|apply (K_interp_all E q _ t1 g2 Hn)]].
        simpl. intros r [g1' g2'] [[E1 _] [E2 _]]. split; [exact E1|exact E2].
      - intros w1 gs1 x i tk r [[Hi Hk] Hsp] Hl Hid Et. assert (Hre : real (TWorker x i)) by exact Hl.
        destruct Hid as [X|Hg]; [contradiction|]. exists ([], (tq E q tk, false)). split.
        2:{ apply wp_jpre; [exact Hre|]. eapply wp_mono; [|apply wp_drain_both; auto]. simpl. auto. }
        set (t1 := TWorker x i) in *. split; [|apply spare_upd; assumption]. apply tinv2_upd.
        + simpl fst. replace (@nil (pid * (bool * content))) with (fst (gs1 t1)) by (rewrite Hg; reflexivity).
          apply (inv_same E w1); try reflexivity; auto. left. reflexivity.
        + apply (ktake E q true w1 (fun t => snd (gs1 t))); [exact Hk|fold t1; cbv beta; rewrite Hg; reflexivity|exact Et].
      - intros w1 gs1 x i tk [[Hi Hk] Hsp] Hl [Hre Hg]. exists (gs1 (TWorker x i)). split.
        2:{ rewrite Hg. apply wp_jpre; [exact Hre|]. eapply wp_mono; [|apply wp_drain_both; auto]. simpl. auto. }
        split; [|apply spare_upd; assumption].
        apply tinv2_upd; [eapply inv_ext; [|exact Hi]|eapply kinv_ext; [|exact Hk]]; intro t'; apply (gupd_id2 (fun t => _ (gs1 t))).
      - intros w1 gs1 x i tk [[Hi Hk] Hsp] Hl [Hre Hg]. exists (gs1 (TWorker x i)). split; [|right; exact Hg].
        split; [|apply spare_upd; assumption].
        apply tinv2_upd; [eapply inv_ext; [|exact Hi]|eapply kinv_ext; [|exact Hk]]; intro t'; apply (gupd_id2 (fun t => _ (gs1 t))).
      - intros w1 gs1 x i tk e [[Hi Hk] Hsp] Hl [Hre Hg]. exists (gs1 (TWorker x i)). split; [|right; exact Hg].
        split; [|apply spare_upd; assumption]. apply tinv2_upd.
        + apply (inv_same E w1 _ (fun t => fst (gs1 t))); try reflexivity; auto. right; eexists _, _; split; [reflexivity|exact I].
        + apply (kstep0 E q true w1 _ (fun t => snd (gs1 t))); auto; [right; eexists; reflexivity|]. rewrite Hg. reflexivity.
    Qed.

    (** a rejected task *)
    Lemma kreject w gs t t' x tk : kinv E q true w gs -> kpre E q t (gs t) (IExecute x tk) -> ~ real t' -> t <> t' -> gs t' = idle2 ->
      (exists i, t' = TWorker x i) -> snd (gs t) = true ->
      kinv E q true (log t (OWr (WrReject x tk)) w) (gupd (gupd gs t (fst (gs t), false)) t' (true, false)).
    Proof.
      intros [H1 H2 H3 H4 H5] [Hp0 Hp] Hre Hn Hg' [i Hi] Hs. split; [| | | |exact H5].
      - destruct H1 as [H1|H1]; [left; exact H1|right].
        assert (Hb : bounded (List.length (queues w q) + 1) (cost E q w (gupd gs t' (true, false)))).
        { eapply (bounded_upd place_dec _ _ (cost E q w gs) _ (inl t')); [| |exact H1].
          - intros [t1|x1] N; simpl; [rewrite gupd_neq by congruence|]; reflexivity.
          - simpl. rewrite gupd_eq, Hg'. simpl. lia. }
        eapply (bounded_upd place_dec _ _ _ _ (inl t)); [| |exact Hb].
        + intros [t1|x1] N; simpl; [|reflexivity]. unfold gupd. destruct (tid_eq_dec t1 t'); [reflexivity|]. destruct (tid_eq_dec t1 t); [congruence|reflexivity].
        + simpl. unfold gupd. destruct (tid_eq_dec t t'); [contradiction|]. destruct (tid_eq_dec t t); [|congruence]. simpl. rewrite Hs. simpl. lia.
      - intros Hst t1. unfold gupd. destruct (tid_eq_dec t1 t'); [discriminate|]. destruct (tid_eq_dec t1 t) as [->|N]; [discriminate|].
        intro Hq. eapply (mark_other q w _ t); [right; eexists; reflexivity|exact N|auto].
      - intros n. rewrite gupd_neq by (subst; congruence). unfold gupd. destruct (tid_eq_dec (TClient n) t) as [<-|N]; apply H3.
      - intros y j. unfold gupd. destruct (tid_eq_dec (TWorker y j) t') as [Et|N].
        + intros _. rewrite Hi in Et. injection Et as -> ->. destruct Hp0 as [Hp0 Hp1]. exists (tk_mach tk). unfold queue_of, exec_of. rewrite <- Hp0.
          split; [symmetry; exact Hp1|]. apply Nat.eqb_eq. apply Hp. exact Hs.
        + destruct (tid_eq_dec (TWorker y j) t) as [<-|N']; apply H4.
    Qed.
    Lemma sok_decline S w t w' gs : kept S -> sok S w gs -> decline R E w t = Some w' ->
      exists S' gs', sok S' w' gs' /\ kept S' /\
        List.length S' + rejections E q (tr (wm w)) <= List.length S + rejections E q (tr (wm w')).
    Proof.
      intros HS H Hd.
      assert (Hex : exists S', kept S' /\ List.length S' + rejections E q (tr (wm w)) <= List.length S + rejections E q (tr (wm w')) /\
        (forall x tk, R x w = true -> sinv S (wm w) gs -> jpre t (gs t) (IExecute x tk) -> wm w' = log t (OWr (WrReject x tk)) (wm w) ->
         exists gs', post12 post (kpost q) t (gs t) (IExecute x tk) false (gs' t) /\ sinv S' (wm w') gs' /\
           forall t', t' <> t -> gs' t' = gs t' \/ exists x i, t' = TWorker x i /\
             forall k, worker_ok jpre (post12 post (kpost q)) (fun t _ _ g => real t /\ Qi g) sidle t' (gs t') k ->
                       worker_ok jpre (post12 post (kpost q)) (fun t _ _ g => real t /\ Qi g) sidle t' (gs' t') k)).
      { pose proof (decline_tr _ _ _ Hd) as (x0 & tk0 & Hw').
        assert (Hrj : rejections E q (tr (wm w')) = rejections E q (tr (wm w)) + b2n (Nat.eqb (queue_of E (tk_mach tk0)) q)).
        { rewrite Hw'. simpl. unfold rejections. rewrite filter_app, app_length. simpl. destruct (Nat.eqb (queue_of E (tk_mach tk0)) q); reflexivity. }
        destruct (andb (Nat.eqb (queue_of E (tk_mach tk0)) q) (snd (snd (gs t)))) eqn:Eb.
        - apply andb_true_iff in Eb. destruct Eb as [Eq Es]. set (t' := TWorker x0 (n_workers E x0 + List.length S)).
          assert (Hn' : ~ real t') by (simpl; lia). exists (t' :: S). split; [|split].
          + intros x i [X|X]; [injection X as <- <-; simpl; lia|]. specialize (HS _ _ X). simpl. lia.
          + rewrite Hrj, Eq. simpl. lia.
          + intros x tk _ [[Hi Hk] Hsp] [Hre [Hp1 Hp2]] Hw. rewrite Hw in Hw'.
            assert (HX : x = x0 /\ tk = tk0).
            { apply (f_equal tr) in Hw'. simpl in Hw'. apply app_inj_tail in Hw'. destruct Hw' as [_ X]. injection X as -> ->. auto. }
            destruct HX as [-> ->]. assert (Htt : t <> t') by (intros ->; contradiction).
            assert (Hg' : gs t' = ([], idle2)).
            { destruct (Hsp t' Hn') as [X|[X _]]; [exact X|]. specialize (HS _ _ X). lia. }
            exists (gupd (gupd gs t (fst (gs t), (fst (snd (gs t)), false))) t' ([], (true, false))). split; [|split].
            * rewrite gupd_neq by congruence. rewrite gupd_eq. split; reflexivity.
            * rewrite Hw. split.
              -- split.
                 ++ eapply inv_ext; [|apply (inv_same E (wm w) _ (fun t => fst (gs t)) t); try reflexivity; [|exact Hi]].
                    ** intro t1. unfold gupd. destruct (tid_eq_dec t1 t'); [subst t1; destruct (tid_eq_dec t' t); [congruence|rewrite Hg'; reflexivity]|].
                       destruct (tid_eq_dec t1 t); [subst|]; reflexivity.
                    ** right; eexists _, _; split; [reflexivity|exact I].
                 ++ eapply kinv_ext; [|apply (kreject (wm w) (fun t => snd (gs t)) t t' x0 tk0); auto].
                    ** intro t1. unfold gupd. destruct (tid_eq_dec t1 t'); [reflexivity|]. destruct (tid_eq_dec t1 t); reflexivity.
                    ** cbv beta. rewrite Hg'. reflexivity.
                    ** unfold t'. eauto.
              -- intros t1 Ht1. unfold gupd. destruct (tid_eq_dec t1 t') as [->|N]; [right; split; [left; reflexivity|reflexivity]|].
                 destruct (tid_eq_dec t1 t) as [->|N2]; [contradiction|]. destruct (Hsp t1 Ht1) as [X|[X Y]]; [auto|right; split; [right|]; assumption].
            * intros t1 N1. unfold gupd. destruct (tid_eq_dec t1 t') as [->|N]; [right|destruct (tid_eq_dec t1 t); [contradiction|auto]].
              exists x0, (n_workers E x0 + List.length S). split; [reflexivity|]. intros [|tk1 [a|e|ins k]] Hk1; simpl in *; [left; exact Hn'| | |]; exfalso; [destruct Hk1 as [Y _]|destruct Hk1 as [Y _]|destruct Hk1 as [[Y _] _]]; contradiction.
        - exists S. split; [exact HS|]. split; [rewrite Hrj; lia|].
          intros x tk _ [[Hi Hk] Hsp] [Hre [Hp1 Hp2]] Hw. rewrite Hw in Hw'.
          assert (HX : x = x0 /\ tk = tk0).
          { apply (f_equal tr) in Hw'. simpl in Hw'. apply app_inj_tail in Hw'. destruct Hw' as [_ X]. injection X as -> ->. auto. }
          destruct HX as [-> ->].
          assert (Es : snd (snd (gs t)) = false).
          { apply andb_false_iff in Eb. destruct Eb as [Eb|Eb]; [|exact Eb]. destruct (snd (snd (gs t))) eqn:Es; [|reflexivity].
            destruct Hp2 as [[Ha _] Hb]. specialize (Hb Es). unfold tq in Hb. unfold queue_of in Eb. rewrite <- Ha in Eb. congruence. }
          exists (gupd gs t (gs t)). rewrite gupd_eq. split; [|split].
          + split; [reflexivity|]. simpl. rewrite <- Es. destruct (snd (gs t)); reflexivity.
          + rewrite Hw. split; [|apply spare_upd; assumption]. apply tinv2_upd.
            * apply (inv_same E (wm w) _ (fun t => fst (gs t))); try reflexivity; auto. right; eexists _, _; split; [reflexivity|exact I].
            * apply (kstep0 E q true (wm w) _ (fun t => snd (gs t))); auto. right; eexists; reflexivity.
          + intros t1 N1. left. apply gupd_neq. exact N1. }
      destruct Hex as (S' & HS' & Hlen & Hrej). destruct (decline_ok _ _ _ (sinv S') _ _ _ _ _ _ _ Hrej H Hd) as [gs' Hok]. eauto.
    Qed.

    (** when the queue is empty, the rejected tasks do not matter any more *)
    Lemma sok_empty S w gs : sok S w gs -> queues (wm w) q = [] -> exists gs', sok [] w gs'.
    Proof.
      intros ([[Hi Hk] Hsp] & Hc & Hw) Hq.
      set (isr := fun t : tid => match t with TClient _ => true | TWorker x i => Nat.ltb i (n_workers E x) end).
      assert (Hisr : forall t, isr t = true <-> real t) by (intros [n|x i]; simpl; [split; auto|apply Nat.ltb_lt]).
      set (gs' := fun t => if isr t then gs t else ([], idle2)).
      assert (Hor : forall t, gs' t = gs t \/ (~ real t /\ gs' t = ([], idle2) /\ fst (gs t) = [] /\ snd (snd (gs t)) = false)).
      { intro t. unfold gs'. destruct (isr t) eqn:Et; [auto|]. right. assert (Hn : ~ real t) by (rewrite <- Hisr; congruence).
        split; [exact Hn|]. destruct (Hsp t Hn) as [X|[_ X]]; rewrite X; auto. }
      exists gs'. split; [|split].
      - split; [split|].
        + eapply inv_ext; [|exact Hi]. intro t. cbv beta. destruct (Hor t) as [->|(_ & -> & X & _)]; [reflexivity|exact X].
        + destruct Hk as [H1 H2 H3 H4 H5]. split; [| | | |exact H5].
          * destruct H1 as [H1|(L & HL1 & HL2 & HL3)]; [left; exact H1|right]. exists L. rewrite Hq. split; [exact HL1|]. split; [|simpl; lia].
            intros [t|x] Ha; specialize (HL2 _ Ha); simpl in *; [|exact HL2]. destruct (Hor t) as [->|(_ & -> & _)]; [exact HL2|reflexivity].
          * intros Hs t. destruct (Hor t) as [->|(_ & -> & _)]; [apply (H2 Hs)|discriminate].
          * intro n. apply H3.
          * intros x i. cbv beta. destruct (Hor (TWorker x i)) as [->|(_ & -> & _)]; [apply H4|discriminate].
        + intros t Ht. left. unfold gs'. destruct (isr t) eqn:Et; [|reflexivity]. apply Hisr in Et. contradiction.
      - intro n. apply Hc.
      - intros x i. specialize (Hw x i). destruct (Hor (TWorker x i)) as [->|(Hn & -> & _)]; [exact Hw|].
        destruct (ww w x i) as [|tk1 [a|e|ins k]]; simpl in *; [left; exact Hn| | |]; exfalso; [destruct Hw as [Y _]|destruct Hw as [Y _]|destruct Hw as [[Y _] _]]; contradiction.
    Qed.
    Lemma sok_init w0 : init_mem E w0 -> exists gs, sok [] (init_world E w0) gs.
    Proof.
      intro H0. exists (fun _ => ([], idle2)). destruct H0. split; [|split].
      - split; [|intros t _; left; reflexivity]. split; [split|split].
        + exists (fun _ => PFresh). simpl. split; simpl; intros; rewrite ?im_pools, ?im_queues, ?im_npair in *; simpl in *;
            try constructor; try easy; try lia.
        + intro q0. simpl. rewrite im_tr, im_queues. reflexivity.
        + intros t q0 p e m e' m'. simpl. rewrite im_tr. intros [].
        + intros t p. simpl. rewrite im_tr. simpl. split; [intros []|intros [c []]].
        + simpl. rewrite im_tr. constructor.
        + right. exists []. split; [constructor|]. split; [|simpl; rewrite im_queues; simpl; lia].
          intros [t|x] _; simpl; [reflexivity|rewrite im_tasks; reflexivity].
        + discriminate.
        + reflexivity.
        + discriminate.
        + intros x tk. simpl. rewrite im_tasks. intros [].
      - intro n. simpl. destruct (Nat.ltb n (n_clients E)); [|exact I]. apply wp_jpre; [exact I|].
        eapply wp_mono; [|apply wp_pair; [apply (J_interp_all E _ _ _ I)|apply K_interp_all; reflexivity]]. auto.
      - intros x i. right. reflexivity.
    Qed.

    Lemma waiting_queue w0 w : init_mem E w0 -> jreach R E w0 w -> waiting q (tr (wm w)) = map (fun p => (p, pairs (wm w) p)) (queues (wm w) q).
    Proof.
      intros H0 Hr. unfold waiting. rewrite (p_C71_in_order w0 w q H0 Hr), skipn_app, skipn_all, Nat.sub_diag. reflexivity.
    Qed.
    Lemma rejections_app a b : rejections E q (a ++ b) = rejections E q a + rejections E q b.
    Proof. unfold rejections. rewrite filter_app, app_length. reflexivity. Qed.
    Lemma sok_since w0 w : init_mem E w0 -> jreach R E w0 w -> forall a b, tr (wm w) = a ++ b -> waiting q a = [] ->
      exists S gs, sok S w gs /\ kept S /\ List.length S <= rejections E q b.
    Proof.
      intros H0 [l ->]. induction l as [|t l IH] using rev_ind; intros a b Hab Ha.
      - destruct (sok_init w0 H0) as [gs Hok]. exists [], gs. split; [exact Hok|]. split; [intros ? ? []|simpl; lia].
      - assert (Hr' : jreach R E w0 (jrun (init_world E w0) (l ++ [t]))) by (exists (l ++ [t]); reflexivity).
        assert (Hst : forall a b b', tr (wm (jrun (init_world E w0) l)) = a ++ b -> waiting q a = [] ->
          tr (wm (jrun (init_world E w0) (l ++ [t]))) = a ++ b' ->
          exists S gs, sok S (jrun (init_world E w0) (l ++ [t])) gs /\ kept S /\ List.length S <= rejections E q b').
        { clear a b Hab Ha. intros a b b' Hab Ha Hab'. destruct (IH a b Hab Ha) as (S & gs & Hok & HS & Hlen).
          rewrite jrun_snoc in Hab' |- *. unfold jstep_or_stay in Hab' |- *.
          destruct (jstep (jrun _ l) t) as [w'|] eqn:Hs.
          - assert (Hmono : rejections E q b <= rejections E q b').
            { destruct (jstep_one _ _ _ Hs) as [Ht|[o Ht]]; rewrite Hab, Hab' in Ht; [apply app_inv_head in Ht; subst; lia|].
              rewrite <- app_assoc in Ht. apply app_inv_head in Ht. subst. rewrite rejections_app. lia. }
            apply jstep_inv in Hs. destruct Hs as [Hs|Hs].
            + destruct (sok_decline _ _ _ _ _ HS Hok Hs) as (S' & gs' & Hok' & HS' & Hlen'). exists S', gs'. split; [exact Hok'|]. split; [exact HS'|].
              rewrite Hab, Hab', !rejections_app in Hlen'. lia.
            + destruct (sok_step _ _ _ _ _ Hok Hs) as [gs' Hok']. exists S, gs'. split; [exact Hok'|]. split; [exact HS|lia].
          - exists S, gs. split; [exact Hok|]. split; [exact HS|]. rewrite Hab in Hab'. apply app_inv_head in Hab'. subst. exact Hlen. }
        destruct b as [|z b _] using rev_ind.
        + destruct (Hst [] (tr (wm (jrun (init_world E w0) l))) (tr (wm (jrun (init_world E w0) (l ++ [t])))) eq_refl eq_refl eq_refl) as (S & gs & Hok & _).
          rewrite app_nil_r in Hab. rewrite <- Hab, (waiting_queue w0 _ H0 Hr') in Ha. apply map_eq_nil in Ha.
          destruct (sok_empty _ _ _ Hok Ha) as [gs' Hok']. exists [], gs'. split; [exact Hok'|]. split; [intros ? ? []|simpl; lia].
        + pose proof Hab as Hab0. rewrite jrun_snoc in Hab. unfold jstep_or_stay in Hab. destruct (jstep (jrun _ l) t) as [w'|] eqn:Hs; [|eapply Hst; eauto].
          destruct (jstep_one _ _ _ Hs) as [Ht|[o Ht]]; rewrite Ht in Hab; [eapply Hst; eauto|].
          rewrite app_assoc in Hab. apply app_inj_tail in Hab. destruct Hab as [Hab _]. eapply Hst; eauto.
    Qed.

    (** shutdown() leaves a trace *)
    Lemma shut_known w0 w x : init_mem E w0 -> jreach R E w0 w -> shut (wm w) x = true -> shut_at x (tr (wm w)).
    Proof.
      intros H0 [l ->]. induction l as [|t l IH] using rev_ind; intro Hx.
      - simpl in Hx. rewrite (im_shut _ _ H0) in Hx. discriminate.
      - rewrite jrun_snoc in *. unfold jstep_or_stay in *. destruct (jstep (jrun _ l) t) as [w'|] eqn:Hs; [|auto]. set (w1 := jrun _ l) in *.
        assert (Hold : shut_at x (tr (wm w1)) -> shut_at x (tr (wm w'))).
        { intros [t' Hin]. exists t'. destruct (jstep_one _ _ _ Hs) as [->|[o ->]]; [exact Hin|apply in_or_app; auto]. }
        assert (Hor : shut (wm w1) x = true \/ shut_at x (tr (wm w'))); [|destruct Hor; auto].
        apply jstep_inv in Hs. destruct Hs as [Hs|Hs].
        + apply decline_tr in Hs. destruct Hs as (y & tk & Hw). rewrite Hw in Hx. left. exact Hx.
        + destruct (step_mem _ _ _ Hs) as [Hw|[(i & v & Hw)|[(y & r & Hw)|(tk & e & Hw)]]]; try (rewrite Hw in Hx; left; exact Hx).
          clear -Hw Hx. destruct i; cbn [exec] in Hw;
            repeat match type of Hw with
            | (if ?b then _ else _) = _ => destruct b
            | (match ?b with _ => _ end) = _ => destruct b
            end; try discriminate; injection Hw as Hv Hw; rewrite <- Hw in Hx |- *; try (left; exact Hx).
          { destruct (pairs (wm w1) p) as [[? ?]|]; left; exact Hx. }
          simpl in Hx. unfold upd in Hx. match type of Hx with (if Nat.eqb _ ?y then _ else _) = _ => destruct (Nat.eqb_spec x y) as [->|]; [|auto] end. right. exists t. simpl. apply in_or_app. right. left. reflexivity.
    Qed.

    (** at rest, the tokens are those of rejected tasks *)
    Lemma total_le f (L : list (tid + xid)) (S : list tid) : NoDup L -> (forall a, f a <= 1) -> (forall a, f a <> 0 -> exists t, a = inl t /\ In t S) ->
      total f L <= List.length S.
    Proof.
      intros Hd H1 H2.
      assert (Ht : total f L = List.length (filter (fun a => negb (Nat.eqb (f a) 0)) L)).
      { clear -H1. induction L as [|a L IH]; [reflexivity|]. unfold total in *. simpl. rewrite IH. specialize (H1 a).
        destruct (f a) as [|[|n]]; simpl; lia. }
      rewrite Ht, <- (map_length (@inl tid xid) S). apply NoDup_incl_length; [apply NoDup_filter; exact Hd|].
      intros a Ha. apply filter_In in Ha. destruct Ha as [_ Ha]. destruct (H2 a) as (t & -> & Hin).
      - intro X. rewrite X in Ha. discriminate.
      - apply in_map. exact Hin.
    Qed.
    Lemma p_C71_left_over w0 w : init_mem E w0 -> jreach R E w0 w -> at_rest E q w ->
      forall a b, tr (wm w) = a ++ b -> waiting q a = [] -> List.length (waiting q (tr (wm w))) <= rejections E q b.
    Proof.
      intros H0 Hr (A1 & A2 & A3 & A4) a b Hab Ha. destruct (sok_since w0 w H0 Hr a b Hab Ha) as (S & gs & Hok & _ & Hlen).
      rewrite (waiting_queue w0 w H0 Hr), map_length. destruct Hok as ([[Hi [H1 H2 H3 H4 H5]] Hsp] & _ & Hw).
      destruct H1 as [(k & Hk1 & Hk2)|(L & HL1 & HL2 & HL3)].
      { destruct (A4 k Hk1). eapply shut_known; eauto. }
      assert (Hz : forall c, cost E q (wm w) (fun t => snd (gs t)) c = 0 \/ (cost E q (wm w) (fun t => snd (gs t)) c = 1 /\ exists t, c = inl t /\ In t S)).
      { intros [t|x]; simpl.
        - assert (Hs : snd (snd (gs t)) = false) by (destruct (snd (snd (gs t))) eqn:Es; [destruct (A3 t (H2 eq_refl t Es))|reflexivity]).
          rewrite Hs. destruct t as [n|x i]; [left; pose proof (H3 n) as X; cbv beta in X; rewrite X; reflexivity|].
          destruct (fst (snd (gs (TWorker x i)))) eqn:Eg; [|left; reflexivity]. destruct (H4 x i Eg) as (m & Hx & Hm).
          specialize (Hw x i). rewrite <- Hx, (A1 m i Hm) in Hw. simpl in Hw. destruct Hw as [Hn|Hg].
          + rewrite Hx in Hn. destruct (Hsp (TWorker x i) Hn) as [X|[X _]]; [rewrite X in Eg; discriminate|]. right. split; [reflexivity|eauto].
          + rewrite <- Hx in Eg. rewrite Hg in Eg. discriminate.
        - left. apply length_zero_iff_nil. destruct (filter (tq E q) (tasks (wm w) x)) as [|tk l] eqn:Ef; [reflexivity|].
          assert (Hin : In tk (filter (tq E q) (tasks (wm w) x))) by (rewrite Ef; left; reflexivity).
          apply filter_In in Hin. destruct Hin as [Hin Hq]. destruct (A2 x tk Hin). destruct (H5 x tk Hin) as [Hb _].
          unfold queue_of. rewrite <- Hb. apply Nat.eqb_eq. exact Hq. }
      assert (Ht : total (cost E q (wm w) (fun t => snd (gs t))) L <= List.length S).
      { apply total_le; [exact HL1| |]; intro c; destruct (Hz c) as [->|[-> X]]; auto; congruence. }
      lia.
    Qed.
    Lemma p_C71_not_stranded w0 w : init_mem E w0 -> jreach R E w0 w -> at_rest E q w ->
      forall a b, tr (wm w) = a ++ b -> waiting q a = [] -> rejections E q b = 0 -> waiting q (tr (wm w)) = [].
    Proof.
      intros H0 Hr Ha a b Hab Hw Hz. pose proof (p_C71_left_over w0 w H0 Hr Ha a b Hab Hw) as H. rewrite Hz in H.
      destruct (waiting q (tr (wm w))); [reflexivity|simpl in H; lia].
    Qed.
  End Token.
End Reject.
