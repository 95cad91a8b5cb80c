(** * OrderProofs.v: executors that run their tasks in any order (C72) *)
From Coq Require Import Permutation.
From Verif Require Import OrderSpec Logic Neutral OwnSpec Own Tree Moments QueueProofs TokenProofs RejectProofs.

Lemma pick_perm n l tk r : pick n l = Some (tk, r) -> Permutation l (tk :: r).
Proof.
  unfold pick. destruct (nth_error l n) as [a|] eqn:Hn; [|discriminate]. intro H. assert (a = tk) as -> by congruence. assert (Hr : firstn n l ++ skipn (S n) l = r) by congruence. rewrite <- Hr. clear H Hr.
  apply nth_error_split in Hn. destruct Hn as (l1 & l2 & -> & <-).
  rewrite (firstn_app (List.length l1)), Nat.sub_diag, firstn_all, app_nil_r.
  replace (skipn (S (List.length l1)) (l1 ++ tk :: l2)) with l2; [symmetry; apply Permutation_middle|].
  clear. induction l1 as [|a l1 IH]; [reflexivity|exact IH].
Qed.

Lemma perm_count {A} (f : A -> bool) l l' : Permutation l l' -> List.length (filter f l) = List.length (filter f l').
Proof.
  intro H. induction H as [|x l l' H IH|x y l|l l1 l2 H1 IH1 H2 IH2]; simpl; [reflexivity| | |congruence].
  - destruct (f x); simpl; congruence.
  - destruct (f x), (f y); reflexivity.
Qed.

Section Order.
  Context (P : xid -> world -> nat) (E : env).
  Notation ostep := (ostep P E).
  Notation orun := (orun P E).
  Lemma orun_snoc w l t : orun w (l ++ [t]) = ostep_or_stay P E (orun w l) t.
  Proof. unfold Order.orun. rewrite fold_left_app. reflexivity. Qed.
  Lemma ostep_inv w t w' : ostep w t = Some w' -> step E w t = Some w' \/
    exists x i tk r, t = TWorker x i /\ ww w x i = WIdle /\ i < n_workers E x /\ Permutation (tasks (wm w) x) (tk :: r) /\
      w' = {| wm := set_tasks (upd (tasks (wm w)) x r) (wm w); wc := wc w; ww := set_worker (ww w) x i (WRun tk (drain_iter E tk)) |}.
  Proof.
    destruct t as [n|x i]; [auto|]. unfold Order.ostep. destruct (ww w x i) as [|tk p] eqn:Ew; [|auto].
    destruct (Nat.ltb_spec i (n_workers E x)) as [Hlt|]; simpl; [|discriminate].
    destruct (pick (P x w) (tasks (wm w) x)) as [[tk r]|] eqn:Hp; [|discriminate]. intro H. injection H as <-.
    right. exists x, i, tk, r. apply pick_perm in Hp. auto.
  Qed.

  (** *** soundness of the logic when any task is taken *)
  Section Sound.
    Context {G : Type} (pre : tid -> G -> instr -> Prop) (post : tid -> G -> forall i, iret i -> G -> Prop).
    Context (inv : mem -> (tid -> G) -> Prop).
    Context (Qc : tid -> res unit -> G -> Prop) (Qw : tid -> task -> res bool -> G -> Prop) (widle : tid -> G -> Prop).
    Lemma pick_ok w gs x i tk r g' : world_ok pre post inv Qc Qw widle w gs ->
      inv (set_tasks (upd (tasks (wm w)) x r) (wm w)) (gupd gs (TWorker x i) g') ->
      wp pre post (TWorker x i) (drain_iter E tk) (Qw (TWorker x i) tk) g' ->
      world_ok pre post inv Qc Qw widle
        {| wm := set_tasks (upd (tasks (wm w)) x r) (wm w); wc := wc w; ww := set_worker (ww w) x i (WRun tk (drain_iter E tk)) |}
        (gupd gs (TWorker x i) g').
    Proof.
      intros (Hi & Hc & Hw) Hi' Hp. split; [exact Hi'|]. split.
      - intro n. simpl. rewrite gupd_neq by congruence. apply Hc.
      - intros x' i'. simpl. unfold set_worker. destruct (Nat.eqb_spec x' x) as [->|N]; simpl; [destruct (Nat.eqb_spec i' i) as [->|N]|].
        + rewrite gupd_eq. exact Hp.
        + rewrite gupd_neq by congruence. apply Hw.
        + rewrite gupd_neq by congruence. apply Hw.
    Qed.
  End Sound.

  (** *** tokens *)
  Section Token.
    Context (q : qid).
    Definition otok := world_ok (pre12 (pre E) (kpre E q)) (post12 post (kpost q)) (tinv2 E q) (fun _ _ _ => True) (fun _ _ _ g => Qi g) (fun _ g => Qi g).
    Lemma kinv_perm w w' gs : kinv E q true w gs -> (forall x, Permutation (tasks w x) (tasks w' x)) ->
      queues w' = queues w -> shut w' = shut w -> tr w' = tr w -> kinv E q true w' gs.
    Proof.
      intros [H1 H2 H3 H4 H5] Hp Hq Hs Ht. split.
      - destruct H1 as [(m & Hm & H1)|H1]; [left; exists m; rewrite Hs; auto|right]. rewrite Hq. eapply bounded_ext; [|exact H1].
        intros [t|x]; simpl; [reflexivity|]. apply perm_count. apply Hp.
      - rewrite Ht. exact H2.
      - exact H3.
      - exact H4.
      - intros x tk Hin. apply H5. eapply Permutation_in; [symmetry; apply Hp|exact Hin].
    Qed.
    Lemma otake w gs x i tk r : kinv E q true w gs -> gs (TWorker x i) = idle2 -> Permutation (tasks w x) (tk :: r) ->
      kinv E q true (set_tasks (upd (tasks w) x r) w) (gupd gs (TWorker x i) (TokenProofs.tq E q tk, false)).
    Proof.
      intros Hk Hg Hp. set (w2 := set_tasks (upd (tasks w) x (tk :: r)) w).
      assert (Hk2 : kinv E q true w2 gs).
      { eapply kinv_perm; [exact Hk| |reflexivity..]. intro y. simpl. unfold upd. destruct (Nat.eqb_spec y x) as [->|]; [exact Hp|apply Permutation_refl]. }
      eapply kinv_perm; [apply (ktake E q true w2 gs x i tk r Hk2 Hg)| |reflexivity..].
      - simpl. unfold upd. rewrite Nat.eqb_refl. reflexivity.
      - intro y. simpl. unfold upd. destruct (Nat.eqb_spec y x); apply Permutation_refl.
    Qed.
    Lemma otok_step w t w' gs : otok w gs -> step E w t = Some w' -> exists gs', otok w' gs'.
    Proof.
      intros H Hs. apply (world_ok_same E (pre12 (pre E) (kpre E q)) (post12 post (kpost q)) (tinv2 E q) (fun _ _ _ => True) (fun _ _ _ g => Qi g) (fun _ g => Qi g))
        with (w := w) (gs := gs) (t := t); [| | | | | |exact Hs|exact H].
      - intros w1 gs1 t1 i v w2 [Hi Hk] [Hp1 Hp2] Hx.
        destruct (exec_own E w1 (fun t => fst (gs1 t)) t1 i v w2 Hi Hp1 Hx) as (g1 & Hq1 & Hi').
        destruct (exec_token E q true w1 (fun t => fst (gs1 t)) (fun t => snd (gs1 t)) t1 i v w2 (fun _ => conj Hi Hp1) Hk Hp2 Hx) as (g2 & Hq2 & Hk').
        exists (g1, g2). split; [split; assumption|]. apply tinv2_upd; assumption.
      - intros t1 [g1 g2] c h [_ Hn]. simpl in Hn.
        eapply wp_mono; [|apply wp_pair; [apply (J_interp_all E _ t1 g1 I)|apply (K_interp_all E q _ t1 g2 Hn)]].
        simpl. intros r [g1' g2'] [[E1 _] [E2 _]]. split; [exact E1|exact E2].
      - intros w1 gs1 x i tk r [Hi Hk] Hl Hg Et. exists ([], (TokenProofs.tq E q tk, false)). split; [|apply wp_drain_both; auto].
        set (t1 := TWorker x i) in *. apply tinv2_upd.
        + simpl fst. replace (@nil (pid * (bool * content))) with (fst (gs1 t1)) by (rewrite Hg; reflexivity).
          apply (inv_same E w1); try reflexivity; auto. left. reflexivity.
        + apply (ktake E q true w1 (fun t => snd (gs1 t))); [exact Hk|fold t1; cbv beta; rewrite Hg; reflexivity|exact Et].
      - intros w1 gs1 x i tk [Hi Hk] Hl Hg. exists (gs1 (TWorker x i)). split; [|rewrite Hg; apply wp_drain_both; auto].
        apply tinv2_upd; [eapply inv_ext; [|exact Hi]|eapply kinv_ext; [|exact Hk]]; intro t'; apply (gupd_id2 (fun t => _ (gs1 t))).
      - intros w1 gs1 x i tk [Hi Hk] Hl Hg. exists (gs1 (TWorker x i)). split; [|exact Hg].
        apply tinv2_upd; [eapply inv_ext; [|exact Hi]|eapply kinv_ext; [|exact Hk]]; intro t'; apply (gupd_id2 (fun t => _ (gs1 t))).
      - intros w1 gs1 x i tk e [Hi Hk] Hl Hg. exists (gs1 (TWorker x i)). split; [|exact Hg].
        apply tinv2_upd.
        + apply (inv_same E w1 _ (fun t => fst (gs1 t))); try reflexivity; auto. right; eexists _, _; split; [reflexivity|exact I].
        + apply (kstep0 E q true w1 _ (fun t => snd (gs1 t))); auto; [right; eexists; reflexivity|]. rewrite Hg. reflexivity.
    Qed.
    Lemma otok_all w0 w : init_mem E w0 -> oreach P E w0 w -> exists gs, otok w gs.
    Proof.
      intros H0 [l ->]. induction l as [|t l [gs IH]] using rev_ind.
      - exists (fun _ => ([], idle2)). destruct H0. split; [|split].
        + split; [split|split].
          * exists (fun _ => PFresh). simpl. split; simpl; intros; rewrite ?im_pools, ?im_queues, ?im_npair in *; simpl in *;
              try constructor; try easy; try lia.
          * intro q0. simpl. rewrite im_tr, im_queues. reflexivity.
          * intros t q0 p e m e' m'. simpl. rewrite im_tr. intros [].
          * intros t p. simpl. rewrite im_tr. simpl. split; [intros []|intros [c []]].
          * simpl. rewrite im_tr. constructor.
          * right. exists []. split; [constructor|]. split; [|simpl; rewrite im_queues; simpl; lia].
            intros [t|x] _; simpl; [reflexivity|rewrite im_tasks; reflexivity].
          * discriminate.
          * reflexivity.
          * discriminate.
          * intros x tk. simpl. rewrite im_tasks. intros [].
        + intro n. simpl. destruct (Nat.ltb n (n_clients E)); [|exact I].
          eapply wp_mono; [|apply wp_pair; [apply (J_interp_all E _ _ _ I)|apply K_interp_all; reflexivity]]. auto.
        + reflexivity.
      - rewrite orun_snoc. unfold ostep_or_stay. destruct (ostep (orun (init_world E w0) l) t) as [w'|] eqn:Hs; [|eauto].
        apply ostep_inv in Hs. destruct Hs as [Hs|(x & i & tk & r & -> & Ew & Hlt & Hp & ->)]; [eapply otok_step; eauto|].
        set (w := orun (init_world E w0) l) in *. clearbody w. exists (gupd gs (TWorker x i) ([], (TokenProofs.tq E q tk, false))).
        pose proof IH as ([Hi Hk] & _ & Hw). specialize (Hw x i). rewrite Ew in Hw. unfold worker_ok, Qi in Hw.
        apply pick_ok; [exact IH| |apply wp_drain_both; auto]. apply tinv2_upd.
        + simpl fst. replace (@nil (pid * (bool * content))) with (fst (gs (TWorker x i))) by (rewrite Hw; reflexivity).
          apply (inv_same E (wm w)); try reflexivity; auto. left. reflexivity.
        + apply (otake (wm w) (fun t => snd (gs t))); [exact Hk|cbv beta; rewrite Hw; reflexivity|exact Hp].
    Qed.
    Lemma p_C72_in_order w0 w : init_mem E w0 -> oreach P E w0 w ->
      accepted q (tr (wm w)) = taken q (tr (wm w)) ++ map (fun p => (p, pairs (wm w) p)) (queues (wm w) q).
    Proof. intros H0 Hr. destruct (otok_all w0 w H0 Hr) as (gs & [Hi _] & _). apply (i_fifo _ _ _ Hi). Qed.
    Lemma oshut w0 w x : init_mem E w0 -> oreach P E w0 w -> shut (wm w) x = true -> shut_at x (tr (wm w)).
    Proof.
      intros H0 [l ->]. induction l as [|t l IH] using rev_ind; intro Hx.
      - simpl in Hx. rewrite (im_shut _ _ H0) in Hx. discriminate.
      - rewrite orun_snoc in *. unfold ostep_or_stay in *. destruct (ostep (orun (init_world E w0) l) t) as [w'|] eqn:Hs; [|auto]. set (w1 := orun (init_world E w0) l) in *.
        apply ostep_inv in Hs. destruct Hs as [Hs|(y & i & tk & r & -> & Ew & Hlt & Hp & ->)]; [|exact (IH Hx)].
        assert (Hold : shut_at x (tr (wm w1)) -> shut_at x (tr (wm w'))).
        { intros [t' Hin]. exists t'. destruct (step_one E _ _ _ Hs) as [->|[o ->]]; [exact Hin|apply in_or_app; auto]. }
        assert (Hor : shut (wm w1) x = true \/ shut_at x (tr (wm w'))); [|destruct Hor; auto].
        destruct (step_mem E _ _ _ Hs) as [Hw|[(i & v & Hw)|[(y & r & Hw)|(tk & e & Hw)]]]; try (rewrite Hw in Hx; left; exact Hx).
        clear -Hw Hx. destruct i; cbn [exec] in Hw;
          repeat match type of Hw with
          | (if ?b then _ else _) = _ => destruct b
          | (match ?b with _ => _ end) = _ => destruct b
          end; try discriminate; injection Hw as Hv Hw; rewrite <- Hw in Hx |- *; try (left; exact Hx).
        { destruct (pairs (wm w1) p) as [[? ?]|]; left; exact Hx. }
        simpl in Hx. unfold upd in Hx. match type of Hx with (if Nat.eqb _ ?y then _ else _) = _ => destruct (Nat.eqb_spec x y) as [->|]; [|auto] end. right. exists t. simpl. apply in_or_app. right. left. reflexivity.
    Qed.
    Lemma p_C72_nothing_stranded w0 w : init_mem E w0 -> oreach P E w0 w -> at_rest E q w ->
      accepted q (tr (wm w)) = taken q (tr (wm w)).
    Proof.
      intros H0 Hr (A1 & A2 & A3 & A4). rewrite (p_C72_in_order w0 w H0 Hr).
      destruct (otok_all w0 w H0 Hr) as (gs & [_ [H1 H2 H3 H4 H5]] & _ & Hw).
      destruct H1 as [(k & Hk1 & Hk2)|H1]; [destruct (A4 k Hk1); eapply oshut; eauto|].
      assert (Hz : List.length (queues (wm w) q) = 0); [|apply length_zero_iff_nil in Hz; rewrite Hz; apply app_nil_r].
      eapply bounded_zero; [|exact H1]. intros [t|x]; simpl.
      - assert (Hs : snd (snd (gs t)) = false) by (destruct (snd (snd (gs t))) eqn:Es; [destruct (A3 t (H2 eq_refl t Es))|reflexivity]).
        rewrite Hs. destruct t as [n|x i]; [pose proof (H3 n) as X; cbv beta in X; rewrite X; reflexivity|].
        destruct (fst (snd (gs (TWorker x i)))) eqn:Eg; [|reflexivity]. destruct (H4 x i Eg) as (m & Hx & Hm).
        specialize (Hw x i). rewrite <- Hx, (A1 m i Hm) in Hw. simpl in Hw. rewrite <- Hx, Hw in Eg. discriminate.
      - apply length_zero_iff_nil. destruct (filter (TokenProofs.tq E q) (tasks (wm w) x)) as [|tk l] eqn:Ef; [reflexivity|].
        assert (Hin : In tk (filter (TokenProofs.tq E q) (tasks (wm w) x))) by (rewrite Ef; left; reflexivity).
        apply filter_In in Hin. destruct Hin as [Hin Hq]. destruct (A2 x tk Hin). destruct (H5 x tk Hin) as [Ha _].
        unfold queue_of. rewrite <- Ha. apply Nat.eqb_eq. exact Hq.
    Qed.
  End Token.

  (** *** an executor for each machine *)
  Lemma all_same {A} (l : list A) a r : Permutation l (a :: r) -> (forall b c, In b l -> In c l -> b = c) -> l = a :: r.
  Proof.
    intros Hp Hs.
    assert (Hl : forall l' : list A, (forall b, In b l' -> b = a) -> l' = repeat a (List.length l')).
    { induction l' as [|b l' IH]; intro Hb; [reflexivity|]. simpl. rewrite <- IH by (intros c Hc; apply Hb; right; exact Hc). rewrite (Hb b) by (left; reflexivity). reflexivity. }
    assert (Ha : In a l) by (eapply Permutation_in; [symmetry; exact Hp|left; reflexivity]).
    rewrite (Hl l) by (intros b Hb; apply Hs; assumption). rewrite (Hl (a :: r)).
    - rewrite (Permutation_length Hp). reflexivity.
    - intros b Hb. apply Hs; [|exact Ha]. eapply Permutation_in; [symmetry; exact Hp|exact Hb].
  Qed.
  Lemma p_C72_one_machine_each w0 w : one_machine_each E -> init_mem E w0 -> oreach P E w0 w -> reach E w0 w.
  Proof.
    intros H1 H0 [l ->]. induction l as [|t l IH] using rev_ind; [exists []; reflexivity|].
    rewrite orun_snoc. unfold ostep_or_stay. destruct (ostep (orun (init_world E w0) l) t) as [w'|] eqn:Hs; [|exact IH].
    assert (Hst : step E (orun (init_world E w0) l) t = Some w').
    { apply ostep_inv in Hs. destruct Hs as [Hs|(x & i & tk & r & -> & Ew & Hlt & Hp & ->)]; [exact Hs|].
      destruct (tree_world E w0 _ H0 IH) as (gs & (_ & Hi & _) & _).
      set (w := orun (init_world E w0) l) in *. clearbody w.
      assert (Et : tasks (wm w) x = tk :: r).
      { apply all_same; [exact Hp|]. intros b c Hb Hc. destruct (ti_tasks _ _ _ Hi x b Hb) as [Hb1 Hb2]. destruct (ti_tasks _ _ _ Hi x c Hc) as [Hc1 Hc2].
        assert (Hm : tk_mach b = tk_mach c) by (apply H1; unfold exec_of; rewrite <- Hb1, <- Hc1, <- Hb2; exact Hc2).
        destruct b, c. simpl in *. subst. reflexivity. }
      simpl. rewrite Ew, Et. apply Nat.ltb_lt in Hlt. rewrite Hlt. reflexivity. }
    destruct IH as [l' IH]. exists (l' ++ [t]). unfold run. rewrite fold_left_app. simpl. unfold run in IH. rewrite <- IH.
    unfold step_or_stay. rewrite Hst. reflexivity.
  Qed.
  (** the same schedule leads to the same world *)
  Lemma p_C72_same_execution w0 l : one_machine_each E -> takes_some P -> init_mem E w0 ->
    orun (init_world E w0) l = run E (init_world E w0) l.
  Proof.
    intros H1 Hs H0. induction l as [|t l IH] using rev_ind; [reflexivity|].
    rewrite orun_snoc. unfold run. rewrite fold_left_app. simpl. fold (run E (init_world E w0) l). rewrite IH.
    assert (Hr : reach E w0 (run E (init_world E w0) l)) by (exists l; reflexivity).
    set (w := run E (init_world E w0) l) in *. clearbody w. unfold ostep_or_stay, step_or_stay.
    replace (ostep w t) with (step E w t); [reflexivity|].
    destruct t as [n|x i]; [reflexivity|]. unfold Order.ostep. destruct (ww w x i) as [|tk p] eqn:Ew; [|reflexivity].
    simpl. rewrite Ew. destruct (negb (Nat.ltb i (n_workers E x))); [reflexivity|].
    destruct (tree_world E w0 _ H0 Hr) as (gs & (_ & Hi & _) & _).
    destruct (tasks (wm w) x) as [|tk r] eqn:Et; [unfold pick; destruct (P x w); reflexivity|].
    destruct (pick (P x w) (tk :: r)) as [[tk' r']|] eqn:Hp.
    - apply pick_perm in Hp. assert (X : tk :: r = tk' :: r'); [|injection X as -> ->; reflexivity].
      apply all_same; [exact Hp|]. rewrite <- Et. intros b c Hb Hc.
      destruct (ti_tasks _ _ _ Hi x b Hb) as [Hb1 Hb2]. destruct (ti_tasks _ _ _ Hi x c Hc) as [Hc1 Hc2].
      assert (Hm : tk_mach b = tk_mach c) by (apply H1; unfold exec_of; rewrite <- Hb1, <- Hc1, <- Hb2; exact Hc2).
      destruct b, c. simpl in *. subst. reflexivity.
    - exfalso. unfold pick in Hp. destruct (nth_error (tk :: r) (P x w)) eqn:Hn; [discriminate|].
      apply nth_error_None in Hn. specialize (Hs x w). rewrite Et in Hs. specialize (Hs ltac:(discriminate)). simpl in *. lia.
  Qed.
End Order.
