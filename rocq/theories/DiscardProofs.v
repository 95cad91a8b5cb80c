(** * DiscardProofs.v: executors that lose tasks (C73) *)
From Coq Require Import Permutation.
From Verif Require Import Demo4 DiscardSpec FlowSpec Logic Neutral OwnSpec Own Tree Lang Moments QueueProofs TokenProofs RejectProofs RejectProofs2 OrderProofs OrderProofs2.

Section Discard.
  Context (L : xid -> world -> bool) (P : xid -> world -> nat) (E : env).
  Lemma drun_snoc w l v : drun L P E w (l ++ [v]) = dstep_or_stay L P E (drun L P E w l) v.
  Proof. unfold drun. rewrite fold_left_app. reflexivity. Qed.
  Lemma dstep_inv w v w' : dstep L P E w v = Some w' -> (exists t, v = Go t /\ step E w t = Some w') \/
    (exists x i tk r, v = Go (TWorker x i) /\ ww w x i = WIdle /\ i < n_workers E x /\ Permutation (tasks (wm w) x) (tk :: r) /\
      w' = {| wm := set_tasks (upd (tasks (wm w)) x r) (wm w); wc := wc w; ww := set_worker (ww w) x i (WRun tk (drain_iter E tk)) |}) \/
    exists x n tk r, v = Lose x n /\ L x w = true /\ Permutation (tasks (wm w) x) (tk :: r) /\
      w' = {| wm := set_tasks (upd (tasks (wm w)) x r) (wm w); wc := wc w; ww := ww w |}.
  Proof.
    destruct v as [t|x n]; simpl; intro H.
    - apply ostep_inv in H. destruct H as [H|(x & i & tk & r & -> & H)]; [left; eauto|right; left; exists x, i, tk, r; auto].
    - destruct (L x w) eqn:HL; [|discriminate]. destruct (pick n (tasks (wm w) x)) as [[tk r]|] eqn:Hp; [|discriminate].
      injection H as <-. right; right. exists x, n, tk, r. apply pick_perm in Hp. auto.
  Qed.

  Lemma p_C73_none_lost w0 w : loses_nothing L -> dreach L P E w0 w -> oreach P E w0 w.
  Proof.
    intros HL [l ->]. induction l as [|v l [l' IH]] using rev_ind; [exists []; reflexivity|].
    rewrite drun_snoc, IH. unfold dstep_or_stay. destruct v as [t|x n]; simpl; [|rewrite HL; exists l'; reflexivity].
    exists (l' ++ [t]). rewrite orun_snoc. reflexivity.
  Qed.

  (** *** the shape of the trace *)
  Lemma dtree_all w0 w : init_mem E w0 -> dreach L P E w0 w -> exists gs, tok E w gs.
  Proof.
    intros H0 [l ->]. induction l as [|v l [gs IH]] using rev_ind.
    - apply (tok_all (fun _ _ => false) E w0); [exact H0|exists []; reflexivity].
    - rewrite drun_snoc. unfold dstep_or_stay. destruct (dstep L P E (drun L P E (init_world E w0) l) v) as [w'|] eqn:Hs; [|eauto].
      apply dstep_inv in Hs. set (w := drun L P E (init_world E w0) l) in *. clearbody w.
      pose proof IH as ((Hi1 & Hi2 & Hl) & Hc & Hw).
      assert (Htasks : forall x tk r, Permutation (tasks (wm w) x) (tk :: r) -> task_ok E x tk /\
        forall x' tk', In tk' (upd (tasks (wm w)) x r x') -> task_ok E x' tk').
      { intros x tk r Hp. split; [apply (ti_tasks _ _ _ Hi2 x); eapply Permutation_in; [symmetry; exact Hp|left; reflexivity]|].
        intros x' tk'. unfold upd. destruct (Nat.eqb_spec x' x) as [->|]; [|apply (ti_tasks _ _ _ Hi2)].
          intro Hin. apply (ti_tasks _ _ _ Hi2). eapply Permutation_in; [symmetry; exact Hp|right; exact Hin]. }
      destruct Hs as [(t & -> & Hs)|[(x & i & tk & r & -> & Ew & Hlt & Hp & ->)|(x & n & tk & r & -> & _ & Hp & ->)]]; [eapply tok_step; eauto| |].
      + exists (gupd gs (TWorker x i) (gs (TWorker x i))). specialize (Hw x i). rewrite Ew in Hw. destruct (Htasks x tk r Hp) as (Htk & Ht).
        apply pick_ok; [exact IH| |].
        * apply inv2_upd; [| |exact Hl|apply Hl].
          -- apply (inv_same E (wm w)); try reflexivity; auto. left. reflexivity.
          -- apply (tinv_same E (wm w)); auto.
        * eapply wp_mono; [|apply wp_drain2; eauto]. simpl. auto.
      + destruct (Htasks x tk r Hp) as (Htk & Ht). exists (gupd gs (TWorker x 0) (gs (TWorker x 0))). split; [|split].
        * apply inv2_upd; [| |exact Hl|apply Hl].
          -- apply (inv_same E (wm w)); try reflexivity; auto. left. reflexivity.
          -- apply (tinv_same E (wm w)); auto.
        * intro n'. rewrite <- gupd_id2. apply Hc.
        * intros x' i'. rewrite <- gupd_id2. apply Hw.
  Qed.
  Lemma p_C73_in_order q w0 w : init_mem E w0 -> dreach L P E w0 w ->
    accepted q (tr (wm w)) = taken q (tr (wm w)) ++ map (fun p => (p, pairs (wm w) p)) (queues (wm w) q).
  Proof. intros H0 Hr. destruct (dtree_all w0 w H0 Hr) as (gs & (Hi & _) & _). apply (i_fifo _ _ _ Hi). Qed.
  Lemma dnode w0 w t a op b its z d k : init_mem E w0 -> dreach L P E w0 w ->
    span t (tr (wm w)) a op b its z d -> opens op = Some k -> node_ok E t (k, its, z).
  Proof.
    intros H0 Hr Hs Ho. destruct (dtree_all w0 w H0 Hr) as (gs & (_ & Hi & _) & _).
    pose proof (ti_nodes _ _ _ Hi t) as Hn. rewrite Forall_forall in Hn. apply Hn. eapply span_closed; eauto.
  Qed.
  Lemma p_C73_reported_once w0 w : init_mem E w0 -> dreach L P E w0 w ->
    forall t a q p e m b its z d, span t (tr (wm w)) a (OTake q p (Some (e, m))) b its z d ->
    exists tm P Rep y x, taker E q t tm /\ z = ODone q p x /\ shown its = P ++ Rep /\
      (forall u e' m' x', ~ In (OCall (KUflExn u e' m' x')) P) /\
      (forall c v, In (OBack c (Some v)) P -> y = Some v /\ exists P', P = P' ++ [OBack c (Some v)]) /\
      (forall v, y = Some v -> (exists c P', P = P' ++ [OBack c (Some v)]) \/ v = XNullPointer \/ v = XConcurrentMod) /\
      match y with
      | Some v => if is_exception v then Rep = called (KUflExn (flow_of E tm) e m v) x else Rep = [] /\ x = Some v
      | None => Rep = [] /\ x = None
      end.
  Proof. intros H0 Hr t a q p e m b its z d Hs. apply reported_node. exact (dnode w0 w _ _ _ _ _ _ _ _ H0 Hr Hs eq_refl). Qed.

  Lemma dshut w0 w x : init_mem E w0 -> dreach L P E w0 w -> shut (wm w) x = true -> shut_at x (tr (wm w)).
  Proof.
    intros H0 [l ->]. induction l as [|v l IH] using rev_ind; intro Hx.
    - simpl in Hx. rewrite (im_shut _ _ H0) in Hx. discriminate.
    - rewrite drun_snoc in *. unfold dstep_or_stay in *. destruct (dstep L P E (drun L P E (init_world E w0) l) v) as [w'|] eqn:Hs; [|auto]. set (w1 := drun L P E (init_world E w0) l) in *.
      apply dstep_inv in Hs. destruct Hs as [(t & -> & Hs)|[(y & i & tk & r & -> & Ew & Hlt & Hp & ->)|(y & n & tk & r & -> & _ & Hp & ->)]]; [|exact (IH Hx)|exact (IH Hx)].
      assert (Hold : shut_at x (tr (wm w1)) -> shut_at x (tr (wm w'))).
      { intros [t' Hin]. exists t'. destruct (step_one E _ _ _ Hs) as [->|[o ->]]; [exact Hin|apply in_or_app; auto]. }
      assert (Hor : shut (wm w1) x = true \/ shut_at x (tr (wm w'))); [|destruct Hor; auto].
      destruct (step_mem E _ _ _ Hs) as [Hw|[(i & v & Hw)|[(y & r & Hw)|(tk & e & Hw)]]]; try (rewrite Hw in Hx; left; exact Hx).
      clear -Hw Hx. destruct i; cbn [exec] in Hw;
        repeat match type of Hw with
        | (if ?b then _ else _) = _ => destruct b
        | (match ?b with _ => _ end) = _ => destruct b
        end; try discriminate; injection Hw as Hv Hw; rewrite <- Hw in Hx |- *; try (left; exact Hx).
      { destruct (pairs (wm w1) p) as [[? ?]|]; left; exact Hx. }
      simpl in Hx. unfold upd in Hx. match type of Hx with (if Nat.eqb _ ?y then _ else _) = _ => destruct (Nat.eqb_spec x y) as [->|]; [|auto] end. right. exists t. simpl. apply in_or_app. right. left. reflexivity.
  Qed.

  (** *** executors that lose a task only when another waits *)
  Section Own.
    Context (q : qid) (Hown : own_executors E q) (Hlw : loses_when_others_wait L E q).
    Notation tq := (TokenProofs.tq E q).
    Lemma ook_pick w gs x i tk r : ook E q w gs -> ww w x i = WIdle -> Permutation (tasks (wm w) x) (tk :: r) ->
      exists gs', ook E q {| wm := set_tasks (upd (tasks (wm w)) x r) (wm w); wc := wc w; ww := set_worker (ww w) x i (WRun tk (drain_iter E tk)) |} gs'.
    Proof.
      intros H Ew Hp. exists (gupd gs (TWorker x i) ([], (tq tk, false))). pose proof H as ([Hi Hk] & _ & Hw).
      specialize (Hw x i). rewrite Ew in Hw. simpl in Hw. set (t1 := TWorker x i) in *.
      assert (Hin : forall tk', In tk' (tk :: r) -> In tk' (tasks (wm w) x)) by (intros tk' Hx; eapply Permutation_in; [symmetry; exact Hp|exact Hx]).
      assert (Htk : task_ok E x tk) by (apply (l_tasks _ _ _ _ Hk); apply Hin; left; reflexivity).
      apply pick_ok; [exact H| |apply wp_drain_o; exact Htk]. fold t1. apply oinv_upd.
      - simpl fst. replace (@nil (pid * (bool * content))) with (fst (gs t1)) by (rewrite Hw; reflexivity).
        apply (inv_same E (wm w)); try reflexivity; auto. left. reflexivity.
      - simpl snd. destruct Hk as [H1 H2 H3 H4 H5]. split.
        + destruct H1 as [H1|[H1|[H1|H1]]]; [left; exact H1|right; left; exact H1|right; right; left; exact H1|right; right; right].
          destruct H1 as [[t' H1]|(y & tk' & H1 & Hq)].
          * left. exists t'. unfold gupd. destruct (tid_eq_dec t' t1) as [->|]; [|exact H1]. cbv beta in H1. rewrite Hw in H1. destruct H1; discriminate.
          * destruct (Nat.eqb_spec y x) as [->|N].
            -- apply (Permutation_in _ Hp) in H1. destruct H1 as [->|H1]; [left; exists t1; rewrite gupd_eq; left; exact Hq|].
               right. exists x, tk'. split; [|exact Hq]. simpl. unfold upd. rewrite Nat.eqb_refl. exact H1.
            -- right. exists y, tk'. split; [|exact Hq]. simpl. unfold upd. destruct (Nat.eqb_spec y x); [contradiction|exact H1].
        + intros t'. unfold gupd. destruct (tid_eq_dec t' t1) as [->|N]; [discriminate|]. apply H2.
        + intros n. rewrite gupd_neq by (unfold t1; congruence). apply H3.
        + intros y j. unfold gupd. destruct (tid_eq_dec (TWorker y j) t1) as [Ey|N]; [|apply H4].
          injection Ey as -> ->. simpl. intro Hq. destruct Htk as [Ha Hb].
          exists (tk_mach tk). unfold queue_of, exec_of. rewrite <- Ha. split; [symmetry; exact Hb|apply Nat.eqb_eq; exact Hq].
        + intros y tk'. simpl. unfold upd. destruct (Nat.eqb_spec y x) as [->|]; [|apply H5].
          intro Hx. apply H5. apply Hin. right. exact Hx.
    Qed.
    Lemma ook_lose w gs x tk r : ook E q w gs -> L x w = true -> Permutation (tasks (wm w) x) (tk :: r) ->
      ook E q {| wm := set_tasks (upd (tasks (wm w)) x r) (wm w); wc := wc w; ww := ww w |} gs.
    Proof.
      intros ([Hi Hk] & Hc & Hw) HL Hp. split; [split|split; [exact Hc|exact Hw]].
      - eapply inv_ext; [intro t; symmetry; apply (gupd_id2 (fun t => fst (gs t)) (TWorker 0 0))|]. apply (inv_same E (wm w)); try reflexivity; auto. left. reflexivity.
      - destruct Hk as [H1 H2 H3 H4 H5]. split; [|exact H2|exact H3|exact H4|].
        + destruct H1 as [H1|[H1|[H1|[H1|(y & tk' & H1 & Hq)]]]]; [left; exact H1|right; left; exact H1|right; right; left; exact H1|right; right; right; left; exact H1|].
          right; right; right; right. destruct (Nat.eqb_spec y x) as [->|N].
          * assert (Hr : exists tk2, In tk2 r /\ tq tk2 = true).
            { pose proof (H5 _ _ H1) as [Ha Hb]. apply Nat.eqb_eq in Hq.
              assert (Hq' : queue_of E (tk_mach tk') = q) by (unfold queue_of; rewrite <- Ha; exact Hq).
              assert (Hx : x = exec_of E (tk_mach tk')) by (unfold exec_of; rewrite <- Ha; exact Hb).
              specialize (Hlw (tk_mach tk') w Hq'). rewrite <- Hx in Hlw. specialize (Hlw HL).
              rewrite (Permutation_length Hp) in Hlw. destruct r as [|tk2 r]; [simpl in Hlw; lia|]. exists tk2. split; [left; reflexivity|].
              destruct (H5 x tk2) as [Ha2 Hb2]; [eapply Permutation_in; [symmetry; exact Hp|right; left; reflexivity]|].
              apply Nat.eqb_eq. rewrite Ha2. apply (Hown (tk_mach tk') (tk_mach tk2) Hq'). rewrite <- Hx, Hb2, Ha2. reflexivity. }
            destruct Hr as (tk2 & Hr & Hq2). exists x, tk2. split; [simpl; unfold upd; rewrite Nat.eqb_refl; exact Hr|exact Hq2].
          * exists y, tk'. split; [simpl; unfold upd; destruct (Nat.eqb_spec y x); [contradiction|exact H1]|exact Hq].
        + intros y tk'. simpl. unfold upd. destruct (Nat.eqb_spec y x) as [->|]; [|apply H5].
          intro Hx. apply H5. eapply Permutation_in; [symmetry; exact Hp|right; exact Hx].
    Qed.
    Lemma dook_all w0 w : init_mem E w0 -> dreach L P E w0 w -> exists gs, ook E q w gs.
    Proof.
      intros H0 [l ->]. induction l as [|v l [gs IH]] using rev_ind.
      - apply (ook_all (fun _ _ => false) E q Hown) with (w0 := w0); [intros m w _ H; discriminate H|exact H0|exists []; reflexivity].
      - rewrite drun_snoc. unfold dstep_or_stay. destruct (dstep L P E (drun L P E (init_world E w0) l) v) as [w'|] eqn:Hs; [|eauto].
        apply dstep_inv in Hs. destruct Hs as [(t & -> & Hs)|[(x & i & tk & r & -> & Ew & Hlt & Hp & ->)|(x & n & tk & r & -> & HL & Hp & ->)]].
        + eapply ook_step; eauto.
        + eapply ook_pick; eauto.
        + exists gs. eapply ook_lose; eauto.
    Qed.
    Lemma p_C73_own_executor w0 w : init_mem E w0 -> dreach L P E w0 w -> at_rest E q w -> no_task_died E q (tr (wm w)) ->
      accepted q (tr (wm w)) = taken q (tr (wm w)).
    Proof.
      intros H0 Hr (A1 & A2 & A3 & A4) Hnd. rewrite (p_C73_in_order q w0 w H0 Hr).
      destruct (dook_all w0 w H0 Hr) as (gs & [Hi [H1 H2 H3 H4 H5]] & _ & Hw).
      destruct H1 as [(k & Hk1 & Hk2)|[(t & tk & x & Hin & Hq & Ha)|[->|[[t H1]|(x & tk & H1 & Hq)]]]].
      - destruct (A4 k Hk1). eapply dshut; eauto.
      - destruct (Hnd _ _ _ Hin). unfold queue_of. rewrite <- Ha. apply Nat.eqb_eq. exact Hq.
      - apply app_nil_r.
      - exfalso. destruct H1 as [H1|H1]; [|exact (A3 t (H2 t H1))]. destruct t as [n|x i]; [rewrite H3 in H1; discriminate|].
        destruct (H4 x i H1) as (m & Hx & Hm). specialize (Hw x i). rewrite <- Hx, (A1 m i Hm) in Hw. simpl in Hw. rewrite <- Hx in H1. cbv beta in H1. rewrite Hw in H1. discriminate.
      - exfalso. destruct (H5 x tk H1) as [Ha _]. apply (A2 x tk H1). unfold queue_of. rewrite <- Ha. apply Nat.eqb_eq. exact Hq.
    Qed.
  End Own.
  (** a way to see that nothing runs or is pending for a queue *)
  Lemma didle w0 w x i : dreach L P E w0 w -> n_workers E x <= i -> ww w x i = WIdle.
  Proof.
    intros [l ->] Hi. induction l as [|v l IH] using rev_ind; [reflexivity|].
    rewrite drun_snoc. unfold dstep_or_stay. destruct (dstep L P E _ v) as [w'|] eqn:Hs; [|exact IH]. rewrite <- IH.
    set (w := drun L P E (init_world E w0) l) in *. clearbody w.
    assert (Hset : forall y j k, j < n_workers E y -> set_worker (ww w) y j k x i = ww w x i).
    { intros y j k Hj. unfold set_worker. destruct (Nat.eqb_spec x y) as [->|]; [|reflexivity].
      destruct (Nat.eqb_spec i j) as [->|]; [|reflexivity]. lia. }
    apply dstep_inv in Hs. destruct Hs as [(t & -> & Hs)|[(y & j & tk & r & -> & Ew & Hlt & Hp & ->)|(y & n & tk & r & -> & _ & Hp & ->)]]; [|apply Hset; exact Hlt|reflexivity].
    destruct t as [n|y j]; simpl in Hs.
    - destruct (pstep E (wm w) (TClient n) (wc w n)) as [[? ?]|]; [|discriminate]. injection Hs as <-. reflexivity.
    - destruct (Nat.ltb_spec j (n_workers E y)) as [Hj|]; [|discriminate]. simpl in Hs.
      destruct (ww w y j) as [|tk [[|]|e|jj k]]; [destruct (tasks (wm w) y); [discriminate|]| | | |destruct (pstep E (wm w) (TWorker y j) (Vis jj k)) as [[? ?]|]; [|discriminate]];
        injection Hs as <-; simpl; apply Hset; exact Hj.
  Qed.
  Lemma at_rest_d w0 w q X ts : init_mem E w0 -> dreach L P E w0 w ->
    (forall m, queue_of E m = q -> exec_of E m = X) -> n_workers E X = 1 -> ww w X 0 = WIdle -> tasks (wm w) X = [] ->
    by_threads ts (tr (wm w)) = true ->
    forallb (fun t => match rev (thread_obs t (tr (wm w))) with OOffer q' _ _ _ _ _ :: _ => negb (Nat.eqb q' q) | _ => true end) ts = true ->
    forallb (fun to => match snd to with OWr (WrShut _) => false | _ => true end) (tr (wm w)) = true ->
    at_rest E q w.
  Proof.
    intros H0 Hr HX Hn Hw Ht Hb Hj Hs. split; [|split; [|split]].
    - intros m i Hm. rewrite (HX m Hm). destruct i as [|i]; [exact Hw|]. apply (didle w0); [exact Hr|lia].
    - intros x tk Hin Hq. destruct (dtree_all w0 w H0 Hr) as (gs & (_ & Hl & _) & _). destruct (ti_tasks _ _ _ Hl x tk Hin) as [Ha Hx].
      assert (x = X) as ->; [|rewrite Ht in Hin; destruct Hin].
      rewrite <- (HX _ Hq). unfold exec_of. rewrite <- Ha. exact Hx.
    - apply not_just_queued with (ts := ts); assumption.
    - intros m _ [t Hin]. rewrite forallb_forall in Hs. specialize (Hs _ Hin). discriminate.
  Qed.
End Discard.
