(** * DiscardProofs2.v: what lost tasks leave behind (C73) *)
From Coq Require Import Permutation.
From Verif Require Import DiscardSpec RejectSpec FlowSpec Logic Neutral OwnSpec Own Tree Moments QueueProofs TokenProofs RejectProofs OrderProofs DiscardProofs.

Section Left.
  Context (L : xid -> world -> bool) (P : xid -> world -> nat) (E : env) (q : qid).
  Notation tq := (TokenProofs.tq E q).
  Lemma drun_parts w l1 l2 l : l = l1 ++ l2 -> drun L P E w l = drun L P E (drun L P E w l1) l2.
  Proof. intros ->. unfold drun. apply fold_left_app. Qed.
  (** the tasks lost so far, of executor x *)
  Definition of_x (K : list (xid * task)) (x : xid) : list task := map snd (filter (fun k => Nat.eqb (fst k) x) K).
  Definition cnt (K : list (xid * task)) : nat := List.length (filter (fun k => tq (snd k)) K).
  (** the world in which the executors still have the tasks T *)
  Definition with_tasks (T : xid -> list task) (w : world) : world := {| wm := set_tasks T (wm w); wc := wc w; ww := ww w |}.
  Definition more (T : xid -> list task) (w : mem) (K : list (xid * task)) : Prop := forall x, Permutation (T x) (tasks w x ++ of_x K x).

  Lemma exec_more w t i v w' T K : exec E w t i = Some (v, w') -> more T w K ->
    exists T', exec E (set_tasks T w) t i = Some (v, set_tasks T' w') /\ more T' w' K.
  Proof.
    intros H HT.
    assert (Hx : (exists x tk, i = IExecute x tk) \/ forall x tk, i <> IExecute x tk) by (destruct i; try (right; congruence); left; eauto).
    destruct Hx as [(x & tk & ->)|Hx].
    - simpl in H |- *. destruct (shut w x); injection H as <- <-; [exists T; auto|].
      exists (upd T x (T x ++ [tk])). split; [reflexivity|]. intro y. simpl. unfold upd. destruct (Nat.eqb_spec y x) as [->|]; [|apply HT].
      rewrite <- app_assoc. etransitivity; [apply Permutation_app_tail; apply HT|]. rewrite <- app_assoc. apply Permutation_app_head. apply Permutation_app_comm.
    - exists T. destruct i; try (destruct (Hx _ _ eq_refl)); clear Hx;
      (try (cbn [exec] in H |- *; change (ename E (set_tasks T w)) with (ename E w); change (m_cfg (machs (set_tasks T w) m)) with (m_cfg (machs w m)));
       destruct w; simpl in H |- *; repeat match type of H with
        | (if ?b then _ else _) = _ => destruct b
        | (match ?b with _ => _ end) = _ => destruct b
        end; try discriminate; (injection H as Hv Hw; subst; split; [reflexivity|exact HT]) || idtac).
    injection H as <- <-. destruct (pairs p) as [[? ?]|]; (split; [reflexivity|exact HT]).
  Qed.

  Lemma pstep_more {A : Set} w t (p : prog A) w' p' T K : pstep E w t p = Some (w', p') -> more T w K ->
    exists T', pstep E (set_tasks T w) t p = Some (set_tasks T' w', p') /\ more T' w' K.
  Proof.
    destruct p as [a|e|i k]; unfold pstep; try discriminate. intros H HT.
    assert (Hx : (exists c, i = ICall c) \/ forall c, i <> ICall c) by (destruct i; try (right; congruence); left; eauto).
    destruct Hx as [(c & ->)|Hx].
    - injection H as <- <-. exists T. auto.
    - assert (He : exists v, exec E w t i = Some (v, w') /\ k v = p').
      { destruct i; try (destruct (Hx _ eq_refl));
          match type of H with match ?b with _ => _ end = _ => destruct b as [[v w1]|]; [|discriminate] end; injection H as <- <-; eauto. }
      destruct He as (v & He & Hk). destruct (exec_more _ _ _ _ _ _ _ He HT) as (T' & He' & HT'). exists T'. split; [|exact HT'].
      destruct i; try (destruct (Hx _ eq_refl)); rewrite He', Hk; reflexivity.
  Qed.

  Lemma take_more w x i tk r T K gs : ww w x i = WIdle -> Permutation (tasks (wm w) x) (tk :: r) -> more T (wm w) K -> otok E q (with_tasks T w) gs ->
    exists T' gs', otok E q (with_tasks T' {| wm := set_tasks (upd (tasks (wm w)) x r) (wm w); wc := wc w; ww := set_worker (ww w) x i (WRun tk (drain_iter E tk)) |}) gs' /\
      more T' (set_tasks (upd (tasks (wm w)) x r) (wm w)) K.
  Proof.
    intros Ew Hp HT Hok. exists (upd T x (r ++ of_x K x)), (gupd gs (TWorker x i) ([], (tq tk, false))). split.
    - pose proof Hok as ([Hi Hk] & _ & Hw). specialize (Hw x i). simpl in Hw. rewrite Ew in Hw. unfold worker_ok, Qi in Hw.
      assert (Hp' : Permutation (tasks (wm (with_tasks T w)) x) (tk :: r ++ of_x K x)).
      { simpl. etransitivity; [apply HT|]. apply (Permutation_app_tail (of_x K x) Hp). }
      apply (pick_ok E _ _ _ _ _ _ (with_tasks T w) gs x i tk (r ++ of_x K x)); [exact Hok| |apply wp_drain_both; auto].
      apply tinv2_upd.
      + simpl fst. replace (@nil (pid * (bool * content))) with (fst (gs (TWorker x i))) by (rewrite Hw; reflexivity).
        apply (inv_same E (wm (with_tasks T w))); try reflexivity; auto. left. reflexivity.
      + apply (otake E q (wm (with_tasks T w)) (fun t => snd (gs t))); [exact Hk|cbv beta; rewrite Hw; reflexivity|exact Hp'].
    - intro y. simpl. unfold upd. destruct (Nat.eqb_spec y x) as [->|]; [apply Permutation_refl|apply HT].
  Qed.
  Lemma step_more w t w' T K gs : step E w t = Some w' -> more T (wm w) K -> otok E q (with_tasks T w) gs ->
    exists T' gs', otok E q (with_tasks T' w') gs' /\ more T' (wm w') K.
  Proof.
    intros Hs HT Hok.
    assert (Hor : (exists T', step E (with_tasks T w) t = Some (with_tasks T' w') /\ more T' (wm w') K) \/
      exists x i tk r, t = TWorker x i /\ ww w x i = WIdle /\ i < n_workers E x /\ tasks (wm w) x = tk :: r /\
        w' = {| wm := set_tasks (upd (tasks (wm w)) x r) (wm w); wc := wc w; ww := set_worker (ww w) x i (WRun tk (drain_iter E tk)) |}).
    { destruct t as [n|x i]; simpl in Hs |- *.
      - left. destruct (pstep E (wm w) (TClient n) (wc w n)) as [[m' p']|] eqn:Hp; [|discriminate]. injection Hs as <-.
        destruct (pstep_more _ _ _ _ _ _ _ Hp HT) as (T' & Hp' & HT'). exists T'. rewrite Hp'. auto.
      - destruct (Nat.ltb_spec i (n_workers E x)) as [Hlt|]; simpl in Hs |- *; [|discriminate].
        destruct (ww w x i) as [|tk [[|]|e|j k]] eqn:Ew.
        + destruct (tasks (wm w) x) as [|tk r] eqn:Et; [discriminate|]. injection Hs as <-. right. exists x, i, tk, r. auto.
        + left. injection Hs as <-. exists T. auto.
        + left. injection Hs as <-. exists T. auto.
        + left. injection Hs as <-. exists T. auto.
        + left. destruct (pstep E (wm w) (TWorker x i) (Vis j k)) as [[m' p']|] eqn:Hp; [|discriminate]. injection Hs as <-.
          destruct (pstep_more _ _ _ _ _ _ _ Hp HT) as (T' & Hp' & HT'). exists T'. rewrite Hp'. auto. }
    destruct Hor as [(T' & Hs' & HT')|(x & i & tk & r & -> & Ew & Hlt & Et & ->)].
    - destruct (otok_step E q _ _ _ _ Hok Hs') as [gs' Hok']. eauto.
    - apply (take_more w x i tk r T K gs Ew); [rewrite Et; reflexivity|exact HT|exact Hok].
  Qed.

  Lemma dstep_more w v w' T K gs : dstep L P E w v = Some w' -> more T (wm w) K -> otok E q (with_tasks T w) gs ->
    exists T' K' gs', otok E q (with_tasks T' w') gs' /\ more T' (wm w') K' /\ cnt K' <= cnt K + losses L P E q w [v].
  Proof.
    intros Hs HT Hok. destruct v as [t|x n].
    - simpl. rewrite Nat.add_0_r. apply ostep_inv in Hs. destruct Hs as [Hs|(x & i & tk & r & -> & Ew & Hlt & Hp & ->)].
      + destruct (step_more _ _ _ _ _ _ Hs HT Hok) as (T' & gs' & H1 & H2). exists T', K, gs'. auto.
      + destruct (take_more w x i tk r T K gs Ew Hp HT Hok) as (T' & gs' & H1 & H2). exists T', K, gs'. auto.
    - simpl in Hs |- *. destruct (L x w); [|discriminate]. destruct (pick n (tasks (wm w) x)) as [[tk r]|] eqn:Hp; [|discriminate]. injection Hs as <-.
      assert (Hn : nth_error (tasks (wm w) x) n = Some tk) by (unfold pick in Hp; destruct (nth_error (tasks (wm w) x) n); [congruence|discriminate]).
      rewrite Hn. apply pick_perm in Hp. exists T, ((x, tk) :: K), gs. split; [exact Hok|]. split.
      + intro y. simpl. unfold of_x, upd. simpl. rewrite (Nat.eqb_sym x y). destruct (Nat.eqb_spec y x) as [->|]; [|apply HT].
        simpl. etransitivity; [apply HT|]. etransitivity; [apply Permutation_app_tail; exact Hp|]. simpl. apply Permutation_middle.
      + unfold cnt. simpl. destruct (tq tk) eqn:Hq; simpl; [|lia].
        destruct Hok as ([_ Hk] & _). destruct (k_tasks _ _ _ _ _ Hk x tk) as [Ha _].
        { simpl. eapply Permutation_in; [symmetry; apply HT|]. apply in_or_app. left. eapply nth_error_In; eauto. }
        assert (Hq' : queue_of E (tk_mach tk) = q) by (unfold queue_of; rewrite <- Ha; apply Nat.eqb_eq; exact Hq).
        rewrite Hq', Nat.eqb_refl. lia.
  Qed.
  Lemma drun_more l : forall w T K gs, more T (wm w) K -> otok E q (with_tasks T w) gs ->
    exists T' K' gs', otok E q (with_tasks T' (drun L P E w l)) gs' /\ more T' (wm (drun L P E w l)) K' /\ cnt K' <= cnt K + losses L P E q w l.
  Proof.
    induction l as [|v l IH]; intros w T K gs HT Hok; [exists T, K, gs; simpl; auto with arith|].
    assert (Hst : exists T1 K1 gs1, otok E q (with_tasks T1 (dstep_or_stay L P E w v)) gs1 /\ more T1 (wm (dstep_or_stay L P E w v)) K1 /\ cnt K1 <= cnt K + losses L P E q w [v]).
    { unfold dstep_or_stay at 1 2. destruct (dstep L P E w v) as [w'|] eqn:Hs; [eapply dstep_more; eauto|].
      exists T, K, gs. split; [exact Hok|]. split; [exact HT|lia]. }
    destruct Hst as (T1 & K1 & gs1 & H1 & H2 & H3). destruct (IH _ _ _ _ H2 H1) as (T2 & K2 & gs2 & H4 & H5 & H6).
    exists T2, K2, gs2. split; [exact H4|]. split; [exact H5|]. cbn [losses] in H3 |- *. lia.
  Qed.

  (** the sum over different executors *)
  Lemma cnt_parts K N : NoDup N -> list_sum (map (fun x => List.length (filter tq (of_x K x))) N) <= cnt K.
  Proof.
    intro HN. induction K as [|[y tk] K IH].
    - replace (map _ N) with (map (fun _ : xid => 0) N) by (apply map_ext; reflexivity). clear. induction N; simpl; [lia|exact IHN].
    - assert (Hs : list_sum (map (fun x => List.length (filter tq (of_x ((y, tk) :: K) x))) N) <=
        (if tq tk then 1 else 0) + list_sum (map (fun x => List.length (filter tq (of_x K x))) N)).
      { clear IH.
        assert (Ho : forall N', ~ In y N' -> map (fun x => List.length (filter tq (of_x ((y, tk) :: K) x))) N' = map (fun x => List.length (filter tq (of_x K x))) N').
        { intros N' Hy. apply map_ext_in. intros x Hx. unfold of_x. simpl. destruct (Nat.eqb_spec y x) as [->|]; [contradiction|reflexivity]. }
        induction HN as [|x N Hx HN IH]; [simpl; lia|]. simpl map. simpl list_sum. unfold of_x at 1. simpl. destruct (Nat.eqb_spec y x) as [->|].
        - rewrite (Ho N Hx). simpl. destruct (tq tk); simpl; unfold of_x; lia.
        - unfold of_x in *. lia. }
      unfold cnt in *. simpl. destruct (tq tk); simpl; lia.
  Qed.

  Lemma wait_queue w0 w : init_mem E w0 -> dreach L P E w0 w -> waiting q (tr (wm w)) = map (fun p => (p, pairs (wm w) p)) (queues (wm w) q).
  Proof.
    intros H0 Hr. unfold waiting. rewrite (p_C73_in_order L P E q w0 w H0 Hr), skipn_app, skipn_all, Nat.sub_diag. reflexivity.
  Qed.
  (** when the queue is empty, the tasks lost before do not matter any more *)
  Lemma forget w T K gs : more T (wm w) K -> otok E q (with_tasks T w) gs -> queues (wm w) q = [] -> otok E q (with_tasks (tasks (wm w)) w) gs.
  Proof.
    intros HT ([Hi Hk] & Hc & Hw) Hq. split; [|split; [exact Hc|exact Hw]]. split.
    - eapply inv_ext; [intro t; symmetry; apply (gupd_id2 (fun t => fst (gs t)) (TWorker 0 0))|].
      apply (inv_same E (set_tasks T (wm w))); try reflexivity; auto. left. reflexivity.
    - destruct Hk as [H1 H2 H3 H4 H5]. split; [|exact H2|exact H3|exact H4|].
      + destruct H1 as [H1|(N & N1 & N2 & N3)]; [left; exact H1|right]. exists N. split; [exact N1|]. split; [|simpl; rewrite Hq; simpl; lia].
        intros a Ha. specialize (N2 a Ha). destruct a as [t|x]; simpl in *; [exact N2|].
        rewrite (perm_count tq _ _ (HT x)), filter_app, app_length in N2. lia.
      + intros x tk Hin. apply H5. simpl in *. eapply Permutation_in; [symmetry; apply HT|]. apply in_or_app. left. exact Hin.
  Qed.

  Lemma p_C73_left_over w0 l1 l2 : let w1 := drun L P E (init_world E w0) l1 in let w := drun L P E w1 l2 in
    init_mem E w0 -> waiting q (tr (wm w1)) = [] -> at_rest E q w -> List.length (waiting q (tr (wm w))) <= losses L P E q w1 l2.
  Proof.
    intros w1 w H0 Hempty (A1 & A2 & A3 & A4).
    assert (Hr1 : dreach L P E w0 w1) by (exists l1; reflexivity).
    assert (Hr : dreach L P E w0 w) by (exists (l1 ++ l2); unfold w, w1, drun; rewrite fold_left_app; reflexivity).
    destruct (otok_all P E q w0 (init_world E w0) H0) as [gs0 Hok0]; [exists []; reflexivity|].
    destruct (drun_more l1 (init_world E w0) (tasks w0) [] gs0) as (T1 & K1 & gs1 & Hok1 & HT1 & _).
    { intro x. simpl. rewrite app_nil_r. apply Permutation_refl. }
    { unfold with_tasks. simpl. destruct w0; exact Hok0. }
    fold w1 in Hok1, HT1. rewrite (wait_queue w0 w1 H0 Hr1) in Hempty. apply map_eq_nil in Hempty.
    apply (forget _ _ _ _ HT1 Hok1) in Hempty.
    destruct (drun_more l2 w1 (tasks (wm w1)) [] gs1) as (T & K & gs & Hok & HT & HK); [|exact Hempty|].
    { intro x. simpl. rewrite app_nil_r. apply Permutation_refl. }
    fold w in Hok, HT. clearbody w. change (cnt []) with 0 in HK. etransitivity; [|exact HK]. clear HK.
    rewrite (wait_queue w0 w H0 Hr), map_length. destruct Hok as ([_ [H1 H2 H3 H4 H5]] & _ & Hw). simpl in H1, H2, Hw.
    destruct H1 as [(k & Hk1 & Hk2)|(N & N1 & N2 & N3)]; [destruct (A4 k Hk1); eapply dshut; eauto|].
    simpl in N3. etransitivity; [exact N3|]. clear N2 N3.
    set (X := flat_map (fun a : tid + xid => match a with inl _ => [] | inr x => [x] end) N).
    assert (HX : NoDup X).
    { unfold X. clear -N1. induction N1 as [|a N Ha HN IH]; [constructor|]. destruct a as [t|x]; simpl; [exact IH|]. constructor; [|exact IH].
      intro Hin. apply in_flat_map in Hin. destruct Hin as ([t|y] & Hy & Hxy); simpl in Hxy; [destruct Hxy|]. destruct Hxy as [->|[]]. contradiction. }
    etransitivity; [|apply (cnt_parts K X HX)]. unfold X. clear X HX N1.
    assert (Ht : forall t, fst (snd (gs t)) = false /\ snd (snd (gs t)) = false).
    { intro t. split; [|destruct (snd (snd (gs t))) eqn:Es; [destruct (A3 t (H2 eq_refl t Es))|reflexivity]].
      destruct t as [n|x i]; [apply (H3 n)|].
      destruct (fst (snd (gs (TWorker x i)))) eqn:Eg; [|reflexivity]. destruct (H4 x i Eg) as (m & Hx & Hm).
      specialize (Hw x i). rewrite <- Hx, (A1 m i Hm) in Hw. simpl in Hw. rewrite <- Hx, Hw in Eg. discriminate. }
    assert (Hz : forall x, List.length (filter tq (T x)) = List.length (filter tq (of_x K x))).
    { intro x. rewrite (perm_count tq _ _ (HT x)), filter_app, app_length.
      destruct (filter tq (tasks (wm w) x)) as [|tk r] eqn:Ef; [reflexivity|exfalso].
      assert (Hin : In tk (filter tq (tasks (wm w) x))) by (rewrite Ef; left; reflexivity).
      apply filter_In in Hin. destruct Hin as [Hin Hq]. destruct (H5 x tk) as [Ha _].
      { simpl. eapply Permutation_in; [symmetry; apply HT|apply in_or_app; left; exact Hin]. }
      apply (A2 x tk Hin). unfold queue_of. rewrite <- Ha. apply Nat.eqb_eq. exact Hq. }
    induction N as [|[t|x] N IH]; unfold total in *; simpl; [lia| |].
    - destruct (Ht t) as [-> ->]. exact IH.
    - rewrite Hz. simpl in IH. lia.
  Qed.
End Left.
