(** * LiveProofs2.v: every accepted event is taken and processed (proofs) *)
From Verif Require Import Sched Logic MemInv LiveSpec Lang Moments Tree Nodes Place Truth QueueProofs CallProofs FireProofs TokenProofs Depth Live LiveProofs.

Section Taken.
  Context (E : env) (w0 : mem) (s : nat -> tid) (H0 : init_mem E w0) (q : qid) (Hsv : served E w0 s q).
  Notation W := (moment E w0 s).
  Notation T := (history E w0 s).

  (** more events were taken than at time n0 *)
  Context (n0 : nat) (Hq0 : queues (wm (W n0)) q <> []).
  Definition done : Prop := exists n', List.length (taken q (T n0)) < List.length (taken q (T n')).
  Lemma taken_app h r : taken q (h ++ r) = taken q h ++ taken q r.
  Proof. unfold taken. rewrite map_app, concat_app || (rewrite flat_map_app). reflexivity. Qed.
  Lemma accepted_app h r : accepted q (h ++ r) = accepted q h ++ accepted q r.
  Proof. unfold accepted. rewrite flat_map_app. reflexivity. Qed.
  Lemma empty_done n : n0 <= n -> queues (wm (W n)) q = [] -> done.
  Proof.
    intros Hn He. pose proof (fifo E w0 (W n) q H0 (moment_reach E w0 s n)) as Hf. rewrite He, app_nil_r in Hf.
    pose proof (fifo E w0 (W n0) q H0 (moment_reach E w0 s n0)) as Hf0. exists n. unfold history at 2. rewrite <- Hf.
    fold (history E w0 s n). destruct (history_le E w0 s n0 n Hn) as [r ->]. rewrite accepted_app. unfold history at 2.
    rewrite Hf0, !app_length, map_length. fold (history E w0 s n0). destruct (queues (wm (W n0)) q); [congruence|]. simpl. lia.
  Qed.

  (** a worker that still has to look at the queue does so *)
  Definition lpre (lev : nat) : tid -> stack * token -> instr -> Prop := pre12 (dpre lev) (kpre E q).
  Definition lpost : tid -> stack * token -> forall i, iret i -> stack * token -> Prop := post12 dpost (kpost q).
  Definition looks (t : tid) (n : nat) (g : stack * token) : Prop := Istack E w0 s t n (fst g) /\ fst (snd g) = true /\ n0 <= n.

  Lemma looks_own t n lev g i v m' : looks t n g -> lpre lev t g i -> exec E (wm (W n)) t i = Some (v, m') ->
    s n = t -> wm (W (S n)) = m' -> done \/ exists g', lpost t g i v g' /\ looks t (S n) g'.
  Proof.
    intros (H1 & H2 & H3) [Hp1 Hp2] Hx Hs Hm. destruct (I_own E w0 s t n lev (fst g) i v m' H1 Hp1 Hx Hs Hm) as (g1 & Hq1 & Hi1).
    assert (Hk : (exists g2, kpost q t (snd g) i v g2 /\ fst g2 = true) \/ done).
    { destruct i; try (left; eexists; split; [reflexivity|exact H2]).
      - (* IQEmpty *) cbn [exec] in Hx. injection Hx as Hv _. cbn [kpost]. destruct (Nat.eqb_spec q0 q) as [->|N]; [|left; eexists; split; [reflexivity|exact H2]].
        destruct v; [right|left; eexists; split; [reflexivity|exact H2]].
        apply (empty_done n H3). destruct (queues (wm (W n)) q); [reflexivity|discriminate].
      - (* IQPoll *) cbn [kpost]. destruct (Nat.eqb_spec q0 q) as [->|N]; [|left; eexists; split; [reflexivity|exact H2]].
        right. cbn [exec] in Hx. destruct (queues (wm (W n)) q) as [|p r] eqn:Eq; [apply (empty_done n H3 Eq)|].
        injection Hx as _ Hx. exists (S n). destruct (history_le E w0 s n0 n H3) as [r' Hr']. unfold history at 2. rewrite Hm, <- Hx. simpl.
        fold (history E w0 s n). rewrite taken_app, Hr', taken_app, !app_length. unfold taken at 4. simpl. rewrite Nat.eqb_refl. simpl. lia. }
    destruct Hk as [(g2 & Hg & Hf)|HD]; [right|left; exact HD].
    exists (g1, g2). split; [split; assumption|]. split; [exact Hi1|]. split; [exact Hf|]. lia.
  Qed.

  Lemma look_done x i n tk p b : n0 <= n -> serves E x q -> ww (W n) x i = WRun tk p ->
    wp (kpre E q) (kpost q) (TWorker x i) p (fun _ g' => g' = idle2) (true, b) -> done.
  Proof.
    intros Hn Hx Ew Hwp.
    assert (Hi : i < n_workers E x).
    { destruct (Nat.lt_ge_cases i (n_workers E x)) as [Hl|Hl]; [exact Hl|].
      rewrite (no_worker E w0 (W n) x i (moment_reach E w0 s n) Hl) in Ew. discriminate. }
    destruct (sv_go _ _ _ _ Hsv x i Hx Hi) as (Hf & [d Hd] & Hr).
    pose proof (proj2 (depth_world E w0 (W n) H0 (moment_reach E w0 s n)) x i) as Hwp1. rewrite Ew in Hwp1.
    destruct (ends E w0 s (TWorker x i) (get_worker x i) (fun w j k => worker_step E x i w j k Hi) (worker_other E x i) lpre lpost (looks (TWorker x i)) done)
      with (top := d) (p := p) (n := n) (g := (fst (scan (TWorker x i) (T n)), (true, b)))
        (Q := fun (_ : res bool) (g : stack * token) => root (fst g) /\ snd g = idle2)
      as [HD|(n' & r & g & H1 & H2 & (H3 & H4 & H5) & H6 & H7)]; auto.
    - intros. eapply looks_own; eauto.
    - intros n' g (H1 & H2 & H3) Hs. split; [apply I_oth; assumption|]. split; [exact H2|lia].
    - intros n' g (H1 & H2 & H3) Hs. split; [apply I_same; assumption|]. split; [exact H2|lia].
    - intros lev [g1 g2] c h [Hp1 Hp2]. simpl in Hp1, Hp2.
      eapply wp_mono; [|apply wp_pair; [apply (user_depth E lev); exact Hp1|apply (K_interp_all E q _ _ g2 Hp2)]].
      simpl. intros r [g1' g2'] [E1 [E2 _]]. split; [exact E1|exact E2].
    - intros n' lev g c (H1 & _) [Hp _]. eapply I_top; eauto.
    - intros n' lev g p' k Hg (H1 & _) [Hp _]. eapply (I_latch E w0 s H0 (TWorker x i)); [|unfold get_worker in Hg|exact H1|exact Hp].
      + intros n2 p2 Hin _. right. exact (Hr _ _ Hin).
      + simpl. destruct (ww (W n') x i) as [|tk' p'']; [discriminate|]. injection Hg as ->. eauto.
    - unfold get_worker. rewrite Ew. reflexivity.
    - split; [reflexivity|]. split; [reflexivity|exact Hn].
    - eapply wp_mono; [|apply wp_pair; [exact Hwp1|exact Hwp]]. simpl. auto.
    - rewrite H7 in H4. discriminate.
  Qed.

  Lemma tasks_ok n x tk : In tk (tasks (wm (W n)) x) -> task_ok E x tk.
  Proof.
    destruct (tree_world E w0 (W n) H0 (moment_reach E w0 s n)) as (gs & (_ & Hi & _) & _). apply (ti_tasks _ _ _ Hi).
  Qed.
  Lemma ok_serves x tk : task_ok E x tk -> serves E x (queue_of E (tk_mach tk)).
  Proof. intros [H1 H2]. exists (tk_mach tk). split; [|reflexivity]. unfold exec_of. rewrite <- H1. auto. Qed.
  Lemma drain_done x i n tk : n0 <= n -> serves E x q -> task_ok E x tk -> ww (W n) x i = WRun tk (drain_iter E tk) -> done.
  Proof.
    intros Hn Hx Htk Ew. eapply look_done; [exact Hn|exact Hx|exact Ew|]. apply wp_drain_token.
    intro Hq. exfalso. pose proof (sv_only _ _ _ _ Hsv x _ Hx (ok_serves x tk Htk)) as Hs.
    unfold tq in Hq. apply Nat.eqb_neq in Hq. apply Hq. destruct Htk as [Ht _]. unfold queue_of in Hs. rewrite <- Ht in Hs. exact Hs.
  Qed.

  (** running tasks belong to the executor *)
  Lemma running_ok n x i tk p : ww (W n) x i = WRun tk p -> task_ok E x tk.
  Proof.
    revert x i tk p. induction n as [|n IH]; intros x i tk p; [discriminate|]. simpl.
    destruct (tid_eq_dec (s n) (TWorker x i)) as [->|N]; [|rewrite ww_other by exact N; apply IH].
    unfold step_or_stay. simpl. destruct (negb _); [apply IH|].
    destruct (ww (W n) x i) as [|tk0 [[|]|e|ins k]] eqn:Ew.
    - destruct (tasks (wm (W n)) x) as [|tk0 r] eqn:Et; [rewrite Ew; discriminate|].
      simpl. rewrite set_worker_eq. intros [= <- <-]. apply (tasks_ok n). rewrite Et. left. reflexivity.
    - simpl. rewrite set_worker_eq. intros [= <- <-]. eapply IH; exact Ew.
    - simpl. rewrite set_worker_eq. discriminate.
    - simpl. rewrite set_worker_eq. discriminate.
    - destruct (pstep E (wm (W n)) (TWorker x i) (Vis ins k)) as [[m' p']|]; [|intro H; eapply IH; exact H].
      simpl. rewrite set_worker_eq. intros [= <- <-]. eapply IH; exact Ew.
  Qed.

  (** ** A pending task is taken *)
  Lemma exec_tasks w t i v w' x : exec E w t i = Some (v, w') -> exists r, tasks w' x = tasks w x ++ r.
  Proof.
    intro H. destruct i; cbn [exec] in H;
      repeat match type of H with
      | (if ?b then _ else _) = _ => destruct b
      | (match ?b with _ => _ end) = _ => destruct b
      end; try discriminate; injection H as <- <-;
      try (exists []; rewrite app_nil_r; reflexivity).
    - exists []. rewrite app_nil_r. destruct (pairs w p) as [[? ?]|]; reflexivity.
    - simpl. unfold upd. destruct (Nat.eqb x x0) eqn:Ex; [apply Nat.eqb_eq in Ex; subst; eauto|exists []; rewrite app_nil_r; reflexivity].
  Qed.
  Lemma pstep_tasks (A : Set) w t (p : prog A) w' p' x : pstep E w t p = Some (w', p') -> exists r, tasks w' x = tasks w x ++ r.
  Proof.
    destruct p as [a|e|i k]; try discriminate. intro H. destruct (pstep_inv _ _ _ _ _ _ _ H) as [(c & e & -> & ->)|(v & Hx & ->)].
    - exists []. rewrite app_nil_r. reflexivity.
    - eapply exec_tasks; exact Hx.
  Qed.
  Lemma tasks_stay n x : tasks (wm (W n)) x <> [] -> tasks (wm (W (S n))) x <> [] \/
    exists j tk, task_ok E x tk /\ ww (W (S n)) x j = WRun tk (drain_iter E tk).
  Proof.
    intro Ht. simpl. unfold step_or_stay. destruct (step E (W n) (s n)) as [w'|] eqn:Es; [|left; exact Ht].
    destruct (s n) as [c|y j]; simpl in Es.
    - left. destruct (pstep E (wm (W n)) (TClient c) (wc (W n) c)) as [[m' p']|] eqn:Ep; [|discriminate]. injection Es as <-. simpl.
      destruct (pstep_tasks _ _ _ _ _ _ x Ep) as [r ->]. intro H. apply app_eq_nil in H. tauto.
    - destruct (negb _); [discriminate|]. destruct (ww (W n) y j) as [|tk [[|]|e|i k]] eqn:Ew.
      + destruct (tasks (wm (W n)) y) as [|tk r] eqn:Et; [discriminate|]. injection Es as <-. simpl.
        destruct (Nat.eq_dec y x) as [->|N].
        * right. exists j, tk. split; [apply (tasks_ok n); rewrite Et; left; reflexivity|apply set_worker_eq].
        * left. unfold upd. destruct (Nat.eqb_spec x y); [congruence|exact Ht].
      + injection Es as <-. left. exact Ht.
      + injection Es as <-. left. exact Ht.
      + injection Es as <-. left. exact Ht.
      + left. destruct (pstep E (wm (W n)) (TWorker y j) (Vis i k)) as [[m' p']|] eqn:Ep; [|discriminate]. injection Es as <-. simpl.
        destruct (pstep_tasks _ _ _ _ _ _ x Ep) as [r ->]. intro H. apply app_eq_nil in H. tauto.
  Qed.
  Lemma persist n n' x : n0 <= n -> n <= n' -> serves E x q -> tasks (wm (W n)) x <> [] -> done \/ tasks (wm (W n')) x <> [].
  Proof.
    intros Hn0 Hn Hx Ht. induction Hn as [|n' Hn IH]; [right; exact Ht|]. destruct IH as [HD|Ht']; [left; exact HD|].
    destruct (tasks_stay n' x Ht') as [H|(j & tk & Hok & Ew)]; [right; exact H|left].
    eapply drain_done; [|exact Hx|exact Hok|exact Ew]. lia.
  Qed.
  Lemma until_turn x i n : fair s (TWorker x i) -> exists k, n <= k /\ s k = TWorker x i /\ ww (W k) x i = ww (W n) x i.
  Proof.
    intro Hf. destruct (next_turn s (TWorker x i) n Hf) as (k & H1 & H2 & H3). exists k. split; [exact H1|]. split; [exact H2|].
    clear H2. induction H1 as [|k Hk IH]; [reflexivity|]. simpl. rewrite ww_other by (apply H3; lia). apply IH. intros j Hj. apply H3. lia.
  Qed.
  Lemma idle_done x i n : n0 <= n -> serves E x q -> i < n_workers E x -> tasks (wm (W n)) x <> [] -> ww (W n) x i = WIdle -> done.
  Proof.
    intros Hn Hx Hi Ht Ew. destruct (until_turn x i n (sv_fair _ _ _ _ Hsv (TWorker x i) Hi)) as (k & H1 & H2 & H3).
    destruct (persist n k x Hn H1 Hx Ht) as [HD|Hk]; [exact HD|]. rewrite Ew in H3.
    destruct (tasks (wm (W k)) x) as [|tk r] eqn:Et; [congruence|].
    apply (drain_done x i (S k) tk); [lia|exact Hx|apply (tasks_ok k); rewrite Et; left; reflexivity|].
    simpl. unfold step_or_stay. rewrite H2. simpl. rewrite (proj2 (Nat.ltb_lt _ _) Hi), H3, Et. simpl. apply set_worker_eq.
  Qed.
  Lemma pending_done x n : n0 <= n -> serves E x q -> tasks (wm (W n)) x <> [] -> done.
  Proof.
    intros Hn Hx Ht. pose proof (sv_some _ _ _ _ Hsv x Hx) as Hi.
    destruct (ww (W n) x 0) as [|tk p] eqn:Ew; [eapply idle_done; eauto|].
    pose proof (sv_go _ _ _ _ Hsv x 0 Hx Hi) as Hg.
    destruct (worker_ends E w0 s H0 x 0 n Hg) as (n1 & H1 & _ & H2). destruct H2 as (tk1 & r & H2); [congruence|].
    destruct (until_turn x 0 n1 (proj1 Hg)) as (k & H3 & H4 & H5). rewrite H2 in H5.
    destruct (persist n (S k) x Hn ltac:(lia) Hx Ht) as [HD|Hk]; [exact HD|].
    assert (Hs : ww (W (S k)) x 0 = WIdle \/ ww (W (S k)) x 0 = WRun tk1 (drain_iter E tk1)).
    { simpl. unfold step_or_stay. rewrite H4. simpl. rewrite (proj2 (Nat.ltb_lt _ _) Hi), H5. simpl.
      destruct r as [[|]|e]; simpl; rewrite set_worker_eq; auto. }
    destruct Hs as [Hs|Hs].
    - eapply (idle_done x 0 (S k)); eauto. lia.
    - apply (drain_done x 0 (S k) tk1); [lia|exact Hx|eapply running_ok; exact Hs|exact Hs].
  Qed.

  (** ** A task about to be submitted is submitted *)
  Lemma not_shut x n : serves E x q -> shut (wm (W n)) x = false.
  Proof.
    intro Hx. pose proof (sv_open _ _ _ _ Hsv x n Hx) as Ho. destruct (truth E w0 (W n) (im_tr _ _ H0) (moment_reach E w0 s n)) as [Hag _].
    pose proof (ag_shut _ _ Hag x) as Hs. rewrite (im_shut _ _ H0) in Hs.
    destruct (shut (wm (W n)) x) eqn:Es; [|reflexivity]. destruct Ho. apply shut_of_in. auto.
  Qed.
  Lemma submit_done (t : tid) {B : Set} (get : world -> option (prog B))
    (Hstep : forall w i k, get w = Some (Vis i k) ->
      match pstep E (wm w) t (Vis i k) with
      | Some (m', p') => exists w', step E w t = Some w' /\ wm w' = m' /\ get w' = Some p'
      | None => step E w t = None
      end)
    (Hother : forall w t', t' <> t -> get (step_or_stay E w t') = get w) x tk k n :
    n0 <= n -> fair s t -> get (W n) = Some (Vis (IExecute x tk) k) -> serves E x q -> done.
  Proof.
    intros Hn Hf Hg Hx. destruct (next_turn s t n Hf) as (j & H1 & H2 & H3).
    assert (Hg' : get (W j) = Some (Vis (IExecute x tk) k)).
    { clear H2. induction H1 as [|j Hj IH]; [exact Hg|]. simpl. rewrite Hother by (apply H3; lia). apply IH. intros i Hi. apply H3. lia. }
    pose proof (Hstep _ _ _ Hg') as Hst. unfold pstep in Hst. cbn [exec] in Hst. rewrite (not_shut x j Hx) in Hst.
    destruct Hst as (w' & Hs & Hm & _). apply (pending_done x (S j)); [lia|exact Hx|].
    simpl. unfold step_or_stay. rewrite H2, Hs, Hm. simpl. unfold upd. rewrite Nat.eqb_refl. intro H. apply app_eq_nil in H. destruct H. discriminate.
  Qed.

  Lemma bounded_pos {A : Type} c (f : A -> nat) : 0 < c -> bounded c f -> exists a, 0 < f a.
  Proof.
    intros Hc (L & _ & _ & HL). assert (Ht : 0 < total f L) by lia. clear HL.
    induction L as [|a L IH]; [inversion Ht|]. unfold total in *. simpl in Ht. destruct (f a) eqn:Ef; [apply IH; exact Ht|exists a; lia].
  Qed.
  Lemma progress : done.
  Proof.
    destruct (token_programs E q w0 (W n0) H0 (moment_reach E w0 s n0)) as (gs & [H1 _ H3 H4 H5] & Hc & Hw).
    destruct H1 as [(m & Hm & Hs)|H1].
    { rewrite not_shut in Hs by (exists m; auto). discriminate. }
    assert (Hpos : 0 < List.length (queues (wm (W n0)) q)) by (destruct (queues (wm (W n0)) q); [congruence|simpl; lia]).
    destruct (bounded_pos _ _ Hpos H1) as [[t|x] Ha]; simpl in Ha.
    - destruct (snd (gs t)) eqn:Es.
      + (* it has to submit a task *)
        assert (Hexec : forall (A : Set) (p : prog A) Q, wp (kpre E q) (kpost q) t p Q (gs t) -> (forall r g, Q r g -> snd g = false) ->
          exists x tk k, p = Vis (IExecute x tk) k /\ serves E x q).
        { intros A p Q Hp HQ. destruct p as [a|e|i k]; [rewrite (HQ _ _ Hp) in Es; discriminate|rewrite (HQ _ _ Hp) in Es; discriminate|].
          destruct Hp as [Hp _]. destruct i; simpl in Hp; try congruence. exists x, tk, k. split; [reflexivity|].
          destruct Hp as [Hok Hq]. pose proof (ok_serves x tk Hok) as Hsx. specialize (Hq Es). unfold tq in Hq. apply Nat.eqb_eq in Hq.
          destruct Hok as [Hok _]. unfold queue_of in Hsx. rewrite <- Hok, Hq in Hsx. exact Hsx. }
        destruct t as [c|x i].
        * destruct (Hexec _ _ _ (Hc c) (fun r g H => H)) as (x & tk & k & Hp & Hx).
          assert (Hcl : c < n_clients E).
          { destruct (Nat.lt_ge_cases c (n_clients E)) as [Hl|Hl]; [exact Hl|]. exfalso.
            rewrite (no_client E w0 (W n0) c (moment_reach E w0 s n0) Hl) in Hp. discriminate. }
          eapply (submit_done (TClient c) (get_client c) (client_step E c) (client_other E c)); [apply le_n|apply (sv_fair _ _ _ _ Hsv); exact Hcl| |exact Hx].
          unfold get_client. rewrite Hp. reflexivity.
        * specialize (Hw x i). unfold run_ok in Hw. destruct (ww (W n0) x i) as [|tk p] eqn:Ew; [rewrite Hw in Es; discriminate|].
          destruct (Hexec _ _ _ Hw) as (x' & tk' & k & Hp & Hx); [intros r g ->; reflexivity|].
          assert (Hi : i < n_workers E x).
          { destruct (Nat.lt_ge_cases i (n_workers E x)) as [Hl|Hl]; [exact Hl|].
            rewrite (no_worker E w0 (W n0) x i (moment_reach E w0 s n0) Hl) in Ew. discriminate. }
          eapply (submit_done (TWorker x i) (get_worker x i) (fun w j k => worker_step E x i w j k Hi) (worker_other E x i)); [apply le_n|apply (sv_fair _ _ _ _ Hsv); exact Hi| |exact Hx].
          unfold get_worker. rewrite Ew, Hp. reflexivity.
      + (* it has to look at the queue *)
        destruct (gs t) as [b1 b2] eqn:Eg. simpl in Es, Ha. subst b2. destruct b1; [|simpl in Ha; lia].
        destruct t as [c|x i]; [specialize (H3 c); rewrite Eg in H3; discriminate|].
        specialize (Hw x i). unfold run_ok in Hw. rewrite Eg in Hw. destruct (ww (W n0) x i) as [|tk p] eqn:Ew; [discriminate|].
        eapply look_done; [apply le_n| |exact Ew|exact Hw]. apply (H4 x i). rewrite Eg. reflexivity.
    - (* a task is pending *)
      destruct (filter (tq E q) (tasks (wm (W n0)) x)) as [|tk l] eqn:Ef; [simpl in Ha; lia|].
      assert (Hin : In tk (filter (tq E q) (tasks (wm (W n0)) x))) by (rewrite Ef; left; reflexivity).
      apply filter_In in Hin. destruct Hin as [Hin Hq]. pose proof (H5 x tk Hin) as Hok. pose proof (ok_serves x tk Hok) as Hsx.
      unfold tq in Hq. apply Nat.eqb_eq in Hq. destruct Hok as [Hok _]. unfold queue_of in Hsx. rewrite <- Hok, Hq in Hsx.
      eapply (pending_done x n0); [apply le_n|exact Hsx|]. intro He. rewrite He in Hin. destruct Hin.
  Qed.
End Taken.

(** ** The theorems *)
Lemma span_ends E w0 w t a op b its z d k : init_mem E w0 -> reach E w0 w ->
  span t (tr (wm w)) a op b its z d -> opens op = Some k -> node_ok E t (k, its, z) /\ ends_with op z.
Proof.
  intros H0 Hr Hs Ho. pose proof (proj1 (tree_ok E w0 w H0 Hr) _ _ _ _ (span_closed _ _ _ _ _ _ _ _ _ Hs Ho)) as Hn.
  split; [exact Hn|]. destruct op; try discriminate; injection Ho as <-; destruct z; simpl in Hn |- *; try contradiction; intuition auto.
Qed.

Lemma p_C50_only_start_blocks :
  forall E w0 w t, init_mem E w0 -> reach E w0 w -> step E w t = None ->
    at_rest t (tr (wm w)) \/
    exists p its st, fst (scan t (tr (wm w))) = (FApi (AAppStart p), its) :: st /\ ~ app_released p (tr (wm w)).
Proof. exact blocked. Qed.

Lemma p_C50_begun_is_finished :
  forall E w0 s t, init_mem E w0 -> goes_on E w0 s t ->
  forall n a op r, history E w0 s n = a ++ (t, op) :: r -> opens op <> None ->
    exists n' b its z d, n <= n' /\ span t (history E w0 s n') a op b its z d /\ ends_with op z.
Proof.
  intros E w0 s t H0 Hg n a op r HT Ho. destruct (opens op) as [k|] eqn:Ek; [|congruence].
  destruct (finished E w0 s H0 t n a op k r Hg HT Ek) as (n' & b & its & z & d & Hn & Hs).
  exists n', b, its, z, d. split; [exact Hn|]. split; [exact Hs|].
  eapply span_ends; eauto. apply moment_reach.
Qed.

Lemma p_C50_client_comes_to_its_end :
  forall E w0 s c, init_mem E w0 -> goes_on E w0 s (TClient c) ->
    exists n, at_rest (TClient c) (history E w0 s n) /\ forall n', n <= n' -> thread_obs (TClient c) (history E w0 s n') = thread_obs (TClient c) (history E w0 s n).
Proof.
  intros E w0 s c H0 Hg. destruct (client_ends E w0 s H0 c 0 Hg) as (n & _ & Hr & r & Hw). exists n. split; [exact Hr|].
  assert (H : forall n', n <= n' -> wc (moment E w0 s n') c = of_res r /\
    thread_obs (TClient c) (history E w0 s n') = thread_obs (TClient c) (history E w0 s n)); [|intros n' Hn; apply H; exact Hn].
  intros n' Hn. induction Hn as [|n' Hn [IH1 IH2]]; [auto|]. destruct (tid_eq_dec (s n') (TClient c)) as [Es|N].
  - assert (Hs : moment E w0 s (S n') = moment E w0 s n').
    { simpl. unfold step_or_stay. rewrite Es. simpl. rewrite IH1. destruct r; reflexivity. }
    unfold history in *. rewrite Hs. auto.
  - split.
    + pose proof (client_other E c (moment E w0 s n') (s n') N) as H. unfold get_client in H. simpl. injection H as ->. exact IH1.
    + destruct (history_S E w0 s n') as (x & -> & Hx). rewrite thread_obs_app, IH2.
      assert (He : thread_obs (TClient c) x = []); [|rewrite He, app_nil_r; reflexivity].
      clear - Hx N. induction x as [|[t o] x IH]; [reflexivity|]. unfold thread_obs in *. simpl.
      assert (Ht : t = s n') by (apply (Hx (t, o)); left; reflexivity).
      rewrite tid_eqb_neq by congruence. apply IH. intros to Hin. apply Hx. right. exact Hin.
Qed.

Lemma taken_le E w0 s q n n' : n <= n' -> List.length (taken q (history E w0 s n)) <= List.length (taken q (history E w0 s n')).
Proof. intro H. destruct (history_le E w0 s n n' H) as [r ->]. rewrite taken_app, app_length. lia. Qed.
Lemma accepted_le E w0 s q n n' : n <= n' -> List.length (accepted q (history E w0 s n)) <= List.length (accepted q (history E w0 s n')).
Proof. intro H. destruct (history_le E w0 s n n' H) as [r ->]. rewrite accepted_app, app_length. lia. Qed.
Lemma all_taken E w0 s q : init_mem E w0 -> served E w0 s q ->
  forall k n, k < List.length (accepted q (history E w0 s n)) -> exists n', n <= n' /\ k < List.length (taken q (history E w0 s n')).
Proof.
  intros H0 Hsv k n. remember (S k - List.length (taken q (history E w0 s n))) as d eqn:Hd. revert n Hd.
  induction d as [d IH] using lt_wf_ind. intros n Hd Hk.
  destruct (Nat.lt_ge_cases k (List.length (taken q (history E w0 s n)))) as [Hl|Hl]; [exists n; split; [apply le_n|exact Hl]|].
  assert (Hq : queues (wm (moment E w0 s n)) q <> []).
  { intro He. pose proof (fifo E w0 (moment E w0 s n) q H0 (moment_reach E w0 s n)) as Hf. rewrite He in Hf. simpl in Hf. rewrite app_nil_r in Hf.
    unfold history in Hk, Hl. rewrite Hf in Hk. lia. }
  destruct (progress E w0 s H0 q Hsv n Hq) as [n' Hn'].
  assert (Hle : n <= n').
  { destruct (Nat.le_gt_cases n n') as [H|H]; [exact H|]. pose proof (taken_le E w0 s q n' n ltac:(lia)). lia. }
  destruct (IH (S k - List.length (taken q (history E w0 s n')))) with (n := n') as (n2 & H1 & H2); [lia|reflexivity| |].
  - pose proof (accepted_le E w0 s q n n' Hle). lia.
  - exists n2. split; [lia|exact H2].
Qed.
(** the k-th taken pair *)
Lemma taken_at q k : forall h, k < List.length (taken q h) ->
  exists a t p c r, h = a ++ (t, OTake q p c) :: r /\ List.length (taken q a) = k /\ nth_error (taken q h) k = Some (p, c).
Proof.
  induction h as [|[t o] h IH] using rev_ind; [simpl; lia|]. rewrite taken_app, app_length. intro Hk.
  destruct (Nat.lt_ge_cases k (List.length (taken q h))) as [Hl|Hl].
  - destruct (IH Hl) as (a & t' & p & c & r & -> & Ha & Hn). exists a, t', p, c, (r ++ [(t, o)]).
    split; [rewrite <- app_assoc; reflexivity|]. split; [exact Ha|]. rewrite nth_error_app1 by exact Hl. exact Hn.
  - destruct o as [| | | | | |q' p c| | | | | | | | |]; simpl in Hk; try lia. destruct (Nat.eqb_spec q' q) as [->|]; simpl in Hk; [|lia].
    exists h, t, p, c, []. split; [reflexivity|]. split; [lia|]. rewrite nth_error_app2 by exact Hl. simpl. rewrite Nat.eqb_refl.
    replace (k - List.length (taken q h)) with 0 by lia. reflexivity.
Qed.

Lemma p_C51_accepted_is_processed :
  forall E w0 s q, init_mem E w0 -> served E w0 s q ->
  forall n a t p e m e' m' r, history E w0 s n = a ++ (t, OOffer q p e m e' m') :: r ->
    exists n' x i a' b its z d, serves E x q /\
      span (TWorker x i) (history E w0 s n') a' (OTake q p (Some (e', m'))) b its z d /\
      ends_with (OTake q p (Some (e', m'))) z /\
      List.length (taken q a') = List.length (accepted q a).
Proof.
  intros E w0 s q H0 Hsv n a t p e m e' m' r HT.
  assert (Hacc : accepted q (history E w0 s n) = accepted q a ++ (p, Some (e', m')) :: accepted q r).
  { rewrite HT. change ((t, OOffer q p e m e' m') :: r) with ([(t, OOffer q p e m e' m')] ++ r). rewrite !accepted_app. simpl. rewrite Nat.eqb_refl. reflexivity. }
  destruct (all_taken E w0 s q H0 Hsv (List.length (accepted q a)) n) as (n1 & Hn1 & Hk); [rewrite Hacc, app_length; simpl; lia|].
  destruct (taken_at q _ _ Hk) as (a' & t' & p' & c' & r' & HT' & Ha' & Hnth).
  assert (Hc : (p', c') = (p, Some (e', m'))).
  { assert (Ha2 : nth_error (accepted q (history E w0 s n1)) (List.length (accepted q a)) = Some (p, Some (e', m'))).
    { destruct (history_le E w0 s n n1 Hn1) as [r2 ->]. rewrite accepted_app, Hacc, <- app_assoc. rewrite nth_error_app2 by apply le_n.
      rewrite Nat.sub_diag. reflexivity. }
    pose proof (fifo E w0 (moment E w0 s n1) q H0 (moment_reach E w0 s n1)) as Hf. unfold history in Ha2 at 1. rewrite Hf in Ha2.
    rewrite nth_error_app1 in Ha2 by exact Hk. unfold history in Hnth. rewrite Ha2 in Hnth. injection Hnth as <- <-. reflexivity. }
  injection Hc as -> ->.
  assert (Hw : exists x i, t' = TWorker x i /\ serves E x q /\ i < n_workers E x).
  { assert (HT2 : history E w0 s n1 = (a' ++ [(t', OTake q p (Some (e', m')))]) ++ r') by (rewrite <- app_assoc; exact HT').
    destruct (reach_prefix E w0 (moment E w0 s n1) (im_tr _ _ H0) (moment_reach E w0 s n1) _ _ HT2) as (w1 & Hr1 & Hw1).
    assert (Ho : opened t' (tr (wm w1)) (FTake q p (Some (e', m'))) []).
    { unfold opened. rewrite Hw1, Tree.scan_snoc. destruct (tid_eq_dec t' t'); [|congruence].
      destruct (scan t' a') as [st ns]. left. reflexivity. }
    assert (Hlv : live E t') by (eapply (opened_live E w0 w1 H0 Hr1); [exact Ho|discriminate]).
    apply (proj2 (tree_ok E w0 w1 H0 Hr1)) in Ho. destruct Ho as (ext & o & Hn). destruct o; try contradiction.
    destruct Hn as (_ & _ & tm & i & Ht & Hq & _). exists (exec_of E tm), i. subst t'. split; [reflexivity|]. split; [exists tm; auto|exact Hlv]. }
  destruct Hw as (x & i & -> & Hx & Hi).
  destruct (p_C50_begun_is_finished E w0 s (TWorker x i) H0 (sv_go _ _ _ _ Hsv x i Hx Hi) n1 _ _ _ HT') as (n' & b & its & z & d & _ & Hs & Hz); [discriminate|].
  exists n', x, i, a', b, its, z, d. auto.
Qed.
