(** * LiveProofs.v: what is begun is finished, what is accepted is processed (proofs) *)
From Verif Require Import Sched Logic LiveSpec Tree Nodes Place Truth QueueProofs CallProofs FireProofs TokenProofs Depth Live.

(** ** The stack of a thread *)
Lemma scan_grow t tr o : closes o = false -> opens o = None ->
  exists out, fst (scan t (tr ++ [(t, o)])) = addl out (fst (scan t tr)).
Proof.
  intros H1 H2. exists [o]. rewrite Tree.scan_snoc. destruct (tid_eq_dec t t); [|congruence].
  destruct (scan t tr) as [st ns]. rewrite scan1_fst. simpl. symmetry. apply addl_one; assumption.
Qed.
Lemma addl_keep st : exists out, st = addl out st.
Proof. exists []. rewrite addl_nil. reflexivity. Qed.
Lemma exec_scan E w t i v w' : exec E w t i = Some (v, w') -> dpost t (fst (scan t (tr w))) i v (fst (scan t (tr w'))).
Proof.
  intro H. destruct i; cbn [exec] in H;
    try (repeat match type of H with
         | (if ?b then _ else _) = _ => destruct b
         | (match ?b with _ => _ end) = _ => destruct b
         end; try discriminate; injection H as <- <-; cbn [dpost];
         first [apply scan_grow; reflexivity | apply addl_keep]).
  - destruct (m_ended (machs w m)); injection H as <- <-; [apply scan_grow; reflexivity|destruct b; apply scan_grow; reflexivity].
  - injection H as <- <-. destruct (pairs w p) as [[? ?]|]; [apply scan_grow; reflexivity|apply addl_keep].
  - destruct (queues w q) as [|p r]; injection H as <- <-; simpl; [reflexivity|].
    exists (pairs w p). rewrite Tree.scan_snoc. destruct (tid_eq_dec t t); [|congruence].
    destruct (scan t (tr w)) as [st ns]. reflexivity.
  - injection H as <- <-. simpl. rewrite Tree.scan_snoc. destruct (tid_eq_dec t t); [|congruence].
    destruct (scan t (tr w)) as [st ns]. rewrite scan1_fst. reflexivity.
Qed.

Lemma user_depth E lev t g c h : dpre lev t g (ICall c) ->
  wp (dpre (S lev)) dpost t (interp E (behav E c h)) (fun r g' => dpost t g (ICall c) r g') g.
Proof.
  intros [Hl Hn]. destruct g as [|[k its] st]; [congruence|].
  eapply wp_mono; [|apply (D_interp E (S lev)); apply le_n_S; exact Hl]. intros r g' [out ->]. exists out. reflexivity.
Qed.

Definition root (g : stack) : Prop := exists its, g = [(FRoot, its)].
Lemma depth_world E w0 w : init_mem E w0 -> reach E w0 w ->
  (forall n, wp (dpre 0) dpost (TClient n) (wc w n) (fun _ => root) (fst (scan (TClient n) (tr (wm w))))) /\
  (forall x i, match ww w x i with
               | WIdle => root (fst (scan (TWorker x i) (tr (wm w))))
               | WRun _ p => wp (dpre 0) dpost (TWorker x i) p (fun _ => root) (fst (scan (TWorker x i) (tr (wm w))))
               end).
Proof.
  intros H0 [sched ->].
  assert (Hroot : forall (t : tid) (A : Set) (p : prog A) g, D 0 p -> root g -> wp (dpre 0) dpost t p (fun _ => root) g).
  { intros t A p g Hp [its ->]. eapply wp_mono; [|apply Hp; lia]. intros r g' [out ->]. eexists. reflexivity. }
  destruct (sound E (dpre 0) dpost (fun w gs => forall t, gs t = fst (scan t (tr w))) (fun _ _ => root) (fun _ _ _ => root) (fun _ => root)) with
    (w := init_world E w0) (gs := fun _ : tid => [(FRoot, @nil obs)]) (sched := sched) as [gs (H1 & H2 & H3)].
  - intros w gs t i v w' Hi Hp Hx. exists (fst (scan t (tr w'))). split; [rewrite Hi; eapply exec_scan; exact Hx|].
    intro t'. unfold gupd. destruct (tid_eq_dec t' t) as [->|N]; [reflexivity|]. rewrite Hi.
    destruct (exec_grows _ _ _ _ _ _ Hx) as [->|[o ->]]; [reflexivity|].
    rewrite Tree.scan_snoc. destruct (tid_eq_dec t t'); [congruence|reflexivity].
  - intros t g c h Hp. destruct g as [|[k its] st]; [destruct Hp; congruence|].
    eapply wp_mono; [|apply (D_interp E 0); lia]. intros r g' [out ->]. exists out. reflexivity.
  - intros w gs x i tk r Hi Hl Hg Et. exists (gs (TWorker x i)). split; [|apply Hroot; [apply D_drain|exact Hg]].
    intro t'. unfold gupd. destruct (tid_eq_dec t' (TWorker x i)) as [->|]; apply Hi.
  - intros w gs x i tk Hi Hl Hg. exists (gs (TWorker x i)). split; [|apply Hroot; [apply D_drain|exact Hg]].
    intro t'. unfold gupd. destruct (tid_eq_dec t' (TWorker x i)) as [->|]; apply Hi.
  - intros w gs x i tk Hi Hl Hg. exists (gs (TWorker x i)). split; [|exact Hg].
    intro t'. unfold gupd. destruct (tid_eq_dec t' (TWorker x i)) as [->|]; apply Hi.
  - intros w gs x i tk e Hi Hl Hg. destruct Hg as [its Hg]. exists [(FRoot, its ++ [OUncaught tk e])]. split; [|eexists; reflexivity].
    intro t'. unfold gupd. simpl tr. rewrite Tree.scan_snoc.
    destruct (tid_eq_dec t' (TWorker x i)) as [->|N]; [|destruct (tid_eq_dec (TWorker x i) t'); [congruence|apply Hi]].
    destruct (tid_eq_dec (TWorker x i) (TWorker x i)); [|congruence].
    specialize (Hi (TWorker x i)). destruct (scan (TWorker x i) (tr w)) as [st ns]. simpl in Hi. rewrite <- Hi, Hg. reflexivity.
  - split; [|split].
    + intro t. simpl. rewrite (im_tr _ _ H0). reflexivity.
    + intro n. simpl. destruct (Nat.ltb n (n_clients E)); [|eexists; reflexivity].
      apply Hroot; [apply D_interp|eexists; reflexivity].
    + intros x i. simpl. eexists. reflexivity.
  - split; [intro n; rewrite <- H1; apply H2|]. intros x i. rewrite <- H1. specialize (H3 x i). unfold worker_ok in H3. destruct (ww _ x i); exact H3.
Qed.

(** ** The programs of clients and workers *)
Definition get_client (n : nat) (w : world) : option (prog unit) := Some (wc w n).
Definition get_worker (x : xid) (i : nat) (w : world) : option (prog bool) :=
  match ww w x i with WIdle => None | WRun _ p => Some p end.
Lemma client_step E n w i k : get_client n w = Some (Vis i k) ->
  match pstep E (wm w) (TClient n) (Vis i k) with
  | Some (m', p') => exists w', step E w (TClient n) = Some w' /\ wm w' = m' /\ get_client n w' = Some p'
  | None => step E w (TClient n) = None
  end.
Proof.
  intro H. injection H as H. cbn [step]. rewrite H. destruct (pstep E (wm w) (TClient n) (Vis i k)) as [[m' p']|]; [|reflexivity].
  eexists. split; [reflexivity|]. split; [reflexivity|]. unfold get_client. simpl. unfold upd. rewrite Nat.eqb_refl. reflexivity.
Qed.
Lemma client_other E n w t : t <> TClient n -> get_client n (step_or_stay E w t) = get_client n w.
Proof.
  intro N. unfold step_or_stay, get_client. destruct (step E w t) as [w'|] eqn:Hs; [|reflexivity].
  destruct t as [n'|x i]; simpl in Hs.
  - destruct (pstep E (wm w) (TClient n') (wc w n')) as [[m' p']|]; [|discriminate]. injection Hs as <-. simpl.
    unfold upd. destruct (Nat.eqb_spec n n') as [->|]; [congruence|reflexivity].
  - destruct (negb _); [discriminate|]. destruct (ww w x i) as [|tk [[|]|e|ins k]].
    + destruct (tasks (wm w) x); [discriminate|]. injection Hs as <-. reflexivity.
    + injection Hs as <-. reflexivity.
    + injection Hs as <-. reflexivity.
    + injection Hs as <-. reflexivity.
    + destruct (pstep E (wm w) (TWorker x i) (Vis ins k)) as [[m' p']|]; [|discriminate]. injection Hs as <-. reflexivity.
Qed.
Lemma set_worker_eq f x i v : set_worker f x i v x i = v.
Proof. unfold set_worker. rewrite !Nat.eqb_refl. reflexivity. Qed.
Lemma set_worker_neq f x i v x' i' : (x', i') <> (x, i) -> set_worker f x i v x' i' = f x' i'.
Proof.
  intro H. unfold set_worker. destruct (Nat.eqb_spec x' x) as [->|]; [|reflexivity].
  destruct (Nat.eqb_spec i' i) as [->|]; [congruence|reflexivity].
Qed.
Lemma worker_step E x j w i k : j < n_workers E x -> get_worker x j w = Some (Vis i k) ->
  match pstep E (wm w) (TWorker x j) (Vis i k) with
  | Some (m', p') => exists w', step E w (TWorker x j) = Some w' /\ wm w' = m' /\ get_worker x j w' = Some p'
  | None => step E w (TWorker x j) = None
  end.
Proof.
  intros Hj H. unfold get_worker in H. cbn [step]. apply Nat.ltb_lt in Hj. rewrite Hj. cbn [negb].
  destruct (ww w x j) as [|tk p]; [discriminate|]. injection H as ->.
  destruct (pstep E (wm w) (TWorker x j) (Vis i k)) as [[m' p']|]; [|reflexivity].
  eexists. split; [reflexivity|]. split; [reflexivity|]. unfold get_worker. simpl. rewrite set_worker_eq. reflexivity.
Qed.
Lemma ww_other E x j w t : t <> TWorker x j -> ww (step_or_stay E w t) x j = ww w x j.
Proof.
  intro N. unfold step_or_stay. destruct (step E w t) as [w'|] eqn:Hs; [|reflexivity].
  destruct t as [n'|x' i]; simpl in Hs.
  - destruct (pstep E (wm w) (TClient n') (wc w n')) as [[m' p']|]; [|discriminate]. injection Hs as <-. reflexivity.
  - assert (Hn : (x, j) <> (x', i)) by congruence.
    destruct (negb _); [discriminate|]. destruct (ww w x' i) as [|tk [[|]|e|ins k]].
    + destruct (tasks (wm w) x'); [discriminate|]. injection Hs as <-. simpl. apply set_worker_neq. exact Hn.
    + injection Hs as <-. apply set_worker_neq. exact Hn.
    + injection Hs as <-. apply set_worker_neq. exact Hn.
    + injection Hs as <-. apply set_worker_neq. exact Hn.
    + destruct (pstep E (wm w) (TWorker x' i) (Vis ins k)) as [[m' p']|]; [|discriminate]. injection Hs as <-. apply set_worker_neq. exact Hn.
Qed.
Lemma worker_other E x j w t : t <> TWorker x j -> get_worker x j (step_or_stay E w t) = get_worker x j w.
Proof. intro N. unfold get_worker. rewrite ww_other by exact N. reflexivity. Qed.
(** workers that do not exist never run *)
Lemma no_worker E w0 w x i : reach E w0 w -> n_workers E x <= i -> ww w x i = WIdle.
Proof.
  intros [sched ->] Hi. induction sched as [|t l IH] using rev_ind; [reflexivity|].
  unfold run in *. rewrite fold_left_app. simpl. destruct (tid_eq_dec t (TWorker x i)) as [->|N]; [|rewrite ww_other; auto].
  unfold step_or_stay. simpl. destruct (Nat.ltb_spec i (n_workers E x)); [lia|]. exact IH.
Qed.

(** nor do clients that do not exist *)
Lemma no_client E w0 w n : reach E w0 w -> n_clients E <= n -> wc w n = Ret tt.
Proof.
  intros [sched ->] Hn. induction sched as [|t l IH] using rev_ind.
  - simpl. destruct (Nat.ltb_spec n (n_clients E)); [lia|reflexivity].
  - unfold run in *. rewrite fold_left_app. simpl. destruct (tid_eq_dec t (TClient n)) as [->|N].
    + set (w := fold_left _ _ _) in *. unfold step_or_stay. simpl. rewrite IH. simpl. exact IH.
    + pose proof (client_other E n (fold_left (step_or_stay E) l (init_world E w0)) t N) as H. unfold get_client in H.
      injection H as ->. exact IH.
Qed.
(** a latch that was counted down is open *)
Lemma latch_in p h : app_released p h -> latch_of p false h = true.
Proof.
  intros [t Hin]. revert Hin. induction h as [|[t' o] h IH] using rev_ind; [intros []|]. unfold latch_of. rewrite replay_snoc. simpl.
  intro Hin. apply in_app_or in Hin. destruct Hin as [Hin|[[= -> ->]|[]]].
  - fold (latch_of p false h). rewrite (IH Hin). destruct o; try reflexivity. destruct w; try reflexivity. destruct (Nat.eqb p0 p); reflexivity.
  - rewrite Nat.eqb_refl. reflexivity.
Qed.

Section Rest.
  Context (E : env) (w0 : mem) (s : nat -> tid) (H0 : init_mem E w0).
  Notation W := (moment E w0 s).
  Notation T := (history E w0 s).

  Lemma latch_open n p : app_released p (T n) -> latches (wm (W n)) p = true.
  Proof.
    intro Hin. destruct (truth E w0 (W n) (im_tr _ _ H0) (moment_reach E w0 s n)) as [Hag _].
    rewrite (ag_latches _ _ Hag), (im_latches _ _ H0). apply latch_in. exact Hin.
  Qed.
  Lemma released_later n n' p : n <= n' -> app_released p (T n) -> app_released p (T n').
  Proof. intros Hn [t Hin]. destruct (history_le E w0 s n n' Hn) as [r ->]. exists t. apply in_or_app. auto. Qed.

  (** ghost state of a thread: its stack *)
  Definition Istack (t : tid) (n : nat) (g : stack) : Prop := g = fst (scan t (T n)).
  Lemma I_own t n lev g i v m' : Istack t n g -> dpre lev t g i -> exec E (wm (W n)) t i = Some (v, m') ->
    s n = t -> wm (W (S n)) = m' -> exists g', dpost t g i v g' /\ Istack t (S n) g'.
  Proof.
    unfold Istack. intros -> Hp Hx Hs Hm. exists (fst (scan t (T (S n)))). split; [|reflexivity]. unfold history. rewrite Hm.
    eapply exec_scan. exact Hx.
  Qed.
  Lemma I_oth t n g : Istack t n g -> s n <> t -> Istack t (S n) g.
  Proof.
    unfold Istack. intros -> Hs. destruct (history_S E w0 s n) as (r & -> & Hr). rewrite scan_other; [reflexivity|].
    intros to Hin. rewrite (Hr _ Hin). exact Hs.
  Qed.
  Lemma I_same t n g : Istack t n g -> wm (W (S n)) = wm (W n) -> Istack t (S n) g.
  Proof. unfold Istack. intros -> H. unfold history. rewrite H. reflexivity. Qed.
  Lemma I_top t d : (forall n, nesting t (T n) <= d) -> forall n lev g c, Istack t n g -> dpre lev t g (ICall c) -> lev <= d.
  Proof. unfold Istack. intros Hd n lev g c -> [Hl _]. specialize (Hd n). unfold nesting in Hd. unfold calls in Hl. lia. Qed.
  (** t is about to wait for the release of app service p *)
  Definition waits (t : tid) (n : nat) (p : apid) : Prop :=
    match t with
    | TClient c => exists k, wc (W n) c = Vis (ILatchAwait p) k
    | TWorker x i => exists tk k, ww (W n) x i = WRun tk (Vis (ILatchAwait p) k)
    end.
  Lemma I_latch t (Done : Prop) : (forall n p, In (t, OInv (AAppStart p)) (T n) -> waits t n p -> Done \/ exists n', app_released p (T n')) ->
    forall n lev g p, waits t n p -> Istack t n g -> dpre lev t g (ILatchAwait p) ->
    Done \/ exists n', forall n'', n' <= n'' -> exec E (wm (W n'')) t (ILatchAwait p) <> None.
  Proof.
    unfold Istack. intros Hr n lev g p Hw -> (its & st & Hg).
    assert (Hin : In (t, OInv (AAppStart p)) (T n)).
    { assert (Ho : opened t (T n) (FApi (AAppStart p)) its) by (unfold opened; rewrite Hg; left; reflexivity).
      destruct (opened_inv _ _ _ _ Ho) as (a & op & b & u & -> & Ho' & _); [discriminate|].
      apply in_or_app. right. left. destruct op; try discriminate; injection Ho' as ->; reflexivity. }
    destruct (Hr n p Hin Hw) as [HD|[n' Hn']]; [left; exact HD|right]. exists n'. intros n'' Hle Hx.
    destruct (exec_none _ _ _ _ Hx) as [(p' & [= <-] & Hl)|[c Hc]]; [|discriminate].
    rewrite (latch_open n'' p (released_later _ _ _ Hle Hn')) in Hl. discriminate.
  Qed.

  Lemma client_ends_or c n (Done : Prop) : fair s (TClient c) -> no_runaway E w0 s (TClient c) ->
    (forall n p, In (TClient c, OInv (AAppStart p)) (T n) -> waits (TClient c) n p -> Done \/ exists n', app_released p (T n')) ->
    Done \/ exists n', n <= n' /\ at_rest (TClient c) (T n') /\ exists r, wc (W n') c = of_res r.
  Proof.
    intros Hf [d Hd] Hr. pose proof (proj1 (depth_world E w0 (W n) H0 (moment_reach E w0 s n)) c) as Hwp.
    destruct (ends E w0 s (TClient c) (get_client c) (client_step E c) (client_other E c) dpre dpost (Istack (TClient c)) Done)
      with (top := d) (p := wc (W n) c) (n := n) (g := fst (scan (TClient c) (T n))) (Q := fun (_ : res unit) => root)
      as [HD|(n' & r & g & H1 & H2 & H3 & H4)]; auto.
    - intros. right. eapply I_own; eauto.
    - apply I_oth.
    - apply I_same.
    - intros. apply user_depth. assumption.
    - apply I_top. exact Hd.
    - intros n' lev g p k Hg. eapply I_latch; [exact Hr|]. exists k. injection Hg as ->. reflexivity.
    - reflexivity.
    - right. exists n'. split; [exact H1|]. split; [rewrite H3 in H4; exact H4|]. exists r. injection H2 as ->. reflexivity.
  Qed.
  Lemma client_ends c n : goes_on E w0 s (TClient c) -> exists n', n <= n' /\ at_rest (TClient c) (T n') /\ exists r, wc (W n') c = of_res r.
  Proof. intros (Hf & Hd & Hr). destruct (client_ends_or c n False Hf Hd) as [[]|H]; [|exact H]. intros n' p Hin _. right. exact (Hr _ _ Hin). Qed.
  Lemma worker_ends_or x i n (Done : Prop) : fair s (TWorker x i) -> no_runaway E w0 s (TWorker x i) ->
    (forall n p, In (TWorker x i, OInv (AAppStart p)) (T n) -> waits (TWorker x i) n p -> Done \/ exists n', app_released p (T n')) ->
    Done \/ exists n', n <= n' /\ at_rest (TWorker x i) (T n') /\
    (ww (W n) x i <> WIdle -> exists tk r, ww (W n') x i = WRun tk (of_res r)).
  Proof.
    intros Hf [d Hd] Hr. pose proof (proj2 (depth_world E w0 (W n) H0 (moment_reach E w0 s n)) x i) as Hwp.
    destruct (ww (W n) x i) as [|tk p] eqn:Ew; [right; exists n; split; [lia|]; split; [exact Hwp|congruence]|].
    assert (Hi : i < n_workers E x).
    { destruct (Nat.lt_ge_cases i (n_workers E x)) as [Hl|Hl]; [exact Hl|].
      rewrite (no_worker E w0 (W n) x i (moment_reach E w0 s n) Hl) in Ew. discriminate. }
    destruct (ends E w0 s (TWorker x i) (get_worker x i) (fun w j k => worker_step E x i w j k Hi) (worker_other E x i) dpre dpost (Istack (TWorker x i)) Done)
      with (top := d) (p := p) (n := n) (g := fst (scan (TWorker x i) (T n))) (Q := fun (_ : res bool) => root)
      as [HD|(n' & r & g & H1 & H2 & H3 & H4)]; auto.
    - intros. right. eapply I_own; eauto.
    - apply I_oth.
    - apply I_same.
    - intros. apply user_depth. assumption.
    - apply I_top. exact Hd.
    - intros n' lev g p' k Hg. eapply I_latch; [exact Hr|]. unfold get_worker in Hg. simpl.
      destruct (ww (W n') x i) as [|tk' p'']; [discriminate|]. injection Hg as ->. eauto.
    - unfold get_worker. rewrite Ew. reflexivity.
    - reflexivity.
    - right. exists n'. split; [exact H1|]. split; [rewrite H3 in H4; exact H4|]. intros _. unfold get_worker in H2.
      destruct (ww (W n') x i) as [|tk' p']; [discriminate|]. injection H2 as ->. eauto.
  Qed.
  Lemma worker_ends x i n : goes_on E w0 s (TWorker x i) -> exists n', n <= n' /\ at_rest (TWorker x i) (T n') /\
    (ww (W n) x i <> WIdle -> exists tk r, ww (W n') x i = WRun tk (of_res r)).
  Proof. intros (Hf & Hd & Hr). destruct (worker_ends_or x i n False Hf Hd) as [[]|H]; [|exact H]. intros n' p Hin _. right. exact (Hr _ _ Hin). Qed.
  Lemma rests_or t n (Done : Prop) : fair s t -> no_runaway E w0 s t ->
    (forall n p, In (t, OInv (AAppStart p)) (T n) -> waits t n p -> Done \/ exists n', app_released p (T n')) ->
    Done \/ exists n', n <= n' /\ at_rest t (T n').
  Proof.
    intros Hf Hd Hr. destruct t as [c|x i].
    - destruct (client_ends_or c n Done Hf Hd Hr) as [HD|(n' & H1 & H2 & _)]; eauto.
    - destruct (worker_ends_or x i n Done Hf Hd Hr) as [HD|(n' & H1 & H2 & _)]; eauto.
  Qed.
  Lemma rests t n : goes_on E w0 s t -> exists n', n <= n' /\ at_rest t (T n').
  Proof.
    intro Hg. destruct t as [c|x i].
    - destruct (client_ends c n Hg) as (n' & H1 & H2 & _). eauto.
    - destruct (worker_ends x i n Hg) as (n' & H1 & H2 & _). eauto.
  Qed.

  (** ** Brackets are closed *)
  Lemma will_close t a op k : forall r2 b u its, opens op = Some k -> fst (scan t b) = u ++ [(FRoot, its)] ->
    at_rest t (a ++ (t, op) :: b ++ r2) ->
    exists b' its' z d, span t (a ++ (t, op) :: b ++ r2) a op b' its' z d.
  Proof.
    induction r2 as [|[t' o] r2 IH]; intros b u its Ho Hs Hr.
    - exfalso. rewrite app_nil_r in Hr. destruct Hr as [i Hr]. rewrite (stack_at _ _ _ _ _ _ _ Ho Hs) in Hr.
      destruct u as [|f u]; simpl in Hr; [injection Hr as Hk _; eapply opens_not_root; eassumption|destruct u; discriminate].
    - assert (Hnext : forall u' its', fst (scan t (b ++ [(t', o)])) = u' ++ [(FRoot, its')] ->
        exists b' its' z d, span t (a ++ (t, op) :: b ++ (t', o) :: r2) a op b' its' z d).
      { intros u' its' Hs'. replace (b ++ (t', o) :: r2) with ((b ++ [(t', o)]) ++ r2) in * by (rewrite <- app_assoc; reflexivity).
        eapply IH; eauto. }
      rewrite Tree.scan_snoc in Hnext. destruct (tid_eq_dec t' t) as [->|N]; [|eapply Hnext; exact Hs].
      destruct (scan t b) as [st ns] eqn:Eb. simpl in Hs. subst st.
      unfold scan1 in Hnext. destruct (closes o) eqn:Ec.
      + destruct u as [|[k1 i1] u].
        * exists b, its, o, r2. split; [reflexivity|]. split; [exact Ec|]. rewrite Eb. reflexivity.
        * simpl in Hnext. destruct u as [|[k2 i2] u]; [apply (Hnext [] (its ++ [o]) eq_refl)|apply (Hnext ((k2, i2 ++ [o]) :: u) its eq_refl)].
      + destruct (opens o) as [k1|]; simpl in Hnext.
        * destruct u as [|[k2 i2] u]; [apply (Hnext [(k1, [])] (its ++ [o]) eq_refl)|apply (Hnext ((k1, []) :: (k2, i2 ++ [o]) :: u) its eq_refl)].
        * destruct u as [|[k2 i2] u]; [apply (Hnext [] (its ++ [o]) eq_refl)|apply (Hnext ((k2, i2 ++ [o]) :: u) its eq_refl)].
  Qed.
  Lemma finished_or t n a op k r (Done : Prop) : fair s t -> no_runaway E w0 s t ->
    (forall n p, In (t, OInv (AAppStart p)) (T n) -> waits t n p -> Done \/ exists n', app_released p (T n')) ->
    T n = a ++ (t, op) :: r -> opens op = Some k ->
    Done \/ exists n' b its z d, n <= n' /\ span t (T n') a op b its z d.
  Proof.
    intros Hf Hd Hl HT Ho. destruct (rests_or t n Done Hf Hd Hl) as [HD|(n' & Hn & Hr)]; [left; exact HD|right].
    destruct (history_le E w0 s n n' Hn) as [r' HT'].
    rewrite HT in HT'. rewrite <- app_assoc in HT'. simpl in HT'. rewrite HT' in Hr.
    destruct (will_close t a op k (r ++ r') [] [] [] Ho eq_refl Hr) as (b & its & z & d & Hs).
    exists n', b, its, z, d. split; [exact Hn|]. rewrite HT'. exact Hs.
  Qed.
  Lemma finished t n a op k r : goes_on E w0 s t -> T n = a ++ (t, op) :: r -> opens op = Some k ->
    exists n' b its z d, n <= n' /\ span t (T n') a op b its z d.
  Proof.
    intros Hg HT Ho. destruct (rests t n Hg) as (n' & Hn & Hr). destruct (history_le E w0 s n n' Hn) as [r' HT'].
    rewrite HT in HT'. rewrite <- app_assoc in HT'. simpl in HT'. rewrite HT' in Hr.
    destruct (will_close t a op k (r ++ r') [] [] [] Ho eq_refl Hr) as (b & its & z & d & Hs).
    exists n', b, its, z, d. split; [exact Hn|]. rewrite HT'. exact Hs.
  Qed.
End Rest.

(** ** Nothing blocks but start() of an app service *)
Lemma blocked E w0 w t : init_mem E w0 -> reach E w0 w -> step E w t = None ->
  at_rest t (tr (wm w)) \/
  exists p its st, fst (scan t (tr (wm w))) = (FApi (AAppStart p), its) :: st /\ ~ app_released p (tr (wm w)).
Proof.
  intros H0 Hr Hs. destruct (depth_world E w0 w H0 Hr) as [Hc Hw].
  assert (Hp : forall (A : Set) i (k : iret i -> prog A), wp (dpre 0) dpost t (Vis i k) (fun _ => root) (fst (scan t (tr (wm w)))) ->
    pstep E (wm w) t (Vis i k) = None ->
    exists p its st, fst (scan t (tr (wm w))) = (FApi (AAppStart p), its) :: st /\ ~ app_released p (tr (wm w))).
  { intros A i k [Hp _] He. assert (Hx : exec E (wm w) t i = None).
    { destruct i; try reflexivity; unfold pstep in He;
        (match type of He with context [exec ?a ?b ?c ?e] => destruct (exec a b c e) as [[? ?]|] eqn:Hx end; [discriminate He|reflexivity]). }
    destruct (exec_none _ _ _ _ Hx) as [(p & -> & Hl)|[c ->]]; [|discriminate He].
    destruct Hp as (its & st & Hg). exists p, its, st. split; [exact Hg|]. intro Hin.
    destruct (truth E w0 w (im_tr _ _ H0) Hr) as [Hag _]. rewrite (ag_latches _ _ Hag), (im_latches _ _ H0), (latch_in _ _ Hin) in Hl.
    discriminate. }
  destruct t as [n|x i]; simpl in Hs.
  - specialize (Hc n). destruct (wc w n) as [a|e|i k]; [left; exact Hc|left; exact Hc|]. right.
    destruct (pstep E (wm w) (TClient n) (Vis i k)) as [[m' p']|] eqn:Ep; [discriminate|]. eapply Hp; eauto.
  - specialize (Hw x i). destruct (Nat.ltb_spec i (n_workers E x)) as [Hl|Hl]; simpl in Hs.
    + destruct (ww w x i) as [|tk [[|]|e|j k]]; try discriminate; [left; exact Hw|]. right.
      destruct (pstep E (wm w) (TWorker x i) (Vis j k)) as [[m' p']|] eqn:Ep; [discriminate|]. eapply Hp; eauto.
    + left. rewrite (no_worker E w0 w x i Hr Hl) in Hw. exact Hw.
Qed.
