(** * Live.v: the program of a thread that gets its turn again and again comes to
    an end (proofs) *)
From Verif Require Import Sched Logic LiveSpec Tree Depth.

(** only waiting for an app service blocks *)
Lemma exec_none E w t i : exec E w t i = None ->
  (exists p, i = ILatchAwait p /\ latches w p = false) \/ exists c, i = ICall c.
Proof.
  intro H. destruct i; cbn [exec] in H; try discriminate;
    try (match type of H with (if ?b then _ else _) = _ => destruct b end; discriminate);
    try (match type of H with (match ?b with _ => _ end) = _ => destruct b end; discriminate);
    eauto.
  left. exists p. split; [reflexivity|]. destruct t; [destruct (intrs w n); [discriminate|]|]; destruct (latches w p); try discriminate; reflexivity.
Qed.

(** the marks an instruction leaves *)
Lemma exec_grows E w t i v w' : exec E w t i = Some (v, w') ->
  tr w' = tr w \/ exists o, tr w' = tr w ++ [(t, o)].
Proof.
  intro H. destruct i; cbn [exec] in H;
    repeat match type of H with
    | (if ?b then _ else _) = _ => destruct b
    | (match ?b with _ => _ end) = _ => destruct b
    end; try discriminate; injection H as <- <-;
    try (left; reflexivity); try (right; eexists; reflexivity).
  destruct (pairs w p) as [[? ?]|]; [right; eexists|left]; reflexivity.
Qed.

Section Schedule.
  Context (E : env) (w0 : mem) (s : nat -> tid).
  Notation W := (moment E w0 s).

  Lemma moment_run n : W n = run E (init_world E w0) (map s (List.seq 0 n)).
  Proof.
    induction n; [reflexivity|]. simpl moment. rewrite IHn. rewrite seq_S, map_app. unfold run.
    rewrite fold_left_app. reflexivity.
  Qed.
  Lemma moment_reach n : reach E w0 (W n).
  Proof. exists (map s (List.seq 0 n)). apply moment_run. Qed.
  Lemma step_grows w t : exists r, tr (wm (step_or_stay E w t)) = tr (wm w) ++ r /\ forall to, In to r -> fst to = t.
  Proof.
    assert (Hp : forall (A : Set) (p : prog A) m' p', pstep E (wm w) t p = Some (m', p') ->
      exists r, tr m' = tr (wm w) ++ r /\ forall to, In to r -> fst to = t).
    { intros A p m' p' H. destruct p as [a|x|i k]; try discriminate.
      destruct (pstep_inv _ _ _ _ _ _ _ H) as [(c & e & -> & ->)|(v & Hx & ->)].
      - exists []. rewrite app_nil_r. split; [reflexivity|intros ? []].
      - destruct (exec_grows _ _ _ _ _ _ Hx) as [->|[o ->]]; [exists []|exists [(t, o)]].
        + rewrite app_nil_r. split; [reflexivity|intros ? []].
        + split; [reflexivity|]. intros to [<-|[]]. reflexivity. }
    assert (H0 : exists r, tr (wm w) = tr (wm w) ++ r /\ forall to, In to r -> fst to = t)
      by (exists []; rewrite app_nil_r; split; [reflexivity|intros ? []]).
    unfold step_or_stay. destruct (step E w t) as [w'|] eqn:Hs; [|exact H0].
    destruct t as [n|x i]; simpl in Hs.
    - destruct (pstep E (wm w) (TClient n) (wc w n)) as [[m' p']|] eqn:Ep; [|discriminate]. injection Hs as <-. eapply Hp; exact Ep.
    - destruct (negb _); [discriminate|]. destruct (ww w x i) as [|tk [[|]|e|ins k]].
      + destruct (tasks (wm w) x); [discriminate|]. injection Hs as <-. exact H0.
      + injection Hs as <-. exact H0.
      + injection Hs as <-. exact H0.
      + injection Hs as <-. eexists. split; [reflexivity|]. intros to [<-|[]]. reflexivity.
      + destruct (pstep E (wm w) (TWorker x i) (Vis ins k)) as [[m' p']|] eqn:Ep; [|discriminate]. injection Hs as <-. eapply Hp; exact Ep.
  Qed.
  Lemma history_S n : exists r, history E w0 s (S n) = history E w0 s n ++ r /\ forall to, In to r -> fst to = s n.
  Proof. apply step_grows. Qed.
  Lemma history_le n n' : n <= n' -> exists r, history E w0 s n' = history E w0 s n ++ r.
  Proof.
    induction 1 as [|n' _ [r IH]]; [exists []; rewrite app_nil_r; reflexivity|].
    destruct (history_S n') as (r' & -> & _). rewrite IH, <- app_assoc. eauto.
  Qed.
  Lemma scan_other t tr r : (forall to, In to r -> fst to <> t) -> scan t (tr ++ r) = scan t tr.
  Proof.
    induction r as [|[t' o] r IH] using rev_ind; intro H; [rewrite app_nil_r; reflexivity|].
    rewrite app_assoc, scan_snoc. destruct (tid_eq_dec t' t) as [->|N].
    - exfalso. apply (H (t, o)); [apply in_or_app; right; left; reflexivity|reflexivity].
    - apply IH. intros to Hin. apply H. apply in_or_app. left. exact Hin.
  Qed.

  (** the next turn of t *)
  Lemma next_turn t n : fair s t -> exists k, n <= k /\ s k = t /\ forall j, n <= j < k -> s j <> t.
  Proof.
    intro Hf. destruct (Hf n) as (k & Hk & Hs). remember (k - n) as d eqn:Hd. revert n k Hd Hk Hs.
    induction d as [|d IH]; intros n k Hd Hk Hs.
    - exists k. split; [exact Hk|]. split; [exact Hs|]. intros j Hj. lia.
    - destruct (tid_eq_dec (s n) t) as [E1|N1].
      + exists n. split; [lia|]. split; [exact E1|]. intros j Hj. lia.
      + destruct (IH (S n) k ltac:(lia) ltac:(lia) Hs) as (k' & H1 & H2 & H3).
        exists k'. split; [lia|]. split; [exact H2|]. intros j Hj.
        destruct (Nat.eq_dec j n) as [->|]; [exact N1|]. apply H3. lia.
  Qed.
End Schedule.

Section Thread.
  Context (E : env) (w0 : mem) (s : nat -> tid) (t : tid).
  Notation W := (moment E w0 s).
  (** the current program of t *)
  Context {B : Set} (get : world -> option (prog B)).
  Context (Hstep : forall w i k, get w = Some (Vis i k) ->
    match pstep E (wm w) t (Vis i k) with
    | Some (m', p') => exists w', step E w t = Some w' /\ wm w' = m' /\ get w' = Some p'
    | None => step E w t = None
    end).
  Context (Hother : forall w t', t' <> t -> get (step_or_stay E w t') = get w).
  (** ghost state, related to the world at every moment *)
  Context {G : Type}.
  Context (pre : nat -> tid -> G -> instr -> Prop) (post : tid -> G -> forall i, iret i -> G -> Prop).
  Context (I : nat -> G -> Prop) (Done : Prop).
  Context (Hown : forall n lev g i v m', I n g -> pre lev t g i -> exec E (wm (W n)) t i = Some (v, m') ->
    s n = t -> wm (W (S n)) = m' -> Done \/ exists g', post t g i v g' /\ I (S n) g').
  Context (Hoth : forall n g, I n g -> s n <> t -> I (S n) g).
  Context (Hsame : forall n g, I n g -> wm (W (S n)) = wm (W n) -> I (S n) g).
  Context (Huser : forall lev g c h, pre lev t g (ICall c) ->
    wp (pre (S lev)) post t (interp E (behav E c h)) (fun r g' => post t g (ICall c) r g') g).
  Context (top : nat) (Htop : forall n lev g c, I n g -> pre lev t g (ICall c) -> lev <= top).
  Context (Hfair : fair s t).
  Context (Hlatch : forall n lev g p k, get (W n) = Some (Vis (ILatchAwait p) k) -> I n g -> pre lev t g (ILatchAwait p) ->
    Done \/ exists n', forall n'', n' <= n'' -> exec E (wm (W n'')) t (ILatchAwait p) <> None).

  Lemma get_other n : s n <> t -> get (W (S n)) = get (W n).
  Proof. intro H. simpl. apply Hother. exact H. Qed.

  (** t takes the next step of its program *)
  Lemma takes_step i k n n' g : get (W n) = Some (Vis i k) -> I n g ->
    (forall n'', n' <= n'' -> pstep E (wm (W n'')) t (Vis i k) <> None) ->
    exists n2, n <= n2 /\ s n2 = t /\ get (W n2) = Some (Vis i k) /\ I n2 g /\ pstep E (wm (W n2)) t (Vis i k) <> None.
  Proof.
    remember (n' - n) as d eqn:Hd. revert n Hd. induction d as [|d IH]; intros n Hd Hg Hi Hp.
    - destruct (next_turn s t n Hfair) as (k' & H1 & H2 & H3).
      assert (H : forall j, n <= j <= k' -> get (W j) = Some (Vis i k) /\ I j g).
      { intros j. induction j as [|j IHj]; intros Hj.
        - replace 0 with n by lia. auto.
        - destruct (Nat.eq_dec n (S j)) as [<-|Hn]; [auto|]. destruct (IHj ltac:(lia)) as [Ha Hb].
          split; [rewrite get_other; [exact Ha|]|apply Hoth; [exact Hb|]]; apply H3; lia. }
      destruct (H k' ltac:(lia)) as [Ha Hb]. exists k'. split; [exact H1|]. split; [exact H2|]. split; [exact Ha|]. split; [exact Hb|].
      apply Hp. lia.
    - destruct (tid_eq_dec (s n) t) as [Es|Ns].
      + destruct (pstep E (wm (W n)) t (Vis i k)) as [[m' p']|] eqn:Ep.
        * exists n. split; [lia|]. split; [exact Es|]. split; [exact Hg|]. split; [exact Hi|]. rewrite Ep. discriminate.
        * pose proof (Hstep _ _ _ Hg) as Hst. rewrite Ep in Hst.
          assert (Hw : W (S n) = W n) by (simpl; unfold step_or_stay; rewrite Es, Hst; reflexivity).
          destruct (IH (S n) ltac:(lia)) as (n2 & H1 & H2); [rewrite Hw; exact Hg|apply Hsame; [exact Hi|rewrite Hw; reflexivity]|exact Hp|].
          exists n2. split; [lia|exact H2].
      + destruct (IH (S n) ltac:(lia)) as (n2 & H1 & H2); [rewrite get_other; assumption|apply Hoth; assumption|exact Hp|].
        exists n2. split; [lia|exact H2].
  Qed.

  Lemma ends_lev d : forall lev, S top - lev <= d ->
    forall (A : Set) (p : prog A) (C : prog A -> prog B), (forall i k, C (Vis i k) = Vis i (fun v => C (k v))) ->
    forall n g Q, get (W n) = Some (C p) -> I n g -> wp (pre lev) post t p Q g ->
    Done \/ exists n' r g', n <= n' /\ get (W n') = Some (C (of_res r)) /\ I n' g' /\ Q r g'.
  Proof.
    induction d as [|d IHd]; intros lev Hd A p C HC; induction p as [a|x|i k IHp]; intros n g Q Hg Hi Hwp.
    1, 4: right; exists n, (Ok a), g; auto.
    1, 3: right; exists n, (Err x), g; auto.
    all: destruct Hwp as [Hpre Hk]; rewrite HC in Hg.
    all: assert (Hen : Done \/ exists n', forall n'', n' <= n'' -> pstep E (wm (W n'')) t (Vis i (fun v => C (k v))) <> None)
      by (destruct i; try (right; exists 0; intros n'' _; unfold pstep;
            match goal with |- context [exec ?a ?b ?c ?e] => destruct (exec a b c e) as [[? ?]|] eqn:Hx end; [discriminate|];
            exfalso; destruct (exec_none _ _ _ _ Hx) as [(? & Hc & _)|[? Hc]]; discriminate Hc);
          [destruct (Hlatch _ _ _ _ _ Hg Hi Hpre) as [HD|[n' Hn']]; [left; exact HD|right]; exists n'; intros n'' Hn''; specialize (Hn' n'' Hn''); unfold pstep;
             destruct (exec E (wm (W n'')) t (ILatchAwait p)) as [[? ?]|]; [discriminate|congruence]
          |right; exists 0; intros n'' _; unfold pstep; discriminate]).
    all: destruct Hen as [HD|[n' Hen]]; [left; exact HD|]; destruct (takes_step _ _ _ _ _ Hg Hi Hen) as (n2 & H1 & H2 & H3 & H4 & H5).
    all: pose proof (Hstep _ _ _ H3) as Hst.
    all: destruct (pstep E (wm (W n2)) t (Vis i (fun v => C (k v)))) as [[m' p']|] eqn:Ep; [|congruence].
    all: destruct Hst as (w' & Hs & Hm & Hg').
    all: assert (Hw : W (S n2) = w') by (simpl; unfold step_or_stay; rewrite H2, Hs; reflexivity).
    all: rewrite <- Hw in Hg', Hm; clear Hw Hs w'.
    all: destruct (pstep_inv _ _ _ _ _ _ _ Ep) as [(c & e & E1 & E2)|(v & Hx & E2)].
    - subst i. exfalso. pose proof (Htop _ _ _ _ H4 Hpre). lia.
    - destruct (Hown _ _ _ _ _ _ H4 Hpre Hx H2 Hm) as [HD|(g' & Hpost & Hi')]; [left; exact HD|].
      subst p'. destruct (IHp v (S n2) g' Q Hg' Hi' (Hk v g' Hpost)) as [HD|(n3 & r & g3 & Ha & Hb)]; [left; exact HD|].
      right. exists n3, r, g3. split; [lia|exact Hb].
    - subst i. simpl in E2. subst p'.
      assert (Hi' : I (S n2) g) by (apply Hsame; [exact H4|congruence]).
      destruct (IHd (S lev) ltac:(lia) unit (interp E (behav E c (tr (wm (W n2))))) (fun p => then_res p (fun v => C (k v)))
        (fun _ _ => eq_refl) (S n2) g (fun r g' => post t g (ICall c) r g') Hg' Hi' (Huser _ _ _ _ Hpre))
        as [HD|(n3 & r & g3 & Ha & Hb & Hc & He)]; [left; exact HD|].
      assert (Hb' : get (W n3) = Some (C (k r))) by (destruct r; exact Hb).
      destruct (IHp r n3 g3 Q Hb' Hc (Hk r g3 He)) as [HD|(n4 & r' & g4 & Hf & Hh)]; [left; exact HD|].
      right. exists n4, r', g4. split; [lia|exact Hh].
    - destruct (Hown _ _ _ _ _ _ H4 Hpre Hx H2 Hm) as [HD|(g' & Hpost & Hi')]; [left; exact HD|].
      subst p'. destruct (IHp v (S n2) g' Q Hg' Hi' (Hk v g' Hpost)) as [HD|(n3 & r & g3 & Ha & Hb)]; [left; exact HD|].
      right. exists n3, r, g3. split; [lia|exact Hb].
  Qed.

  Lemma ends (p : prog B) n g Q : get (W n) = Some p -> I n g -> wp (pre 0) post t p Q g ->
    Done \/ exists n' r g', n <= n' /\ get (W n') = Some (of_res r) /\ I n' g' /\ Q r g'.
  Proof. intros. eapply (ends_lev (S top) 0 ltac:(lia) B p (fun p => p)); eauto. Qed.
End Thread.
