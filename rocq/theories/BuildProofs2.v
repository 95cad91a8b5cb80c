(** * BuildProofs2.v: default builds, builders used twice, snapshots, a single
    builder thread (C28, C47, C48) *)
From Verif Require Import Spec BuildSpec BuildProofs.

Section Builds2.
  Context (progs : nat -> list bop).

  (** ** build() without a strategy takes the shared configuration *)
  Record basic (s : bsys) : Prop := {
    ba_fr : forall i fr, frame_of (b_ph (threads s i)) = Some fr -> fr_conf fr = CBasic;
    ba_str : forall d x, nth_error (dstrats s) d = Some x -> d_from x = Some CBasic }.
  Lemma basic_step s i : (forall op, In op (b_todo (threads s i)) -> exists b, op = OBuild b) -> basic s -> basic (bstep i s).
  Proof.
    intros Hp H.
    assert (Hgen : forall s' p td, threads s' = bput (threads s) i {| b_ph := p; b_todo := td |} ->
      (forall fr, frame_of p = Some fr -> fr_conf fr = CBasic) ->
      (forall d x, nth_error (dstrats s') d = Some x -> d_from x = Some CBasic) -> basic s').
    { intros s' p td Ht H1 H2. constructor; [|exact H2]. rewrite Ht. intros i' fr. unfold bput. destruct (Nat.eqb_spec i' i); [apply H1|apply (ba_fr _ H)]. }
    assert (Hf : forall fr, frame_of (b_ph (threads s i)) = Some fr -> fr_conf fr = CBasic) by (apply (ba_fr _ H)).
    unfold bstep. destruct (b_ph (threads s i)) as [|fr g0 g|fr|fr|b k|b|k] eqn:Ep, (b_todo (threads s i)) as [|op r] eqn:Et; auto; try (destruct g; exact H).
    - destruct (Hp op) as [b ->]; [left; reflexivity|].
      destruct (builders s b); (eapply Hgen; [reflexivity|simpl; try discriminate; intros fr [= <-]; reflexivity|apply (ba_str _ H)]).
    - destruct g; (eapply Hgen; [reflexivity| |apply (ba_str _ H)]); try exact Hf.
      rewrite frame_after. intros fr' [= <-]. apply (Hf fr). reflexivity.
    - eapply Hgen; [reflexivity| |apply (ba_str _ H)]. intros fr' [= <-]. apply (Hf fr). reflexivity.
    - destruct (fr_into fr); (eapply Hgen; [reflexivity|discriminate|]); simpl; intros d x Hx; apply nth_snoc in Hx;
        (destruct Hx as [Hx|[_ ->]]; [eapply (ba_str _ H); eauto|simpl; f_equal; apply Hf; reflexivity]).
    - eapply Hgen; [reflexivity|discriminate|apply (ba_str _ H)].
    - destruct (builders s b); (eapply Hgen; [reflexivity|discriminate|apply (ba_str _ H)]).
    - eapply Hgen; [reflexivity|discriminate|]. simpl. intros d x. rewrite set_states_nth. destruct (Nat.eqb d (snd k)); [|apply (ba_str _ H)].
      destruct (nth_error (dstrats s) d) eqn:E; [|discriminate]. intros [= <-]. simpl. eapply (ba_str _ H); eauto.
  Qed.
  Lemma default_basic sched m d : let s := brun progs sched in only_builds progs -> built_with s m d -> made_from s d CBasic.
  Proof.
    intros s Ho (b & Hm).
    assert (Hb : basic s).
    { unfold s, brun. clear Hm. clear s. induction sched as [|i sched IH] using rev_ind.
      - constructor; simpl; [discriminate|intros [|d']; discriminate].
      - rewrite fold_left_app. apply basic_step; [|exact IH]. intros op Hop. apply (Ho i). eapply (todo_in progs sched); eauto. }
    pose proof (r_m _ (refs_run progs sched) _ _ Hm) as Hl. cbn [snd] in Hl. apply nth_error_Some in Hl.
    destruct (nth_error (dstrats (brun progs sched)) d) as [x|] eqn:Ex; [|congruence]. exists x. split; [exact Ex|]. eapply (ba_str _ Hb); eauto.
  Qed.

  (** ** Machines with strategies from one untouched Config share queue and executor *)
  Lemma share_env sched rest c m1 m2 d1 d2 : let s := brun progs sched in let E := env_of s rest in
    (forall f, never_set progs c f) -> one_by_one progs sched c ->
    built_with s m1 d1 -> built_with s m2 d2 -> made_from s d1 c -> made_from s d2 c ->
    queue_of E m1 = queue_of E m2 /\ exec_of E m1 = exec_of E m2 /\ n_workers E (exec_of E m1) = 1.
  Proof.
    intros s E Hns Ho (b1 & Hm1) (b2 & Hm2) Hc1 Hc2.
    assert (Hsh : forall f, exists o, holds s d1 f (Some o) /\ holds s d2 f (Some o)) by (intro f; apply (all_share progs c Hns sched d1 d2 f Ho); assumption).
    destruct Hc1 as (x & Hx & Hcx). destruct Hc2 as (y & Hy & Hcy).
    assert (H1 : strat E (strat_of E m1) = strat_rec b1 d1 x) by (cbn [strat_of E env_of]; rewrite Hm1; apply env_strat; exact Hx).
    assert (H2 : strat E (strat_of E m2) = strat_rec b2 d2 y) by (cbn [strat_of E env_of]; rewrite Hm2; apply env_strat; exact Hy).
    assert (He : forall f, exists o, d_obj x f = Some o /\ d_obj y f = Some o).
    { intro f. destruct (Hsh f) as (o & (x' & Hx' & Hox) & (y' & Hy' & Hoy)). exists o. split; congruence. }
    unfold queue_of, exec_of. rewrite H1, H2. cbn [strat_rec s_queue s_exec].
    destruct (He FQueue) as (oq & -> & ->). destruct (unset_lib progs c FExec (Hns FExec) sched d1 x Hx Hcx) as (k & tn & Hk & _).
    destruct (He FExec) as (oe & He1 & He2). rewrite He2. rewrite He1 in Hk. injection Hk as ->. rewrite He1.
    split; [destruct oq; reflexivity|]. split; [reflexivity|].
    cbn [obj_num E env_of n_workers]. rewrite Nat.add_comm, (Nat.mul_comm 4 k), Nat.mod_add by lia. reflexivity.
  Qed.

  (** ** The table used is that of the last machine built with the strategy *)
  Lemma last_step s i : refs s -> (forall d x m, nth_error (dstrats s) d = Some x -> d_states x = Some m -> forall b m', nth_error (machines s) m' = Some (b, d) -> m' <= m) ->
    forall d x m, nth_error (dstrats (bstep i s)) d = Some x -> d_states x = Some m -> forall b m', nth_error (machines (bstep i s)) m' = Some (b, d) -> m' <= m.
  Proof.
    intros Hr H.
    assert (Hold : forall s', machines s' = machines s -> (forall d x, nth_error (dstrats s') d = Some x -> nth_error (dstrats s) d = Some x \/ d_states x = None) ->
      forall d x m, nth_error (dstrats s') d = Some x -> d_states x = Some m -> forall b m', nth_error (machines s') m' = Some (b, d) -> m' <= m).
    { intros s' Hm Hd d x m Hx Hs b m'. rewrite Hm. destruct (Hd _ _ Hx) as [Hx'|Hn]; [eapply H; eauto|congruence]. }
    assert (Hsn : forall d z x, d_states z = None -> nth_error (dstrats s ++ [z]) d = Some x -> nth_error (dstrats s) d = Some x \/ d_states x = None).
    { intros d z x Hz Hx. apply nth_snoc in Hx. destruct Hx as [|[_ ->]]; auto. }
    unfold bstep. destruct (b_ph (threads s i)) as [|fr g0 g|fr|fr|b k|b|k] eqn:Ep, (b_todo (threads s i)) as [|op r] eqn:Et; auto; try (destruct g; exact H).
    - destruct op; try (apply Hold; simpl; auto; fail).
      + apply Hold; [reflexivity|]. simpl. intros d x. apply Hsn. reflexivity.
      + destruct (handles s h') as [[[] d]|]; apply Hold; simpl; auto.
      + destruct (builders s b); apply Hold; simpl; auto.
    - destruct (fr_into fr); (apply Hold; [reflexivity|]; simpl; intros d x; apply Hsn; reflexivity).
    - destruct (builders s b); apply Hold; simpl; auto.
    - simpl. intros d x m. rewrite set_states_nth. destruct (Nat.eqb_spec d (snd k)) as [->|Hne].
      + destruct (nth_error (dstrats s) (snd k)) eqn:E; [|discriminate]. intros [= <-]. simpl. intros [= <-] b m' Hm. apply nth_lt in Hm. rewrite app_length in Hm. simpl in Hm. lia.
      + intros Hx Hs b m' Hm. apply nth_snoc in Hm. destruct Hm as [Hm|[_ Hm]]; [eapply H; eauto|]. subst k. simpl in Hne. congruence.
  Qed.
  Lemma last_table sched rest m d : let s := brun progs sched in let E := env_of s rest in
    built_with s m d -> built_with s (table_of E m) d /\ forall m', built_with s m' d -> m' <= table_of E m.
  Proof.
    intros s E (b & Hm).
    pose proof (refs_run progs sched) as Hr. fold s in Hr.
    pose proof (r_m _ Hr _ _ Hm) as Hl. cbn [snd] in Hl. apply nth_error_Some in Hl. destruct (nth_error (dstrats s) d) as [x|] eqn:Ex; [|congruence].
    assert (H1 : strat E (strat_of E m) = strat_rec b d x) by (cbn [strat_of E env_of]; rewrite Hm; apply env_strat; exact Ex).
    unfold table_of. rewrite H1. cbn [strat_rec s_states].
    destruct (d_states x) as [m'|] eqn:Es; [|exfalso; eapply (r_n _ Hr); eauto].
    split; [destruct (r_s _ Hr _ _ _ Ex Es) as [b' Hb']; exists b'; exact Hb'|].
    intros m'' (b'' & Hm''). revert Ex Es Hm''.
    assert (Hall : forall d x m, nth_error (dstrats s) d = Some x -> d_states x = Some m -> forall b m', nth_error (machines s) m' = Some (b, d) -> m' <= m).
    { unfold s, brun. clear. induction sched as [|i sched IH] using rev_ind.
      - intros [|d]; discriminate.
      - rewrite fold_left_app. apply last_step; [apply (refs_run progs sched)|exact IH]. }
    intros. eapply Hall; eauto.
  Qed.

  (** ** A strategy is a snapshot *)
  Lemma snap_step s i d x : nth_error (dstrats s) d = Some x ->
    exists y, nth_error (dstrats (bstep i s)) d = Some y /\ d_from y = d_from x /\ d_obj y = d_obj x /\ d_max y = d_max x /\ d_pool y = d_pool x.
  Proof.
    intro Hx. assert (Hid : exists y, nth_error (dstrats s) d = Some y /\ d_from y = d_from x /\ d_obj y = d_obj x /\ d_max y = d_max x /\ d_pool y = d_pool x) by (exists x; auto).
    assert (Hsn : forall z, exists y, nth_error (dstrats s ++ [z]) d = Some y /\ d_from y = d_from x /\ d_obj y = d_obj x /\ d_max y = d_max x /\ d_pool y = d_pool x).
    { intro z. exists x. rewrite nth_error_app1 by (eapply nth_lt; eauto). auto. }
    unfold bstep. destruct (b_ph (threads s i)) as [|fr g0 g|fr|fr|b k|b|k], (b_todo (threads s i)) as [|op r]; auto; try (destruct g; exact Hid).
    - destruct op; simpl; auto. + destruct (handles s h') as [[[] ?]|]; exact Hid. + destruct (builders s b); exact Hid.
    - destruct (fr_into fr); apply Hsn.
    - destruct (builders s b); exact Hid.
    - simpl. rewrite set_states_nth. destruct (Nat.eqb d (snd k)); [|exact Hid]. rewrite Hx. simpl. eexists. split; [reflexivity|]. simpl. auto.
  Qed.
  Lemma snapshot s1 s2 d x : nth_error (dstrats (brun progs s1)) d = Some x ->
    exists y, nth_error (dstrats (brun progs (s1 ++ s2))) d = Some y /\ d_from y = d_from x /\ d_obj y = d_obj x /\ d_max y = d_max x /\ d_pool y = d_pool x.
  Proof.
    intro Hx. induction s2 as [|i s2 IH] using rev_ind.
    - rewrite app_nil_r. exists x. auto.
    - destruct IH as (y & Hy & H1 & H2 & H3 & H4). rewrite app_assoc. unfold brun. rewrite fold_left_app. cbn [fold_left].
      destruct (snap_step _ i _ _ Hy) as (z & Hz & G1 & G2 & G3 & G4). exists z. split; [exact Hz|]. repeat split; congruence.
  Qed.

  Lemma own_pool sched d1 d2 x y : let s := brun progs sched in
    nth_error (dstrats s) d1 = Some x -> nth_error (dstrats s) d2 = Some y -> d1 <> d2 -> d_pool x <> d_pool y.
  Proof. intros s H1 H2 Hne. destruct (r_p _ (refs_run progs sched)) as [_ H]. rewrite (H _ _ H1), (H _ _ H2). exact Hne. Qed.

  (** a step of thread i leaves the other threads alone *)
  Lemma bstep_other s i j : j <> i -> threads (bstep i s) j = threads s j.
  Proof.
    intro Hj. unfold bstep. destruct (b_ph (threads s i)) as [|fr g0 g|fr|fr|b k|b|k], (b_todo (threads s i)) as [|op r]; try reflexivity;
      try (destruct g); try reflexivity; try (apply bput_other; exact Hj).
    - destruct op; try (apply bput_other; exact Hj). + destruct (handles s h') as [[[] ?]|]; apply bput_other; exact Hj. + destruct (builders s b); apply bput_other; exact Hj.
    - destruct (fr_into fr); apply bput_other; exact Hj.
    - destruct (builders s b); apply bput_other; exact Hj.
  Qed.

  (** ** Thread name prefixes *)
  Lemma prefixes sched c f p : In (c, f, p) (origin (brun progs sched)) ->
    p = "state-machine"%string \/ exists i u, c = CUser u /\ In (OName u (Some p)) (progs i).
  Proof.
    set (ok := fun (c : cid) (p : string) => p = "state-machine"%string \/ exists i u, c = CUser u /\ In (OName u (Some p)) (progs i)).
    change (In (c, f, p) (origin (brun progs sched)) -> ok c p).
    assert (H : (forall c f p, In (c, f, p) (origin (brun progs sched)) -> ok c p) /\
                (forall c n, c_tname (confs (brun progs sched) c) = Some n -> exists i u, c = CUser u /\ In (OName u (Some n)) (progs i))); [|apply H].
    clear c f p. induction sched as [|i sched [IH1 IH2]] using rev_ind.
    - split; simpl; [contradiction|discriminate].
    - pose proof (todo_in progs sched i) as Ht. unfold brun in *. rewrite fold_left_app. cbn [fold_left]. set (s := fold_left _ sched _) in *.
      unfold bstep. destruct (b_ph (threads s i)) as [|fr g0 g|fr|fr|b k|b|k], (b_todo (threads s i)) as [|op r]; try (split; [exact IH1|exact IH2]);
        try (destruct g; (split; [exact IH1|exact IH2])).
      + destruct op; try (split; [exact IH1|exact IH2]).
        * simpl. rewrite app_nil_r. split; [exact IH1|]. intros c n. unfold cput. destruct (cid_eqb_spec c (CUser u)) as [->|]; [|apply IH2]. apply IH2.
        * simpl. rewrite app_nil_r. split; [exact IH1|]. intros c n. unfold cput. destruct (cid_eqb_spec c (CUser u)) as [->|]; [|apply IH2]. apply IH2.
        * simpl. rewrite app_nil_r. split; [exact IH1|]. intros c n'. unfold cput. destruct (cid_eqb_spec c (CUser u)) as [->|]; [|apply IH2]. simpl.
          intros ->. exists i, u. split; [reflexivity|]. apply Ht. left. reflexivity.
        * destruct (handles s h') as [[[] ?]|]; (split; [exact IH1|exact IH2]).
        * destruct (builders s b); (split; [exact IH1|exact IH2]).
      + destruct g; try (split; [exact IH1|exact IH2]). simpl. split.
        * intros c f p Hin. apply in_app_or in Hin. destruct Hin as [Hin|[[= <- <- <-]|[]]]; [eapply IH1; eauto|].
          unfold ok, prefix_of. destruct (c_tname (confs s (fr_conf fr))) eqn:E; [right; apply IH2; exact E|left; reflexivity].
        * intros c n. unfold cput. destruct (cid_eqb_spec c (fr_conf fr)) as [->|]; simpl; apply IH2.
      + destruct (fr_into fr); (split; [exact IH1|exact IH2]).
      + destruct (builders s b); (split; [exact IH1|exact IH2]).
  Qed.
End Builds2.
