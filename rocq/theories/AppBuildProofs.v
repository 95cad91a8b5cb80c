(** * AppBuildProofs.v: the machine of an app service is its own (C55: proofs) *)
From Verif Require Import Spec AppBuildSpec BuildProofs BuildProofs2 BuildProofs3.

Section App.
  Context (progs : nat -> list bop) (i : nat) (before : list bop) (u h b : nat) (n : option string) (after : list bop).
  Context (K : constructs progs i before u h b n after).

  Lemma used j op : In op (progs j) -> uses u h b op -> j = i /\ In op (app_constructor u h b n).
  Proof using K.
    intros Hin Hu. destruct (Nat.eq_dec j i) as [->|Hj]; [|exfalso; exact (k_others _ _ _ _ _ _ _ _ K j op Hj Hin Hu)].
    split; [reflexivity|]. rewrite (k_prog _ _ _ _ _ _ _ _ K) in Hin. apply in_app_or in Hin.
    destruct Hin as [Hin|Hin]; [exfalso; exact (k_before _ _ _ _ _ _ _ _ K op Hin Hu)|]. apply in_app_or in Hin.
    destruct Hin as [Hin|Hin]; [exact Hin|exfalso; exact (k_after _ _ _ _ _ _ _ _ K op Hin Hu)].
  Qed.

  (** ** The calls of thread i still to be made *)
  Lemma todo_suffix sched : exists l, progs i = l ++ b_todo (threads (brun progs sched) i).
  Proof using.
    unfold brun. induction sched as [|j sched IH] using rev_ind; [exists []; reflexivity|]. rewrite fold_left_app. cbn [fold_left].
    destruct IH as [l IH]. set (s := fold_left _ sched _) in *.
    destruct (Nat.eq_dec i j) as [<-|Hj]; [|rewrite bstep_other by exact Hj; eauto].
    assert (H : b_todo (threads (bstep i s) i) = b_todo (threads s i) \/ b_todo (threads (bstep i s) i) = tl (b_todo (threads s i))).
    { unfold bstep. destruct (b_ph (threads s i)) as [|fr f g|fr|fr|b' k|b'|k], (b_todo (threads s i)) as [|op r] eqn:Et; auto;
        try (destruct g); unfold fin, stay; simpl; rewrite ?bput_same, ?Et; simpl; rewrite ?Et; auto.
      - destruct op; simpl; rewrite ?bput_same; simpl; rewrite ?Et; auto.
        + destruct (handles s h') as [[[] ?]|]; simpl; rewrite ?bput_same; simpl; rewrite ?Et; auto.
        + destruct (builders s b0); simpl; rewrite ?bput_same; simpl; rewrite ?Et; auto.
      - destruct (fr_into fr); simpl; rewrite ?bput_same; simpl; rewrite ?Et; auto.
      - destruct (builders s b'); simpl; rewrite ?bput_same; simpl; rewrite ?Et; auto. }
    destruct H as [->| ->]; [eauto|]. destruct (b_todo (threads s i)) as [|op r]; [eauto|]. exists (l ++ [op]). rewrite <- app_assoc. exact IH.
  Qed.
  Lemma once {A} (l1 l2 l r : list A) x : ~ In x l1 -> ~ In x l2 -> l1 ++ x :: l2 = l ++ x :: r -> ~ In x r.
  Proof using.
    revert l. induction l1 as [|y l1 IH]; intros [|z l] H1 H2 He; simpl in *.
    - injection He as <-. exact H2.
    - injection He as <- ->. exfalso. apply H2. apply in_or_app. right. left. reflexivity.
    - injection He as -> _. exfalso. apply H1. left. reflexivity.
    - injection He as _ He. apply (IH l); auto.
  Qed.
  Lemma head_once sched op r : b_todo (threads (brun progs sched) i) = op :: r -> In op (app_constructor u h b n) -> ~ In op r.
  Proof using K.
    intros Ht Hin. destruct (todo_suffix sched) as [l Hl]. rewrite Ht in Hl. rewrite (k_prog _ _ _ _ _ _ _ _ K) in Hl.
    pose proof (k_before _ _ _ _ _ _ _ _ K) as Hb. pose proof (k_after _ _ _ _ _ _ _ _ K) as Ha.
    assert (Hu : uses u h b op) by (destruct Hin as [<-|[<-|[<-|[<-|[]]]]]; simpl; auto).
    assert (HA : exists a1 a2, app_constructor u h b n = a1 ++ op :: a2 /\ ~ In op a1 /\ ~ In op a2).
    { unfold app_constructor in *. destruct Hin as [<-|[<-|[<-|[<-|[]]]]].
      - exists [], [OCreate h false (CUser u); OSetStrategy b (Some h); OBuild b]. simpl. intuition congruence.
      - exists [OName u n], [OSetStrategy b (Some h); OBuild b]. simpl. intuition congruence.
      - exists [OName u n; OCreate h false (CUser u)], [OBuild b]. simpl. intuition congruence.
      - exists [OName u n; OCreate h false (CUser u); OSetStrategy b (Some h)], []. simpl. intuition congruence. }
    destruct HA as (a1 & a2 & HA & H1 & H2). rewrite HA, <- app_assoc in Hl. simpl in Hl. rewrite app_assoc in Hl.
    apply (once (before ++ a1) (a2 ++ after) l r op); [| |exact Hl].
    - intro H. apply in_app_or in H. destruct H as [H|H]; [exact (Hb _ H Hu)|contradiction].
    - intro H. apply in_app_or in H. destruct H as [H|H]; [contradiction|exact (Ha _ H Hu)].
  Qed.

  (** ** Only one strategy is made from the Config, only one machine from that *)
  Definition from_u (s : bsys) (d : nat) : Prop := exists x, nth_error (dstrats s) d = Some x /\ d_from x = Some (CUser u).
  Record sole (s : bsys) : Prop := {
    so_h : forall h' k, handles s h' = Some k -> from_u s (snd k) -> h' = h;
    so_b : forall b' k, builders s b' = Some k -> from_u s (snd k) -> b' = b;
    so_p : forall j b' k, b_ph (threads s j) = PStore b' k -> ~ from_u s (snd k);
    so_m : forall j k, b_ph (threads s j) = PMach k -> from_u s (snd k) -> j = i /\ exists r, b_todo (threads s j) = OBuild b :: r;
    so_s : (forall d, ~ from_u s d) \/ (~ In (OCreate h false (CUser u)) (b_todo (threads s i)) /\ exists d0, forall d, from_u s d -> d = d0);
    so_n : (forall m k, nth_error (machines s) m = Some k -> ~ from_u s (snd k)) \/
           (~ In (OBuild b) (b_todo (threads s i)) /\ exists m0, forall m k, nth_error (machines s) m = Some k -> from_u s (snd k) -> m = m0) }.

  Lemma conf_dec (c : option cid) : c = Some (CUser u) \/ c <> Some (CUser u).
  Proof using.
    destruct c as [c|]; [|right; discriminate]. destruct (cid_eqb_spec c (CUser u)) as [->|Hc]; [auto|right; congruence].
  Qed.
  Lemma from_u_dec s d : from_u s d \/ ~ from_u s d.
  Proof using.
    unfold from_u. destruct (nth_error (dstrats s) d) as [x|]; [|right; intros (y & Hy & _); discriminate].
    destruct (conf_dec (d_from x)) as [Hc|Hc]; [left; eauto|right; intros (y & Hy & Hf); congruence].
  Qed.
  Lemma sole_step sched j : sole (brun progs sched) -> sole (bstep j (brun progs sched)).
  Proof using K.
    set (s := brun progs sched). intro H.
    pose proof (refs_run progs sched) as HR. fold s in HR.
    pose proof (fop_run progs sched j) as HF. fold s in HF.
    assert (HU : forall op, In op (b_todo (threads s j)) -> uses u h b op -> j = i /\ In op (app_constructor u h b n)).
    { intros op Hin. apply used. exact (todo_in progs sched j op Hin). }
    assert (HO : forall op r, j = i -> b_todo (threads s j) = op :: r -> In op (app_constructor u h b n) -> ~ In op r).
    { intros op r -> Ht Hin. exact (head_once sched op r Ht Hin). }
    (* todo of i shrinks *)
    assert (Hin' : forall ph l x, (forall y, In y l -> In y (b_todo (threads s j))) ->
              In x (b_todo (bput (threads s) j {| b_ph := ph; b_todo := l |} i)) -> In x (b_todo (threads s i))).
    { intros ph l x Hl. unfold bput. destruct (Nat.eqb_spec i j) as [<-|]; [|auto]. apply Hl. }
    (* steps that leave strategies and machines alone *)
    assert (Hq : forall s' ph l, dstrats s' = dstrats s -> machines s' = machines s ->
              threads s' = bput (threads s) j {| b_ph := ph; b_todo := l |} -> (forall y, In y l -> In y (b_todo (threads s j))) ->
              (forall h' k, handles s' h' = Some k -> from_u s (snd k) -> h' = h) ->
              (forall b' k, builders s' b' = Some k -> from_u s (snd k) -> b' = b) ->
              (forall b' k, ph = PStore b' k -> ~ from_u s (snd k)) ->
              (forall k, ph = PMach k -> from_u s (snd k) -> j = i /\ exists r, l = OBuild b :: r) -> sole s').
    { intros s' ph l Hd Hm Ht Hl Hh Hb Hp Hk.
      assert (Hfr : forall d, from_u s' d <-> from_u s d) by (intro d; unfold from_u; rewrite Hd; tauto).
      constructor.
      - intros h' k Hk1 Hf. apply (Hh _ _ Hk1). apply Hfr. exact Hf.
      - intros b' k Hk1 Hf. apply (Hb _ _ Hk1). apply Hfr. exact Hf.
      - intros j' b' k Hj' Hf. apply Hfr in Hf. revert Hj'. rewrite Ht. unfold bput. destruct (Nat.eqb_spec j' j) as [->|]; simpl.
        + intro He. exact (Hp _ _ He Hf).
        + intro He. exact (so_p _ H _ _ _ He Hf).
      - intros j' k Hj' Hf. apply Hfr in Hf. revert Hj'. rewrite Ht. unfold bput. destruct (Nat.eqb_spec j' j) as [->|]; simpl.
        + intro He. exact (Hk _ He Hf).
        + intro He. exact (so_m _ H _ _ He Hf).
      - destruct (so_s _ H) as [Hs|[Hs (d0 & Hd0)]]; [left; intros d Hf; apply Hfr in Hf; exact (Hs d Hf)|right].
        split; [rewrite Ht; intro Hi; apply Hs; exact (Hin' _ _ _ Hl Hi)|]. exists d0. intros d Hf. apply Hd0. apply Hfr. exact Hf.
      - rewrite Hm. destruct (so_n _ H) as [Hs|[Hs (m0 & Hm0)]]; [left; intros m k Hn Hf; apply Hfr in Hf; exact (Hs m k Hn Hf)|right].
        split; [rewrite Ht; intro Hi; apply Hs; exact (Hin' _ _ _ Hl Hi)|]. exists m0. intros m k Hn Hf. apply (Hm0 m k Hn). apply Hfr. exact Hf. }
    (* a new strategy *)
    assert (Hnew : forall c o z hs ph l k, (c = Some (CUser u) -> j = i /\ exists r, b_todo (threads s j) = OCreate h false (CUser u) :: r /\ l = r /\ forall h', hs h' <> handles s h' -> h' = h) ->
              (forall y, In y l -> In y (b_todo (threads s j))) -> snd k = List.length (dstrats s) ->
              (forall h', hs h' = handles s h' \/ hs h' = Some k) -> (forall b' k', ph = PStore b' k' -> k' = k /\ c = Some CBasic) -> (forall k', ph <> PMach k') ->
              sole (new_strat s c o z hs (bput (threads s) j {| b_ph := ph; b_todo := l |}))).
    { intros c o z hs ph l k Hc Hl Hk Hhs Hps Hpm. set (s' := new_strat _ _ _ _ _ _).
      assert (Hfr : forall d, from_u s' d <-> from_u s d \/ (d = List.length (dstrats s) /\ c = Some (CUser u))).
      { intro d. unfold from_u, s'. simpl. split.
        - intros (x & Hx & Hf). apply nth_snoc in Hx. destruct Hx as [Hx|[-> ->]]; [left; eauto|right; auto].
        - intros [(x & Hx & Hf)|[-> ->]]; [exists x; rewrite nth_error_app1; [auto|eapply nth_lt; eauto]|].
          rewrite nth_error_app2, Nat.sub_diag by lia. simpl. eauto. }
      assert (Hold : forall d, d < List.length (dstrats s) -> from_u s' d -> from_u s d) by (intros d Hd Hf; apply Hfr in Hf; destruct Hf as [Hf|[-> _]]; [exact Hf|lia]).
      constructor.
      - intros h' k' Hk1 Hf. cbn [handles new_strat s'] in Hk1. destruct (Hhs h') as [He|He].
        + rewrite He in Hk1. apply (so_h _ H h' k' Hk1). apply Hold; [exact (r_h _ HR _ _ Hk1)|exact Hf].
        + rewrite He in Hk1. injection Hk1 as <-. apply Hfr in Hf. rewrite Hk in Hf. destruct Hf as [Hf|[_ Hf]].
          * destruct Hf as (x & Hx & _). apply nth_lt in Hx. lia.
          * destruct (Hc Hf) as (_ & r & _ & _ & Hh). apply Hh. rewrite He. intro Hx. symmetry in Hx. apply (r_h _ HR) in Hx. lia.
      - intros b' k' Hk1 Hf. simpl in Hk1. apply (so_b _ H b' k' Hk1). apply Hold; [exact (r_b _ HR _ _ Hk1)|exact Hf].
      - intros j' b' k' Hj' Hf. revert Hj'. simpl. unfold bput. destruct (Nat.eqb_spec j' j) as [->|]; simpl.
        + intro He. destruct (Hps _ _ He) as [-> Hc']. apply Hfr in Hf. destruct Hf as [(x & Hx & _)|[_ Hf]]; [apply nth_lt in Hx; lia|congruence].
        + intro He. apply (so_p _ H _ _ _ He). apply Hold; [|exact Hf]. pose proof (r_t _ HR j') as Hr. rewrite He in Hr. exact Hr.
      - intros j' k' Hj' Hf. revert Hj'. simpl. unfold bput. destruct (Nat.eqb_spec j' j) as [->|]; simpl.
        + intro He. exfalso. exact (Hpm _ He).
        + intro He. apply (so_m _ H _ _ He). apply Hold; [|exact Hf]. pose proof (r_t _ HR j') as Hr. rewrite He in Hr. exact Hr.
      - destruct (so_s _ H) as [Hs|[Hs (d0 & Hd0)]].
        + destruct (conf_dec c) as [Hcu|Hcu].
          * right. destruct (Hc Hcu) as (-> & r & Ht & -> & _). split.
            -- simpl. rewrite bput_same. simpl. apply (HO _ _ eq_refl Ht). simpl. auto.
            -- exists (List.length (dstrats s)). intros d Hf. apply Hfr in Hf. destruct Hf as [Hf|[Hf _]]; [exfalso; exact (Hs d Hf)|exact Hf].
          * left. intros d Hf. apply Hfr in Hf. destruct Hf as [Hf|[_ Hf]]; [exact (Hs d Hf)|contradiction].
        + right. split; [simpl; intro Hi; apply Hs; exact (Hin' _ _ _ Hl Hi)|]. exists d0. intros d Hf. apply Hfr in Hf.
          destruct Hf as [Hf|[_ Hf]]; [auto|]. exfalso. destruct (Hc Hf) as (-> & r & Ht & _). apply Hs. rewrite Ht. left. reflexivity.
      - simpl. destruct (so_n _ H) as [Hs|[Hs (m0 & Hm0)]].
        + left. intros m k' Hn Hf. apply (Hs m k' Hn). apply Hold; [exact (r_m _ HR _ _ Hn)|exact Hf].
        + right. split; [intro Hi; apply Hs; exact (Hin' _ _ _ Hl Hi)|]. exists m0. intros m k' Hn Hf. apply (Hm0 m k' Hn). apply Hold; [exact (r_m _ HR _ _ Hn)|exact Hf]. }
    assert (Htl : forall op r, b_todo (threads s j) = op :: r -> forall y, In y r -> In y (b_todo (threads s j))) by (intros op r -> y Hy; right; exact Hy).
    assert (Hstay : forall ph, (forall b' k, ph = PStore b' k -> ~ from_u s (snd k)) ->
              (forall k, ph = PMach k -> from_u s (snd k) -> j = i /\ exists r, b_todo (threads s j) = OBuild b :: r) -> sole (upd_threads s (stay j s ph))).
    { intros ph H1 H2. eapply Hq; try reflexivity; simpl; auto; [apply (so_h _ H)|apply (so_b _ H)]. }
    assert (Htl' : forall y, In y (tl (b_todo (threads s j))) -> In y (b_todo (threads s j))) by (intro y; destruct (b_todo (threads s j)); simpl; auto).
    assert (Hfin : sole (upd_threads s (fin j s))).
    { eapply Hq; try reflexivity; simpl; auto; try discriminate; [apply (so_h _ H)|apply (so_b _ H)]. }
    unfold bstep. destruct (b_ph (threads s j)) as [|fr f g|fr|fr|b' k|b'|k] eqn:Ep, (b_todo (threads s j)) as [|op r] eqn:Et; auto;
      try (destruct g; exact H).
    - assert (Hop := fun Hu => HU op (or_introl eq_refl) Hu). destruct op; try ((eapply Hq; [reflexivity|reflexivity|unfold fin, stay; reflexivity|rewrite ?Et; simpl; auto| | |discriminate|discriminate]); [apply (so_h _ H)|apply (so_b _ H)]).
      + apply (Hnew None _ _ _ Idle _ (false, List.length (dstrats s))); simpl; rewrite ?Et; auto; try discriminate.
        intro h'. unfold bput. destruct (Nat.eqb_spec h' h0); auto.
      + destruct (handles s h') as [[[] d]|] eqn:Eh; auto. (eapply Hq; [reflexivity|reflexivity|unfold fin, stay; reflexivity|rewrite ?Et; simpl; auto| | |discriminate|discriminate]); [|apply (so_b _ H)].
        cbn [handles builders upd_vars]. intros h'' k. unfold bput. destruct (Nat.eqb_spec h'' h0) as [->|]; [|apply (so_h _ H)]. intros [= <-] Hf. simpl in Hf.
        pose proof (so_h _ H _ _ Eh Hf) as ->. exfalso. destruct Hop as [_ Hop]; [simpl; auto|]. destruct Hop as [Ho|[Ho|[Ho|[Ho|[]]]]]; discriminate.
      + (eapply Hq; [reflexivity|reflexivity|unfold fin, stay; reflexivity|rewrite ?Et; simpl; auto| | |discriminate|discriminate]); [apply (so_h _ H)|].
        cbn [handles builders upd_vars]. intros b'' k. unfold bput. destruct (Nat.eqb_spec b'' b0) as [->|]; [|apply (so_b _ H)]. destruct h0 as [h0|]; [|discriminate].
        intros Hh Hf. pose proof (so_h _ H _ _ Hh Hf) as ->. destruct Hop as [_ Hop]; [simpl; auto|]. destruct Hop as [Ho|[Ho|[Ho|[Ho|[]]]]]; try discriminate. congruence.
      + destruct (builders s b0); apply Hstay; discriminate.
    - destruct g; [apply Hstay; discriminate| |].
      + (eapply Hq; [reflexivity|reflexivity|unfold fin, stay; reflexivity|rewrite ?Et; simpl; auto| | |discriminate|discriminate]); [apply (so_h _ H)|apply (so_b _ H)].
      + apply Hstay; destruct f; discriminate.
    - apply Hstay; discriminate.
    - unfold fop in HF. rewrite Ep, Et in HF. destruct (fr_into fr) as [h'|b'].
      + destruct HF as [r' HF]. injection HF as -> <-. unfold fin. apply (Hnew _ _ _ _ _ _ (fr_drop fr, List.length (dstrats s))); simpl; auto; try discriminate.
        * intro Hc. assert (Hc' : fr_conf fr = CUser u) by congruence. destruct (HU (OCreate h' (fr_drop fr) (fr_conf fr))) as [Hj Hop]; [left; reflexivity|simpl; auto|].
          destruct Hop as [Ho|[Ho|[Ho|[Ho|[]]]]]; try discriminate. injection Ho as <- <- _. split; [exact Hj|]. exists r. rewrite Et. rewrite Hc'. split; [reflexivity|]. split; [reflexivity|].
          intros h'' Hne. unfold bput in Hne. destruct (Nat.eqb_spec h'' h); [assumption|congruence].
        * rewrite Et. auto.
        * intro h''. unfold bput. destruct (Nat.eqb_spec h'' h'); auto.
      + destruct HF as [_ HF]. unfold stay. apply (Hnew _ _ _ _ _ _ (fr_drop fr, List.length (dstrats s))); simpl; auto; try discriminate; try congruence.
        * rewrite Et. auto.
        * intros b'' k' He. injection He as <- <-. rewrite HF. auto.
    - (eapply Hq; [reflexivity|reflexivity|unfold fin, stay; reflexivity|rewrite ?Et; simpl; auto| | |discriminate|discriminate]); [apply (so_h _ H)|].
      cbn [handles builders upd_vars]. intros b'' k'. unfold bput. destruct (Nat.eqb_spec b'' b') as [->|]; [|apply (so_b _ H)]. intros [= <-] Hf. exfalso. exact (so_p _ H _ _ _ Ep Hf).
    - destruct (builders s b') as [k|] eqn:Eb; [|exact Hfin]. apply Hstay; [discriminate|]. intros k' [= <-] Hf. pose proof (so_b _ H _ _ Eb Hf) as ->.
      unfold fop in HF. rewrite Ep, Et in HF. destruct HF as [r' HF]. injection HF as -> <-. destruct (HU (OBuild b)) as [Hj _]; [left; reflexivity|reflexivity|]. eauto.
    - assert (Hfr : forall s', dstrats s' = set_states s (snd k) (List.length (machines s)) -> forall d, from_u s' d <-> from_u s d).
      { intros s' Hs' d. unfold from_u. rewrite Hs', set_states_nth. destruct (Nat.eqb_spec d (snd k)) as [->|]; [|tauto].
        destruct (nth_error (dstrats s) (snd k)) as [x|]; simpl; split; intros (y & Hy & Hf); try discriminate; injection Hy as <-; [exists x; auto|eexists; split; [reflexivity|]; exact Hf]. }
      match goal with |- sole ?x => set (s' := x) end. specialize (Hfr s' eq_refl).
      assert (Hth : threads s' = bput (threads s) j {| b_ph := Idle; b_todo := r |}) by (unfold s', fin; simpl; rewrite Et; reflexivity).
      assert (Hlr : forall y, In y r -> In y (b_todo (threads s j))) by (intros y Hy; rewrite Et; right; exact Hy).
      constructor.
      + intros h' k' Hk' Hf. apply (so_h _ H h' k' Hk'). apply Hfr. exact Hf.
      + intros b'' k' Hk' Hf. apply (so_b _ H b'' k' Hk'). apply Hfr. exact Hf.
      + intros j' b'' k' Hj' Hf. apply Hfr in Hf. revert Hj'. rewrite Hth. unfold bput. destruct (Nat.eqb_spec j' j) as [->|]; [discriminate|].
        intro He. exact (so_p _ H _ _ _ He Hf).
      + intros j' k' Hj' Hf. apply Hfr in Hf. revert Hj'. rewrite Hth. unfold bput. destruct (Nat.eqb_spec j' j) as [->|]; [discriminate|].
        intro He. exact (so_m _ H _ _ He Hf).
      + destruct (so_s _ H) as [Hs|[Hs (d0 & Hd0)]]; [left; intros d Hf; apply Hfr in Hf; exact (Hs d Hf)|right].
        split; [rewrite Hth; intro Hi; apply Hs; rewrite <- Et in *; exact (Hin' _ _ _ Hlr Hi)|]. exists d0. intros d Hf. apply Hd0. apply Hfr. exact Hf.
      + assert (Hmm : machines s' = machines s ++ [k]) by reflexivity. rewrite Hmm.
        destruct (so_n _ H) as [Hs|[Hs (m0 & Hm0)]].
        * destruct (from_u_dec s (snd k)) as [Hk|Hk].
          -- right. destruct (so_m _ H _ _ Ep Hk) as [Hj [r' Hr]]. split.
             ++ rewrite Hth, Hj, bput_same. simpl. rewrite Hr in Et. injection Et as <- <-. apply (HO _ _ Hj eq_refl). simpl. auto.
             ++ exists (List.length (machines s)). intros m k' Hn Hf. apply nth_snoc in Hn. destruct Hn as [Hn|[Hn _]]; [|exact Hn]. exfalso. apply Hfr in Hf. exact (Hs _ _ Hn Hf).
          -- left. intros m k' Hn Hf. apply Hfr in Hf. apply nth_snoc in Hn. destruct Hn as [Hn|[_ ->]]; [exact (Hs _ _ Hn Hf)|contradiction].
        * right. split; [rewrite Hth; intro Hi; apply Hs; rewrite Et in Hlr; exact (Hin' _ _ _ Hlr Hi)|]. exists m0. intros m k' Hn Hf. apply Hfr in Hf. apply nth_snoc in Hn.
          destruct Hn as [Hn|[_ ->]]; [exact (Hm0 _ _ Hn Hf)|]. exfalso. destruct (so_m _ H _ _ Ep Hf) as [Hj [r' Hr]]. apply Hs. rewrite <- Hj, Hr. left. reflexivity.
  Qed.
  Lemma sole_run sched : sole (brun progs sched).
  Proof using K.
    unfold brun. induction sched as [|j sched IH] using rev_ind.
    - assert (Hn : forall d, ~ from_u (bsys0 progs) d) by (intros [|d] (x & Hx & _); discriminate).
      constructor; simpl; try discriminate; auto.
    - rewrite fold_left_app. cbn [fold_left]. apply sole_step. exact IH.
  Qed.

  (** ** The machine *)
  Lemma not_set f : never_set progs (CUser u) f.
  Proof using K. intros j u' v [= <-] Hin. destruct (used _ _ Hin) as [_ Hc]; [reflexivity|]. destruct Hc as [Hc|[Hc|[Hc|[Hc|[]]]]]; discriminate. Qed.
  Lemma last_max_none l : (forall op, In op l -> ~ uses u h b op) -> last_max l u = (-1)%Z.
  Proof using.
    unfold last_max. generalize (-1)%Z. induction l as [|op l IH]; intros z Hl; [reflexivity|]. simpl. rewrite IH; [|intros x Hx; apply Hl; right; exact Hx].
    assert (Ho := Hl op (or_introl eq_refl)). destruct op; try reflexivity. destruct (Nat.eqb_spec u0 u); [exfalso; apply Ho; assumption|reflexivity].
  Qed.
  Lemma field_none l f : (forall op, In op l -> ~ uses u h b op) -> fold_left (fstep u f) l (None, FUnset) = (None, FUnset).
  Proof using.
    induction l as [|op l IH]; intro Hl; [reflexivity|]. cbn [fold_left]. assert (Ho := Hl op (or_introl eq_refl)).
    assert (Hs : fstep u f (None, FUnset) op = (None, FUnset)).
    { destruct op; try reflexivity; simpl in *.
      - destruct (Nat.eqb_spec u0 u); [exfalso; apply Ho; assumption|reflexivity].
      - destruct (Nat.eqb_spec u0 u); [exfalso; apply Ho; assumption|reflexivity].
      - destruct c as [|u']; [reflexivity|]. destruct (Nat.eqb_spec u' u) as [->|]; [exfalso; apply Ho; right; reflexivity|reflexivity]. }
    rewrite Hs. apply IH. intros x Hx. apply Hl. right. exact Hx.
  Qed.

  Lemma own_machine sched rest mid r : let s := brun progs sched in let E := env_of s rest in
    after = mid ++ r -> finished s i r ->
    exists m, (exists d, built_with s m d /\ made_from s d (CUser u)) /\
      (forall m' d', built_with s m' d' -> made_from s d' (CUser u) -> m' = m) /\
      private_queue E m /\ n_workers E (exec_of E m) = 1 /\ (forall m', exec_of E m' = exec_of E m -> m' = m) /\ table_of E m = m /\
      s_drop (strat E (strat_of E m)) = false /\ s_max (strat E (strat_of E m)) = (-1)%Z /\
      s_unmapped (strat E (strat_of E m)) = UDefault /\ s_ufl (strat E (strat_of E m)) = FDefault /\
      exists k, exec_of E m = 4 * k + 1 /\ nth_error (origin s) k = Some (CUser u, FExec, match n with Some x => x | None => "state-machine"%string end).
  Proof using K.
    intros s E Ha Hfi.
    assert (Hc : own_conf progs i u).
    { intros j op Hj Hin. pose proof (k_others _ _ _ _ _ _ _ _ K j op Hj Hin) as Ho. destruct op; simpl in *; try destruct c; auto; intros ->; apply Ho; auto. }
    assert (Hv : own_var progs i h).
    { intros j op Hj Hin. pose proof (k_others _ _ _ _ _ _ _ _ K j op Hj Hin) as Ho. destruct op; simpl in *; auto. }
    assert (Hb : own_builder progs i b).
    { intros j op Hj Hin. pose proof (k_others _ _ _ _ _ _ _ _ K j op Hj Hin) as Ho. destruct op; simpl in *; auto. }
    assert (Hmid : forall op, In op mid -> ~ uses u h b op) by (intros op Hin; apply (k_after _ _ _ _ _ _ _ _ K); rewrite Ha; apply in_or_app; auto).
    destruct (built_from progs i sched rest u b h false (before ++ [OName u n]) [] [] mid r Hc Hv Hb) as (m & d & x & Hm & Hx & Hst & Hf & Hmax & Ho); [| | |exact Hfi|].
    { rewrite (k_prog _ _ _ _ _ _ _ _ K), Ha, <- app_assoc. reflexivity. }
    { intros op Hin. pose proof (Hmid op Hin) as Hu. destruct op; simpl in *; auto. }
    { intros h' Hin. apply (Hmid _ Hin). left. reflexivity. }
    fold s in Hm, Hx, Hst, Ho. fold E in Hst.
    assert (Hfield : forall f, field_after ((before ++ [OName u n]) ++ [OCreate h false (CUser u)]) u f = FMade (match n with Some x => x | None => "state-machine"%string end)).
    { intro f. unfold field_after. rewrite !fold_left_app, (field_none before) by (apply (k_before _ _ _ _ _ _ _ _ K)). simpl. rewrite !Nat.eqb_refl. reflexivity. }
    assert (Hlib : forall f, exists k, d_obj x f = Some (OLib k) /\ nth_error (origin s) k = Some (CUser u, f, match n with Some x => x | None => "state-machine"%string end)).
    { intro f. specialize (Ho f). rewrite Hfield in Ho. exact Ho. }
    assert (Hun : forall m' d', built_with s m' d' -> made_from s d' (CUser u) -> m' = m).
    { intros m' d' [b' Hm'] Hd'. pose proof (sole_run sched) as HS. fold s in HS. destruct Hm as [b0 Hm].
      assert (Hfu : from_u s d) by (exists x; auto). destruct (so_n _ HS) as [Hn|[_ (m0 & Hm0)]]; [exfalso; exact (Hn _ _ Hm Hfu)|].
      rewrite (Hm0 _ _ Hm Hfu). exact (Hm0 _ _ Hm' Hd'). }
    assert (Hmf : made_from s d (CUser u)) by (exists x; auto).
    destruct (own_config progs sched rest m d (CUser u) Hm Hmf (not_set FQueue) Hun) as (H1 & H2 & H3).
    exists m. split; [eauto|]. split; [exact Hun|]. split; [exact H1|]. split; [exact (H3 (not_set FExec))|].
    assert (Hme : exec_of E m = obj_num d (d_obj x FExec)) by (unfold exec_of; rewrite Hst; reflexivity).
    destruct (Hlib FExec) as (k & Hk & Hok).
    split; [|split; [exact H2|]].
    - intros m' He. rewrite Hme, Hk in He. unfold exec_of in He.
      assert (Hsm' : strat_of E m' = match nth_error (machines s) m' with Some k => strat_num k | None => 4 * m' + 2 end) by reflexivity. rewrite Hsm' in He.
      destruct (nth_error (machines s) m') as [[b' d']|] eqn:Em'.
      + pose proof (r_m _ (refs_run progs sched) _ _ Em') as Hd'. simpl in Hd'. fold s in Hd'. apply nth_error_Some in Hd'. destruct (nth_error (dstrats s) d') as [y|] eqn:Ey; [|congruence].
        assert (Hs' : strat E (strat_num (b', d')) = strat_rec b' d' y) by (apply env_strat; exact Ey). rewrite Hs' in He. cbn [s_exec strat_rec] in He.
        destruct (d_obj y FExec) as [[q|q]|] eqn:Eq; cbn [obj_num] in He; try lia. assert (q = k) by lia. subst q.
        pose proof (s_str _ _ (src_run progs sched) _ _ _ _ Ey Eq) as Hsrc. unfold dsource in Hsrc. destruct (d_from y) as [c'|] eqn:Ec'.
        * destruct Hsrc as [tn' Hsrc]. fold s in Hsrc. assert (c' = CUser u) by congruence. subst c'. apply (Hun m' d'); [exists b'; exact Em'|exists y; auto].
        * destruct Hsrc; discriminate.
      + assert (Hs' : strat E (4 * m' + 2) = strat_absent m') by apply env_absent. rewrite Hs' in He. cbn [s_exec strat_absent obj_num] in He. lia.
    - rewrite Hst. cbn [s_drop s_max s_unmapped s_ufl strat_rec]. split; [reflexivity|]. split; [|].
      + rewrite Hmax. unfold last_max. rewrite fold_left_app. simpl. apply last_max_none. apply (k_before _ _ _ _ _ _ _ _ K).
      + destruct (Hlib FHandler) as (k1 & -> & _). destruct (Hlib FFlow) as (k2 & -> & _). split; [reflexivity|]. split; [reflexivity|].
        exists k. rewrite Hme, Hk. split; [reflexivity|exact Hok].
  Qed.

  Lemma app_is_built sched rest mid r p w0 d : let s := brun progs sched in let E := env_of s rest in
    after = mid ++ r -> finished s i r -> built_with s (ap_mach (apps rest p)) d -> made_from s d (CUser u) ->
    app_configured E w0 p -> app_built E w0 p.
  Proof using K.
    intros s E Ha Hfi Hb Hm HC. destruct (own_machine sched rest mid r Ha Hfi) as (m & _ & Hun & H1 & H2 & _ & H3 & H4 & H5 & _).
    fold s in Hun. fold E in H1, H2, H3, H4, H5. specialize (Hun _ _ Hb Hm). assert (He : ap_mach (apps E p) = m) by exact Hun.
    destruct HC. constructor; rewrite ?He in *; auto; [apply Nat.eq_le_incl; exact H2|]. eapply Z.le_trans; [apply Z.eq_le_incl; exact H5|lia].
  Qed.
End App.

Lemma own_named progs i before u h b calls after : constructs progs i before u h b (app_thread_name calls) after ->
  forall sched rest mid r name, let s := brun progs sched in let E := env_of s rest in
    after = mid ++ r -> finished s i r -> named_by calls name ->
    exists m, (exists d, built_with s m d /\ made_from s d (CUser u)) /\
      (forall m' d', built_with s m' d' -> made_from s d' (CUser u) -> m' = m) /\
      private_queue E m /\ n_workers E (exec_of E m) = 1 /\ (forall m', exec_of E m' = exec_of E m -> m' = m) /\ table_of E m = m /\
      s_drop (strat E (strat_of E m)) = false /\ s_max (strat E (strat_of E m)) = (-1)%Z /\
      s_unmapped (strat E (strat_of E m)) = UDefault /\ s_ufl (strat E (strat_of E m)) = FDefault /\
      exists k, exec_of E m = 4 * k + 1 /\ nth_error (origin s) k = Some (CUser u, FExec, name).
Proof.
  intros K sched rest mid r name s E Ha Hf Hn. destruct (own_machine _ _ _ _ _ _ _ _ K sched rest mid r Ha Hf) as (m & H).
  exists m. replace name with (match app_thread_name calls with Some x => x | None => "state-machine"%string end); [exact H|].
  unfold app_thread_name. destruct Hn; [reflexivity|rewrite last_last; reflexivity..].
Qed.
