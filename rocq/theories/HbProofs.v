(** * HbProofs.v: happens-before (proofs for C62, C63) *)
From Verif Require Import ExactSpec ApiSpec ExactProofs CallProofs MemInv Lang Logic Neutral Own Tree Nodes Marks QueueProofs Place Moments Truth FlowProofs QTruth StartProofs HbSpec Chain.

(** ** the languages of the brackets, up to what fire() writes *)
Definition plain (o : obs) : Prop :=
  match o with OOffer _ _ _ _ _ _ | ORd (RdPair _ _) | OCall (KUflExn _ _ _ _) => False | _ => True end.

Section Closed.
  Context (E : env) (G : list obs -> Prop).
  Context (Happ : forall a b, G a -> G b -> G (a ++ b)).
  Context (Hplain : forall l, Forall plain l -> G l).
  Context (Hfire : forall m e x out, fireL E m e x out -> G out).
  Definition gl (L : lang) : Prop := forall x out, L x out -> G out.
  Lemma gl_only L : L <<= plain -> gl L.
  Proof. intros H x out Hx. apply Hplain. eapply H, Hx. Qed.
  Lemma gl_seqx L1 L2 : gl L1 -> gl L2 -> gl (seqx L1 L2).
  Proof. intros H1 H2 x out [(y & -> & H)|(o1 & o2 & -> & Ha & Hb)]; [eauto|]. apply Happ; eauto. Qed.
  Lemma gl_fire m e : gl (fireL E m e).
  Proof. intros x out H. eapply Hfire, H. Qed.
  Lemma gl_cons o l : plain o -> G l -> G (o :: l).
  Proof. intros H1 H2. apply (Happ [o] l); [apply Hplain; auto|exact H2]. Qed.
  Lemma gl_cur m f : (forall c, gl (f c)) -> gl (curL m f).
  Proof. intros H x out (c & out' & -> & Hx). apply gl_cons; [exact I|]. eapply H, Hx. Qed.
  Lemma gl_emit l : Forall plain l -> gl (emit l).
  Proof. intros H. apply gl_only, only_emit, H. Qed.
  Lemma gl_fail y : gl (failL y).
  Proof. apply gl_only, only_fail. Qed.
  Lemma plain_call c o : (forall u e m x, c <> KUflExn u e m x) -> mcall c o -> plain o.
  Proof. intros Hc [->|[x ->]]; [destruct c; try exact I; edestruct Hc; reflexivity|exact I]. Qed.
  Lemma plain_start m o : mstart m o -> plain o.
  Proof. intro H. dmay; subst; exact I. Qed.

  Lemma gl_appstop p : gl (appStopL E p).
  Proof.
    unfold appStopL. apply gl_cur. intro c. destruct (orb _ _); [apply gl_fire|].
    destruct (andb _ _); [apply gl_emit; constructor|apply gl_fail].
  Qed.
  Lemma gl_appstart p : gl (appStartL E p).
  Proof.
    unfold appStartL. apply gl_cur. intros c x out [(out' & -> & H)|(out' & -> & H)]; (apply gl_cons; [exact I|]).
    - revert x out' H. match goal with |- forall x out, ?L x out -> _ => change (gl L) end.
      repeat apply gl_seqx.
      + apply gl_only. eapply only_mono; [|apply only_start]. apply plain_start.
      + apply gl_fire.
      + intros x out [_ [->| ->]]; apply Hplain; repeat constructor.
      + intros x out (b & o3 & -> & H). apply gl_cons; [exact I|].
        destruct b; [destruct H as [_ ->]; apply Hplain; constructor|eapply gl_appstop; exact H].
    - destruct (andb _ _); [eapply gl_fire; exact H|eapply gl_fail; exact H].
  Qed.
  Lemma gl_user : gl userL.
  Proof.
    apply gl_only. apply only_user. intros o Ho. unfold muser in Ho. dmay; subst; exact I.
  Qed.
  Lemma gl_subs b p : gl (subsL b p).
  Proof.
    intros x out (l & out' & -> & H). apply gl_cons; [exact I|]. revert x out' H.
    match goal with |- forall x out, ?L x out -> _ => change (gl L) end. apply gl_only. apply only_calls. intros c o Hin Hc. eapply plain_call; [|exact Hc]. apply in_map_iff in Hin. destruct Hin as (i & <- & _). discriminate.
  Qed.
  Lemma gl_act a e m : gl (actL E a e m).
  Proof.
    destruct a as [n|a' h|p|p|p|p]; simpl.
    - apply gl_user.
    - intros x out [y H]. apply Hplain.
      assert (Hc : forall c z, (forall u e m x, c <> KUflExn u e m x) -> Forall plain (called c z)).
      { intros. eapply Forall_impl; [|apply called_mcall]. intros; eapply plain_call; eassumption. }
      destruct y as [z|]; [|destruct H as [-> _]; apply Hc; discriminate].
      destruct (is_exception z); [subst; apply Forall_app; split; apply Hc; discriminate|].
      destruct H as [-> _]. apply Hc; discriminate.
    - repeat apply gl_seqx; [apply gl_emit; repeat constructor|apply gl_subs|apply gl_fire].
    - apply gl_emit. constructor.
    - repeat apply gl_seqx; [apply gl_emit; repeat constructor|apply gl_subs|apply gl_fire].
    - apply gl_seqx; [apply gl_emit; repeat constructor|]. destruct (ap_exit (apps E p)); [|apply gl_emit; constructor].
      apply gl_seqx; [apply gl_fire|apply gl_emit; repeat constructor].
  Qed.
  Lemma gl_code c : gl (callCode E c).
  Proof.
    destruct c; try apply gl_act.
    - destruct h; [apply gl_user|]. simpl. apply gl_cur. intro c. apply gl_seqx; [apply gl_emit; repeat constructor|apply gl_fire].
    - apply gl_only. eapply only_mono; [|apply only_code]. intros o Ho. simpl in Ho. destruct l as [[n|n nm]|k]; dmay; subst; exact I.
    - apply gl_only. eapply only_mono; [|apply only_code]. intros o Ho. simpl in Ho. destruct h; dmay; subst; exact I.
    - apply gl_only. eapply only_mono; [|apply only_code]. intros o Ho. simpl in Ho. destruct u; dmay; subst; exact I.
    - apply gl_only. eapply only_mono; [|apply only_code]. intros o Ho. simpl in Ho. destruct u; dmay; subst; exact I.
    - apply gl_only. eapply only_mono; [|apply only_code]. intros o Ho. simpl in Ho. destruct u; dmay; subst; exact I.
    - apply gl_user.
  Qed.
  Lemma gl_api a v out : apiL E a v out -> G out.
  Proof.
    intro H. assert (Hm : (forall o, mapi E a o -> plain o) -> G out).
    { intro Hp. apply Hplain. eapply Forall_impl; [|eapply only_api; exact H]. exact Hp. }
    destruct a; try (apply Hm; intros ob Ho; simpl in Ho; dmay; subst; exact I); simpl in H; destruct H as (x & _ & H).
    - eapply Hfire; exact H.
    - eapply gl_appstart; exact H.
    - eapply gl_appstop; exact H.
    - revert x out H Hm. intros x out H _. revert x out H. match goal with |- forall x out, ?L x out -> _ => change (gl L) end.
      unfold appErrorL. apply gl_seqx; [apply gl_emit; repeat constructor|apply gl_fire].
  Qed.
  Lemma gl_node t k its z : node_ok E t (k, its, z) -> match k with FApi _ | FCall _ => G its | _ => True end.
  Proof.
    destruct k as [|a|c|q p c]; auto; destruct z; simpl; try contradiction; intros [_ H].
    - eapply gl_api; exact H.
    - eapply gl_code; exact H.
  Qed.
End Closed.

(** ** before an event is accepted, isEnded() has been asked *)
Definition asked (m : mid) (i : list obs) : Prop :=
  In (R (RdEnded m false)) i \/ exists j1 j2, i = j1 ++ R (RdStarted m true) :: R (RdStarted m false) :: j2.
Definition guarded (out : list obs) : Prop :=
  forall i q p e m e' m' j, out = i ++ OOffer q p e m e' m' :: j -> asked m i.
Lemma asked_app m i j : asked m j -> asked m (i ++ j).
Proof.
  intros [H|(j1 & j2 & ->)]; [left; apply in_or_app; auto|right]. exists (i ++ j1), j2. rewrite <- app_assoc. reflexivity.
Qed.
Lemma guarded_app a b : guarded a -> guarded b -> guarded (a ++ b).
Proof.
  intros Ha Hb i q p e m e' m' j H. apply app_eq_app in H. destruct H as (l & [[-> H]|[-> H]]).
  - destruct l as [|x l].
    + simpl in H. symmetry in H. rewrite <- (app_nil_r i). apply (asked_app m i []). apply (Hb [] _ _ _ _ _ _ _ H).
    + injection H as <- ->. eapply (Ha i). reflexivity.
  - apply asked_app. eapply Hb, H.
Qed.
Lemma guarded_plain l : Forall plain l -> guarded l.
Proof.
  intros H i q p e m e' m' j ->. exfalso. apply Forall_app in H. destruct H as [_ H]. inversion H as [|? ? Hp _]; subst. exact Hp.
Qed.
Section Fire.
  Context (E : env).
  Lemma offer_fire m e x out q p e1 m1 e' m' : fireL E m e x out -> In (OOffer q p e1 m1 e' m') out -> m1 = m.
  Proof.
    intros H Hin. pose proof (only_fire E m e x out H) as Hf. rewrite Forall_forall in Hf.
    apply (mfire_offer E m e q p e1 m1 e' m'). apply Hf, Hin.
  Qed.
  Lemma guarded_fire m e x out : fireL E m e x out -> guarded out.
  Proof.
    intros Hf i q p e1 m1 e' m' j Ho.
    assert (m1 = m) as -> by (eapply (offer_fire m e x out); [exact Hf|rewrite Ho; apply in_or_app; right; left; reflexivity]).
    destruct Hf as [->|[->|(out' & [->| ->] & H)]].
    - exfalso. destruct i as [|? [|? [|? i]]]; try discriminate. destruct i; discriminate.
    - exfalso. destruct i as [|? [|? [|? [|? [|? i]]]]]; try discriminate. destruct i; discriminate.
    - left. destruct i as [|? [|? [|? i]]]; try discriminate. injection Ho as <- <- <- _. simpl. auto.
    - right. destruct i as [|? [|? i]]; try discriminate. injection Ho as <- <- _. exists [], i. reflexivity.
  Qed.
  Lemma keeps_fire : keeps_duplicates E -> forall m e x out, fireL E m e x out ->
    Forall (fun o => match o with ORd (RdPair _ _) => False | _ => True end) out.
  Proof.
    intros Hk m e x out H.
    set (P := fun o => match o with ORd (RdPair _ _) => False | _ => True end).
    assert (Hc : forall c y, Forall P (called c y)) by (intros; unfold called; repeat constructor).
    destruct H as [->|[->|(out' & Ho & H)]].
    - constructor; [exact I|apply Hc].
    - apply Forall_app. split; [repeat constructor|apply Hc].
    - assert (Ho' : Forall P out').
      { unfold processL in H. rewrite Hk in H. destruct H as (c & n & o2 & -> & H). constructor; [exact I|]. constructor; [exact I|].
        destruct (full E (strat_of E m) n); [rewrite H; apply Hc|].
        destruct H as (p & o3 & Hs & Hx). assert (Forall P o3) by (destruct Hs as [[_ ->]|[_ ->]]; repeat constructor).
        destruct Hx as [->|(y & nm & y' & e' & ->)]; apply Forall_app; (split; [repeat constructor|assumption]). }
      destruct Ho as [->| ->]; apply Forall_app; (split; [repeat constructor|exact Ho']).
  Qed.
  (** without the drop-duplicates strategy only a taken pair is read *)
  Lemma pair_frame t k its p c : keeps_duplicates E -> frame_ok E t (k, its ++ [ORd (RdPair p c)]) ->
    its = [] /\ exists q c', k = FTake q p c'.
  Proof.
    intros Hk Hf. destruct k as [|a|cl|q p' c'].
    - exfalso. apply frame_may in Hf. apply Forall_app in Hf. destruct Hf as [_ Hf]. inversion Hf as [|? ? Hm _]; subst.
      simpl in Hm. destruct t; simpl in Hm; [unfold muser in Hm; dmay; discriminate|contradiction].
    - exfalso. destruct Hf as (ext & z & Hn). apply (gl_node E (Forall (fun o => match o with ORd (RdPair _ _) => False | _ => True end))) in Hn.
      + rewrite <- app_assoc in Hn. apply Forall_app in Hn. destruct Hn as [_ Hn]. inversion Hn; subst. assumption.
      + intros; apply Forall_app; auto.
      + intros l Hl. eapply Forall_impl; [|exact Hl]. intros o Ho; destruct o; simpl in *; auto; contradiction.
      + apply keeps_fire, Hk.
    - exfalso. destruct Hf as (ext & z & Hn). apply (gl_node E (Forall (fun o => match o with ORd (RdPair _ _) => False | _ => True end))) in Hn.
      + rewrite <- app_assoc in Hn. apply Forall_app in Hn. destruct Hn as [_ Hn]. inversion Hn; subst. assumption.
      + intros; apply Forall_app; auto.
      + intros l Hl. eapply Forall_impl; [|exact Hl]. intros o Ho; destruct o; simpl in *; auto; contradiction.
      + apply keeps_fire, Hk.
    - destruct Hf as (ext & z & Hn). simpl in Hn. destruct z; try contradiction. destruct Hn as (_ & _ & tm & i & _ & _ & Ht).
      rewrite <- app_assoc in Ht. simpl in Ht.
      unfold takeL in Ht. destruct c' as [[e m]|].
      + destruct Ht as (b & o1 & o2 & Heq & Hx). destruct its as [|o its].
        { injection Heq as <- _ _. eauto. }
        exfalso. injection Heq as _ Heq. destruct its as [|o' its]; [discriminate|]. injection Heq as _ Heq.
        assert (Hnp : Forall (fun o => match o with ORd (RdPair _ _) => False | _ => True end)
                        (o1 ++ o2 ++ [OWr (WrGive (s_pool (strat E (strat_of E tm))) p')])).
        { apply Forall_app. split; [|apply Forall_app; split; [|repeat constructor]].
          - destruct b; [destruct Hx as (-> & _); constructor|]. destruct Hx as (y & Hx & _).
            eapply Forall_impl; [|eapply only_execute; exact Hx]. intros ob Ho. clear - Ho. dmay; subst; exact I.
          - destruct b; [destruct Hx as (_ & -> & _); constructor|]. destruct Hx as (y & _ & Hx).
            destruct y as [z|]; [|destruct Hx as [-> _]; constructor].
            destruct (is_exception z); [subst; unfold called; repeat constructor|destruct Hx as [-> _]; constructor]. }
        rewrite <- Heq in Hnp. apply Forall_app in Hnp. destruct Hnp as [_ Hnp]. inversion Hnp; subst. assumption.
      + destruct Ht as [_ Heq]. destruct its as [|o its]; [injection Heq as <- _ _; eauto|]. destruct its; discriminate.
  Qed.
End Fire.

Lemma hb_lt sw h i j : hb sw h i j -> i < j.
Proof. induction 1; lia. Qed.
Lemma firstn_app_2_skip {A} (l : list A) n : forall k, firstn (k + n) l = firstn k l ++ firstn n (skipn k l).
Proof. induction l as [|x l IH]; intros [|k]; simpl; auto; [destruct n; reflexivity|]. f_equal. apply IH. Qed.

Section Hb.
  Context (E : env) (w0 : mem) (w : world) (H0 : init_mem E w0) (Hr : reach E w0 w).
  Notation T := (tr (wm w)).
  Lemma law h t o r : T = h ++ (t, o) :: r -> lawful h t o.
  Proof. exact (own_chain E w0 w H0 Hr h t o r). Qed.

  Lemma scan_empty t b : fst (scan t b) = [(FRoot, [])] -> thread_obs t b = [].
  Proof.
    rewrite scan_eq. destruct (thread_obs t b) as [|x l] eqn:El; [auto|]. intro H. exfalso.
    destruct (root_kept [x] l [] [] H) as (u1 & i1 & i2 & H1 & H2).
    destruct i1; [|discriminate]. unfold scan0, scanl in H1. simpl in H1.
    destruct (closes x); [simpl in H1; destruct u1; discriminate|]. destruct (opens x); simpl in H1.
    - destruct u1 as [|f1 [|g1 u1]]; simpl in H1; try discriminate. destruct u1; discriminate.
    - destruct u1 as [|f1 u1]; simpl in H1; [discriminate|]. destruct u1; discriminate.
  Qed.
  Lemma nth_len {A} (a : list A) x b : nth_error (a ++ x :: b) (List.length a) = Some x.
  Proof. rewrite nth_error_app2, Nat.sub_diag by lia. reflexivity. Qed.
  Lemma on_at h t o r : T = h ++ (t, o) :: r -> on T (List.length h) t o.
  Proof. intros ->. unfold on. apply nth_len. Qed.

  Lemma fetches_only i t p : keeps_duplicates E -> reads_pair T i t p -> fetches_pair T i t p.
  Proof.
    intros Hk Hrd. split; [exact Hrd|]. destruct Hrd as [c Hi].
    pose proof (on_split T _ _ _ Hi) as HT.
    destruct (placed_frame E w0 w H0 Hr _ _ _ _ HT eq_refl) as (k & its & u & Hs & Hf).
    destruct (pair_frame E _ _ _ _ _ Hk Hf) as (-> & q & c' & ->).
    destruct (top_bracket _ _ _ _ _ Hs ltac:(discriminate)) as (a & op & b & Hh & Ho & Hb & _).
    destruct op; try discriminate. injection Ho as -> -> ->. apply scan_empty in Hb.
    assert (Hlen : List.length (firstn i T) = i).
    { apply firstn_length_le. assert (i < List.length T) by (apply nth_error_Some; unfold on in Hi; congruence). lia. }
    assert (Hl : i = List.length a + S (List.length b)) by (rewrite <- Hlen, Hh, app_length; reflexivity).
    exists (List.length a), q, c'. split; [lia|]. split.
    - eapply on_at. rewrite HT, Hh, <- app_assoc. reflexivity.
    - intros n t' o H1 H2 Hn ->. 
      assert (Hin : In (t, o) b).
      { unfold on in Hn. rewrite HT, Hh in Hn. rewrite nth_error_app1 in Hn by (rewrite app_length; simpl; lia).
        rewrite nth_error_app2 in Hn by lia. replace (n - List.length a) with (S (n - List.length a - 1)) in Hn by lia.
        simpl in Hn. eapply nth_error_In, Hn. }
      apply thread_obs_in in Hin. rewrite Hb in Hin. exact Hin.
  Qed.

  (** *** C62 *)
  Lemma pair_ordered i j t t' p : i < j ->
    writes_pair T i t p \/ fetches_pair T i t p -> writes_pair T j t' p \/ fetches_pair T j t' p -> hb sw_min T i j.
  Proof.
    intros Hlt Hi Hj. apply (access_hb T law p i j); [| |exact Hlt].
    - destruct Hi; [eapply write_access|eapply fetch_access]; eauto using law.
    - destruct Hj; [eapply write_access|eapply fetch_access]; eauto using law.
  Qed.
  Lemma pair_race_free i j t t' p : keeps_duplicates E -> i < j ->
    writes_pair T i t p \/ reads_pair T i t p -> writes_pair T j t' p \/ reads_pair T j t' p -> hb sw_min T i j.
  Proof.
    intros Hk Hlt Hi Hj. eapply pair_ordered; [exact Hlt|..].
    - destruct Hi; [left|right; apply fetches_only]; eauto.
    - destruct Hj; [left|right; apply fetches_only]; eauto.
  Qed.

  (** *** C63: what was done before fire() is visible to the processing *)
  Lemma last_offer q p n : place_of p (firstn n T) = PQueue q -> n <= List.length T ->
    exists k t e m e' m', k < n /\ on T k t (OOffer q p e m e' m') /\ none_between T (moves_in_queue q p) k n /\
      forall l t' e0 m0, k < l -> l < n -> ~ on T l t' (OWr (WrPair p e0 m0)).
  Proof.
    induction n as [|n IH]; [discriminate|]. intros Hp Hn.
    destruct (nth_error T n) as [[t' o']|] eqn:En; [|apply nth_error_None in En; lia].
    assert (Hon : on T n t' o') by exact En. rewrite (firstn_on T _ _ _ Hon), place_snoc in Hp.
    pose proof (on_law T law _ _ _ Hon) as Hl.
    assert (Hkeep : place_of p (firstn n T) = PQueue q -> (forall q, ~ moves_in_queue q p o') -> 
       exists k t e m e' m', k < S n /\ on T k t (OOffer q p e m e' m') /\ none_between T (moves_in_queue q p) k (S n) /\
         forall l t' e0 m0, k < l -> l < S n -> ~ on T l t' (OWr (WrPair p e0 m0))).
    { intros Hq Hm. destruct (IH Hq ltac:(lia)) as (k & t & e & m & e' & m' & H1 & H2 & H3 & H4).
      exists k, t, e, m, e', m'. repeat split; auto; [eapply none_more; eauto|].
      intros l t1 e0 m0 Hkl Hln Hw. destruct (Nat.eq_dec l n) as [->|]; [|eapply H4; eauto; lia].
      unfold on in Hw, Hon. rewrite Hon in Hw. injection Hw as -> ->. simpl in Hl. congruence. }
    unfold place_step in Hp. simpl in Hp.
    destruct o'; try (apply Hkeep; [exact Hp|exact (fun _ x => x)]); simpl in Hl.
    - destruct (Nat.eqb_spec p0 p) as [->|N].
      + injection Hp as ->. exists n, t', e, m, e', m'. repeat split; auto; intros ? ? ? ? ?; lia.
      + apply Hkeep; [exact Hp|]. intros q1 [_ H]. congruence.
    - destruct (Nat.eqb_spec p0 p) as [->|N]; [discriminate|]. apply Hkeep; [exact Hp|]. intros q1 [_ H]. congruence.
    - destruct w1; try (apply Hkeep; [exact Hp|exact (fun _ x => x)]); clear Hl;
        (match type of Hp with (if ?b then _ else _) = _ => destruct b end;
         [discriminate|]; apply Hkeep; [exact Hp|exact (fun _ x => x)]).
  Qed.

  Lemma take_content q p c t h r : T = h ++ (t, OTake q p c) :: r -> pair_at p h = c /\ c <> None.
  Proof.
    intro HT. destruct (reach_prefix E w0 w (im_tr _ _ H0) Hr h _ HT) as (w1 & Hr1 & Hw1).
    assert (HT2 : T = (h ++ [(t, OTake q p c)]) ++ r) by (rewrite <- app_assoc; exact HT).
    destruct (reach_prefix E w0 w (im_tr _ _ H0) Hr _ _ HT2) as (w2 & Hr2 & Hw2).
    pose proof (fifo E w0 w2 q H0 Hr2) as F2. rewrite Hw2, Own.acc_app, Own.tak_app in F2. simpl in F2. rewrite Nat.eqb_refl, app_nil_r in F2.
    rewrite <- Hw1. apply (waiting_pair E w0 w1 q p c H0 Hr1). rewrite Hw1. unfold waiting. rewrite F2, <- app_assoc.
    rewrite skipn_app, skipn_all, Nat.sub_diag. left. reflexivity.
  Qed.
  Lemma offer_content q p e m e' m' t h r : T = h ++ (t, OOffer q p e m e' m') :: r -> pair_at p h = Some (e', m').
  Proof.
    intro HT. destruct (reach_prefix E w0 w (im_tr _ _ H0) Hr h _ HT) as (w1 & Hr1 & Hw1).
    assert (HT2 : T = (h ++ [(t, OOffer q p e m e' m')]) ++ r) by (rewrite <- app_assoc; exact HT).
    destruct (reach_prefix E w0 w (im_tr _ _ H0) Hr _ _ HT2) as (w2 & Hr2 & Hw2).
    pose proof (fifo E w0 w1 q H0 Hr1) as F1. rewrite Hw1 in F1.
    assert (Hx : pair_at p (tr (wm w2)) = Some (e', m') /\ Some (e', m') <> None).
    { apply (waiting_pair E w0 w2 q p _ H0 Hr2). rewrite Hw2. unfold waiting. rewrite Own.acc_app, Own.tak_app. simpl. rewrite Nat.eqb_refl, app_nil_r, F1.
      rewrite <- app_assoc, skipn_app, skipn_all, Nat.sub_diag. simpl. apply in_or_app. right. left. reflexivity. }
    rewrite Hw2, pair_snoc in Hx. apply Hx.
  Qed.
  Lemma pair_same p h l : (forall t e m, ~ In (t, OWr (WrPair p e m)) l) -> pair_at p (h ++ l) = pair_at p h.
  Proof.
    intro Hn. induction l as [|[t o] l IH] using rev_ind; [rewrite app_nil_r; reflexivity|].
    rewrite app_assoc, pair_snoc. rewrite IH by (intros t' e m Hi; apply (Hn t' e m); apply in_or_app; auto).
    destruct o as [| | | | | | | | | | | | | | |x]; try reflexivity. destruct x as [| | | | | |p0 e m| | | | | | | |]; try reflexivity.
    destruct (Nat.eqb_spec p0 p) as [->|]; [|reflexivity]. exfalso. apply (Hn t e m). apply in_or_app. right. left. reflexivity.
  Qed.
  Lemma len_firstn i t o : on T i t o -> List.length (firstn i T) = i.
  Proof. intro Hi. apply firstn_length_le. assert (i < List.length T) by (apply nth_error_Some; unfold on in Hi; congruence). lia. Qed.

  (** a taken event comes from one offering; what precedes the one happens before what follows the other *)
  Lemma handover j t' q p c : on T j t' (OTake q p c) ->
    exists k t e m e', k < j /\ c = Some (e', m) /\ on T k t (OOffer q p e m e' m) /\
      none_between T (moves_in_queue q p) k j /\
      forall i o i' o', i <= k -> on T i t o -> j <= i' -> on T i' t' o' -> hb sw_min T i i'.
  Proof.
    intro Hj. pose proof (on_law T law _ _ _ Hj) as Hl. simpl in Hl.
    pose proof (on_split T _ _ _ Hj) as HTj. pose proof (len_firstn _ _ _ Hj) as Lj.
    assert (Hn : j < List.length T) by (apply nth_error_Some; unfold on in Hj; congruence).
    destruct (last_offer q p j Hl ltac:(lia)) as (k & t & e & m & e' & m' & H1 & H2 & H3 & H4).
    pose proof (on_split T _ _ _ H2) as HTk. pose proof (len_firstn _ _ _ H2) as Lk.
    destruct (take_content _ _ _ _ _ _ HTj) as [Hc _]. pose proof (offer_content _ _ _ _ _ _ _ _ _ HTk) as Hk.
    assert (m' = m) as ->.
    { destruct (own_inv E w0 w H0 Hr) as [gs Hg]. eapply (i_route _ _ _ Hg t q p e). rewrite HTk. apply in_or_app. right. left. reflexivity. }
    assert (Hsame : pair_at p (firstn j T) = pair_at p (firstn (S k) T)).
    { replace (firstn j T) with (firstn (S k) T ++ firstn (j - S k) (skipn (S k) T)).
      - apply pair_same. intros t1 e1 m1 Hin. apply In_nth_error in Hin. destruct Hin as [n Hin].
        assert (Hnl : n < j - S k).
        { assert (n < List.length (firstn (j - S k) (skipn (S k) T))) by (apply nth_error_Some; congruence).
          rewrite firstn_length in *. lia. }
        apply (H4 (S k + n) t1 e1 m1); [lia|lia|]. unfold on. rewrite <- Hin.
        rewrite <- (firstn_skipn (S k) T) at 1. rewrite nth_error_app2 by (rewrite firstn_length; lia).
        rewrite firstn_length_le by lia. replace (S k + n - S k) with n by lia.
        rewrite <- (firstn_skipn (j - S k) (skipn (S k) T)) at 1. rewrite nth_error_app1; [reflexivity|].
        rewrite firstn_length, skipn_length. lia.
      - replace j with (S k + (j - S k)) at 2 by lia. symmetry. apply firstn_app_2_skip. }
    exists k, t, e, m, e'. split; [exact H1|]. split.
    { rewrite <- Hc, Hsame, (firstn_on T _ _ _ H2), pair_snoc. exact Hk. }
    split; [exact H2|]. split; [exact H3|].
    intros i o i' o' Hik Hi Hji Hi'.
    assert (Hsw : hb sw_min T k j) by (apply hb_sw; [exact H1|eapply sw_queue; eauto]).
    assert (Hkj : hb sw_min T i j).
    { destruct (Nat.eq_dec i k) as [->|]; [exact Hsw|]. eapply hb_trans; [|exact Hsw]. eapply hb_po; eauto. lia. }
    destruct (Nat.eq_dec i' j) as [->|]; [exact Hkj|]. eapply hb_trans; [exact Hkj|]. eapply hb_po; eauto. lia.
  Qed.

  (** before an event is accepted the call that fires it asks isEnded() *)
  Lemma asks_ended t a op b kd its q p e m e' m' r :
    T = a ++ (t, op) :: b ++ (t, OOffer q p e m e' m') :: r -> opens op = Some kd -> fst (scan t b) = [(FRoot, its)] ->
    fires E kd m e /\ exists b1 b2, b = b1 ++ (t, ORd (RdEnded m false)) :: b2.
  Proof.
    intros HT Hop Hs.
    assert (HT' : T = (a ++ (t, op) :: b) ++ (t, OOffer q p e m e' m') :: r) by (rewrite <- app_assoc; exact HT).
    destruct (placed_frame E w0 w H0 Hr _ _ _ _ HT' eq_refl) as (k & its' & u & Hst & Hf).
    rewrite (stack_at t a op b kd [] its Hop Hs) in Hst. simpl in Hst. injection Hst as <- <- _.
    split.
    { pose proof (frame_may E _ _ _ Hf) as Hm. apply Forall_app in Hm. destruct Hm as [_ Hm]. inversion Hm as [|? ? Hx _]; subst.
      eapply may_offer; exact Hx. }
    assert (Hg : asked m its).
    { assert (Hk : fires E kd m e).
      { pose proof (frame_may E _ _ _ Hf) as Hm. apply Forall_app in Hm. destruct Hm as [_ Hm]. inversion Hm as [|? ? Hx _]; subst.
        eapply may_offer; exact Hx. }
      destruct kd as [|x|c|q1 p1 c1]; try contradiction; destruct Hf as (ext & z & Hn);
        apply (gl_node E guarded guarded_app guarded_plain (guarded_fire E)) in Hn; rewrite <- app_assoc in Hn;
        eapply Hn; reflexivity. }
    destruct Hg as [Hin|(j1 & j2 & ->)].
    - apply in_split in Hin. destruct Hin as (j1 & j2 & ->).
      destruct (item_inv t b [] j1 _ j2 Hs eq_refl) as (b1 & b2 & -> & _). eauto.
    - exfalso.
      assert (Hs2 : fst (scan t b) = [] ++ [(FRoot, (j1 ++ [R (RdStarted m true)]) ++ R (RdStarted m false) :: j2)])
        by (rewrite <- app_assoc; exact Hs).
      destruct (item_inv t b [] _ _ _ Hs2 eq_refl) as (b2 & b3 & Hb & S2).
      destruct (item_inv t b2 [] _ _ _ S2 eq_refl) as (b1 & b1' & Hb2 & _). subst b2 b.
      assert (R1 : true = started_at m (a ++ (t, op) :: b1)).
      { apply (read_true E w0 w H0 Hr t _ (RdStarted m true) (b1' ++ (t, ORd (RdStarted m false)) :: b3 ++ (t, OOffer q p e m e' m') :: r)).
        rewrite HT. repeat (rewrite <- ?app_assoc; simpl). reflexivity. }
      assert (R2 : false = started_at m (a ++ (t, op) :: b1 ++ (t, ORd (RdStarted m true)) :: b1')).
      { apply (read_true E w0 w H0 Hr t _ (RdStarted m false) (b3 ++ (t, OOffer q p e m e' m') :: r)).
        rewrite HT. repeat (rewrite <- ?app_assoc; simpl). reflexivity. }
      symmetry in R1. destruct (started_witness _ _ R1) as [t1 Hin].
      rewrite (started_in m _ t1) in R2; [discriminate|]. rewrite app_comm_cons, app_assoc. apply in_or_app. left. exact Hin.
  Qed.

  Lemma published i t0 t a op b kd its q p e m e' m' r :
    on T i t0 (OUnended m) -> T = a ++ (t, op) :: b ++ (t, OOffer q p e m e' m') :: r -> opens op = Some kd ->
    fst (scan t b) = [(FRoot, its)] -> i < List.length a -> hb sw_min T i (List.length (a ++ (t, op) :: b)).
  Proof.
    intros Hi HT Hop Hs Hlt. destruct (asks_ended _ _ _ _ _ _ _ _ _ _ _ _ _ HT Hop Hs) as [_ (b1 & b2 & ->)].
    assert (H1 : on T (List.length (a ++ (t, op) :: b1)) t (ORd (RdEnded m false))).
    { apply (on_at _ _ _ (b2 ++ (t, OOffer q p e m e' m') :: r)). rewrite HT. repeat (rewrite <- ?app_assoc; simpl). reflexivity. }
    assert (H2 : on T (List.length (a ++ (t, op) :: b1 ++ (t, ORd (RdEnded m false)) :: b2)) t (OOffer q p e m e' m')).
    { apply (on_at _ _ _ r). rewrite HT. repeat (rewrite <- ?app_assoc; simpl). reflexivity. }
    eapply hb_trans with (j := List.length (a ++ (t, op) :: b1)).
    - apply hb_sw; [rewrite app_length; lia|]. eapply sw_ended; [exact Hi|auto|exact H1].
    - eapply hb_po; [|exact H1|exact H2]. rewrite !app_length. simpl. rewrite app_length. simpl. lia.
  Qed.
  (** with the processing of the event *)
  Lemma start_visible i t0 t a op b kd its q p e m e' m' r j t' c :
    on T i t0 (OUnended m) -> T = a ++ (t, op) :: b ++ (t, OOffer q p e m e' m') :: r -> opens op = Some kd ->
    fst (scan t b) = [(FRoot, its)] -> i < List.length a \/ (t = t0 /\ i < List.length (a ++ (t, op) :: b)) ->
    on T j t' (OTake q p c) -> List.length (a ++ (t, op) :: b) < j ->
    none_between T (moves_in_queue q p) (List.length (a ++ (t, op) :: b)) j ->
    forall i' o i1 o1, i' <= i -> on T i' t0 o -> j <= i1 -> on T i1 t' o1 -> hb sw_min T i' i1.
  Proof.
    intros Hi HT Hop Hs Hlt Hj Hkj Hno i' o i1 o1 Hle Hi' Hj1 Hi1.
    assert (H2 : on T (List.length (a ++ (t, op) :: b)) t (OOffer q p e m e' m')).
    { apply (on_at _ _ _ r). rewrite HT, <- app_assoc. reflexivity. }
    assert (Hik : hb sw_min T i (List.length (a ++ (t, op) :: b))).
    { destruct Hlt as [Hlt|[-> Hlt]]; [eapply published; eauto|]. eapply hb_po; eauto. }
    assert (Hij : hb sw_min T i j).
    { eapply hb_trans; [exact Hik|]. apply hb_sw; [exact Hkj|]. eapply sw_queue; eauto. }
    assert (H3 : hb sw_min T i' j).
    { destruct (Nat.eq_dec i' i) as [->|]; [exact Hij|]. eapply hb_trans; [|exact Hij]. eapply hb_po; eauto. lia. }
    destruct (Nat.eq_dec i1 j) as [->|]; [exact H3|]. eapply hb_trans; [exact H3|]. eapply hb_po; eauto. lia.
  Qed.

  (** a machine used that way has no data race on its current state *)
  Lemma confined_race_free P m t0 i0 : private_queue E m -> one_thread E m -> on T i0 t0 (OUnended m) ->
    fired_after E T m t0 i0 -> confined E P T m t0 i0 ->
    forall i j t t' o o', i < j -> on T i t o -> on T j t' o' -> P o -> P o' -> hb sw_min T i j.
  Proof.
    intros Hp Ho Hi0 Hfa Hcf i j t t' o o' Hlt Hi Hj Hto Hto'.
    assert (Hw : forall n t1 o1 p e its1, on T n t1 o1 -> opened t1 (firstn n T) (FTake (queue_of E m) p (Some (e, m))) its1 ->
       t1 = worker_of E m /\ hb sw_min T i0 n).
    { intros n t1 o1 p e its1 Hn Hopn. pose proof (on_split T _ _ _ Hn) as HTn. pose proof (len_firstn _ _ _ Hn) as Ln.
      destruct (take_worker E w0 w H0 Hr m Hp Ho _ _ _ _ _ _ HTn Hopn) as [Hwk _]. split; [exact Hwk|].
      destruct (opened_inv _ _ _ _ Hopn ltac:(discriminate)) as (a & op & b & v & Htr & Hop' & _).
      destruct op; try discriminate. injection Hop' as -> -> ->.
      assert (Hon : on T (List.length a) t1 (OTake (queue_of E m) p (Some (e, m)))).
      { eapply on_at. rewrite HTn, Htr, <- app_assoc. reflexivity. }
      assert (Hln : List.length a < n) by (rewrite <- Ln, Htr, app_length; simpl; lia).
      destruct (handover _ _ _ _ _ Hon) as (k & tk & e0 & m0 & e' & Hk & Hc & Hof & Hno & _).
      injection Hc as <- <-. pose proof (on_split T _ _ _ Hof) as HTk. pose proof (len_firstn _ _ _ Hof) as Lk.
      destruct (placed_frame E w0 w H0 Hr _ _ _ _ HTk eq_refl) as (kd & its & u & Hst & Hfr).
      assert (Hkd : kd <> FRoot).
      { intros ->. apply frame_may in Hfr. apply Forall_app in Hfr. destruct Hfr as [_ Hfr]. inversion Hfr as [|? ? Hx _]; subst.
        apply may_offer in Hx. exact Hx. }
      destruct (top_bracket _ _ _ _ _ Hst Hkd) as (a' & op' & b' & Hh & Hop' & Hsb & _).
      assert (HT2 : T = a' ++ (tk, op') :: b' ++ (tk, OOffer (queue_of E m) p e0 m e m) :: skipn (S k) T).
      { rewrite HTk at 1. rewrite Hh, <- app_assoc. reflexivity. }
      assert (Hkl : List.length (a' ++ (tk, op') :: b') = k) by (rewrite <- Hh; exact Lk).
      eapply (start_visible i0 t0 tk a' op' b' kd its _ p e0 m e m _ (List.length a) t1 _ Hi0 HT2 Hop' Hsb).
      - eapply Hfa; eauto.
      - exact Hon.
      - rewrite Hkl. exact Hk.
      - rewrite Hkl. exact Hno.
      - apply Nat.le_refl.
      - exact Hi0.
      - apply Nat.lt_le_incl, Hln.
      - exact Hn. }
    destruct (Hcf _ _ _ Hi Hto) as [[-> Hle]|(p1 & e1 & its1 & O1)]; destruct (Hcf _ _ _ Hj Hto') as [[-> Hle']|(p2 & e2 & its2 & O2)].
    - eapply hb_po; eauto.
    - destruct (Hw _ _ _ _ _ _ Hj O2) as [_ H]. destruct (Nat.eq_dec i i0) as [->|]; [exact H|].
      eapply hb_trans; [|exact H]. eapply hb_po; eauto. lia.
    - exfalso. destruct (Hw _ _ _ _ _ _ Hi O1) as [_ H]. assert (i0 < i) by (eapply hb_lt; exact H). lia.
    - destruct (Hw _ _ _ _ _ _ Hi O1) as [-> _]. destruct (Hw _ _ _ _ _ _ Hj O2) as [-> _]. eapply hb_po; eauto.
  Qed.

  (** what the application did before it released the main thread *)
  Lemma first_latch (p : apid) (h : trace) : (exists t, In (t, OWr (WrLatch p)) h) ->
    exists l1 t l2, h = l1 ++ (t, OWr (WrLatch p)) :: l2 /\ forall t', ~ In (t', OWr (WrLatch p)) l1.
  Proof.
    assert (Hd : forall o, {o = OWr (WrLatch p)} + {o <> OWr (WrLatch p)}).
    { intro o. destruct o as [| | | | | | | | | | | | | | |x]; try (right; discriminate). destruct x; try (right; discriminate).
      destruct (Nat.eq_dec p0 p) as [->|]; [left; reflexivity|right; congruence]. }
    induction h as [|[t o] h IH]; intros [t1 Hin]; [destruct Hin|].
    destruct (Hd o) as [->|N].
    - exists [], t, h. split; [reflexivity|]. intros t' [].
    - destruct Hin as [Hin|Hin]; [injection Hin as _ ->; congruence|]. destruct IH as (l1 & t2 & l2 & -> & Hn); [eauto|].
      exists ((t, o) :: l1), t2, l2. split; [reflexivity|]. intros t' [H|H]; [injection H as _ ->; congruence|]. eapply Hn, H.
  Qed.
  Lemma shutdown_visible t a b its d p : span t T a (OInv (AAppStart p)) b its (ORet (AAppStart p) RvUnit) d ->
    In (OStarted (ap_mach (apps E p))) its -> ~ In (OLog "Main latch was interrupted") its ->
    exists i t', on T i t' (OWr (WrLatch p)) /\ (forall k t1, on T k t1 (OWr (WrLatch p)) -> i <= k) /\
      forall i' o j' o', i' <= i -> on T i' t' o -> List.length (a ++ (t, OInv (AAppStart p)) :: b) <= j' -> on T j' t o' ->
        hb sw_min T i' j'.
  Proof.
    intros Hs Hst Hlog. pose proof (span_node E w0 w H0 Hr _ _ _ _ _ _ _ (FApi (AAppStart p)) Hs eq_refl) as [_ (x & Hx & Hl)].
    destruct x; [discriminate|]. destruct Hl as (c & o & Hi & Hl).
    assert (Hnf : forall m e x out, fireL E m e x out -> ~ In (OStarted (ap_mach (apps E p))) out).
    { intros m e x out Hf Hin. apply only_fire in Hf. rewrite Forall_forall in Hf. apply Hf in Hin. dmay; discriminate. }
    destruct Hl as [(o' & -> & Hl)|(o' & -> & Hl)].
    2:{ exfalso. rewrite Hi in Hst. destruct Hst as [Hst|[Hst|Hst]]; try discriminate.
        destruct (andb _ _); [exact (Hnf _ _ _ _ Hl Hst)|]. destruct Hl. discriminate. }
    destruct Hl as [(y & Hy & _)|(o1 & o2 & -> & _ & [(y & Hy & _)|(o3 & o4 & -> & _ & [(y & Hy & _)|(o5 & o6 & -> & Haw & _)])])];
      try discriminate.
    destruct Haw as [_ [->| ->]].
    2:{ exfalso. apply Hlog. rewrite Hi. simpl. right. right. repeat (apply in_or_app; right). simpl. auto. }
    assert (Hin : exists i1 i2, its = i1 ++ OWr (WrAwait p false) :: i2).
    { exists (R (RdCur (ap_mach (apps E p)) c) :: R (RdStarted (ap_mach (apps E p)) false) :: o1 ++ o3), o6. rewrite Hi.
      simpl; repeat (rewrite <- ?app_assoc; simpl); reflexivity. }
    destruct Hin as (i1 & i2 & Hin).
    destruct (item_moment w _ _ _ _ _ _ _ _ _ _ Hs Hin eq_refl) as (b1 & b2 & Hb & _ & HT).
    destruct (truth E w0 w (im_tr _ _ H0) Hr) as [_ Ht]. destruct (Ht _ _ _ _ HT) as [Hw _]. simpl in Hw.
    rewrite (im_latches _ _ H0) in Hw. apply latch_of_in in Hw. destruct (first_latch _ _ Hw) as (l1 & t' & l2 & Hh & Hn).
    assert (HL : on T (List.length l1) t' (OWr (WrLatch p))).
    { apply (on_at _ _ _ (l2 ++ (t, OWr (WrAwait p false)) :: b2 ++ (t, ORet (AAppStart p) RvUnit) :: d)).
      rewrite HT, Hh, <- app_assoc. reflexivity. }
    pose proof (on_at _ _ _ _ HT) as HA.
    assert (Hfirst : forall k t1, k < List.length l1 -> ~ on T k t1 (OWr (WrLatch p))).
    { intros k t1 Hk Hon. apply (Hn t1). unfold on in Hon. rewrite HT, Hh, <- app_assoc, nth_error_app1 in Hon by lia.
      eapply nth_error_In, Hon. }
    exists (List.length l1), t'. split; [exact HL|]. split.
    { intros k t1 Hon. destruct (Nat.le_gt_cases (List.length l1) k) as [|Hk]; [assumption|]. exfalso. eapply Hfirst; eauto. }
    intros i' ob j' ob' Hi' Hoi Hj' Hoj.
    set (n := List.length (a ++ (t, OInv (AAppStart p)) :: b1)) in *.
    assert (Hln : List.length l1 < n) by (unfold n; rewrite Hh, app_length; simpl; lia).
    assert (Hnj : n < j').
    { unfold n in *. rewrite Hb in Hj'. rewrite !app_length in *. simpl in *. rewrite app_length in Hj'. simpl in Hj'. lia. }
    assert (Hsw : hb sw_min T (List.length l1) n) by (apply hb_sw; [exact Hln|eapply sw_latch; eauto]).
    eapply hb_trans; [|eapply hb_po; [exact Hnj|exact HA|exact Hoj]].
    destruct (Nat.eq_dec i' (List.length l1)) as [->|]; [exact Hsw|]. eapply hb_trans; [|exact Hsw]. eapply hb_po; eauto. lia.
  Qed.
End Hb.
