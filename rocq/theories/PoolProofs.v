(** * PoolProofs.v: how many pair objects are made (C68) *)
From Verif Require Import Sched Logic Neutral OwnSpec Own Hands BoundSpec PoolSpec BoundProofs.

Inductive phase : Set := Idle | Seen | Miss (b : bool).
Definition G2 : Set := (list (pid * bool) * phase)%type.
Definition nomiss (s : phase) : Prop := match s with Miss _ => False | _ => True end.
Definition missn (s : phase) : nat := match s with Miss true => 1 | _ => 0 end.
Definition missa (s : phase) : nat := match s with Miss _ => 1 | _ => 0 end.
Definition missb (s : phase) : bool := match s with Miss true => true | _ => false end.

Section Pool.
  Context (E : env) (q0 : qid) (l0 : plid).
  Context (Hbel : belong E q0 l0).
  Notation isq q := (Nat.eqb q q0).
  Notation isl l := (Nat.eqb l l0).
  Lemma bel k : isq (s_queue (strat E k)) = isl (s_pool (strat E k)).
  Proof.
    destruct (Nat.eqb_spec (s_queue (strat E k)) q0) as [H|H], (Nat.eqb_spec (s_pool (strat E k)) l0) as [H'|H']; auto;
      apply Hbel in H || apply Hbel in H'; contradiction.
  Qed.

  Definition pre2 (t : tid) (g : G2) (i : instr) : Prop :=
    match i with
    | INewPair => exists b, snd g = Miss b
    | IPoolPoll _ => snd g = Seen /\ List.length (fst g) + 1 <= in_hands t
    | IQPoll _ | ICall _ => nomiss (snd g) /\ List.length (fst g) + 1 <= in_hands t
    | IQOffer q p _ _ _ => nomiss (snd g) /\ exists g0, fst g = (p, isq q) :: g0
    | IPoolOffer l p => nomiss (snd g) /\ exists g0, fst g = (p, isl l) :: g0
    | _ => nomiss (snd g)
    end.
  Definition post2 (t : tid) (g : G2) (i : instr) : iret i -> G2 -> Prop :=
    match i return iret i -> G2 -> Prop with
    | IPoolPoll l => fun v g' => match v with None => g' = (fst g, Miss (isl l)) | Some p => g' = ((p, isl l) :: fst g, Seen) end
    | INewPair => fun v g' => exists b, snd g = Miss b /\ g' = ((v, b) :: fst g, Seen)
    | IQPoll q => fun v g' => match v with None => g' = g | Some p => g' = ((p, isq q) :: fst g, snd g) end
    | IQOffer _ _ _ _ _ | IPoolOffer _ _ => fun _ g' => g' = (tl (fst g), snd g)
    | IQSize _ _ => fun _ g' => g' = (fst g, Seen)
    | ICall _ => fun _ g' => fst g' = fst g /\ nomiss (snd g')
    | _ => fun _ g' => g' = g
    end.

  Definition numh (home : pid -> bool) (n : nat) : nat := List.length (filter home (List.seq 0 n)).
  Record pl (w : mem) (g1 : tid -> held) (g2 : tid -> G2) (home : pid -> bool) : Prop := {
    pl_link : forall t, map fst (fst (g2 t)) = map fst (g1 t);
    pl_pool : forall l p, In p (pools w l) -> home p = isl l;
    pl_queue : forall q p, In p (queues w q) -> home p = isq q;
    pl_held : forall t p b, In (p, b) (fst (g2 t)) -> home p = b;
    pl_seen : forall t, g2 t <> ([], Idle) -> In t (map fst (tr w));
    pl_room : forall t, List.length (fst (g2 t)) + missa (snd (g2 t)) <= in_hands t;
    pl_off : forall t p e m e' m', In (t, OOffer q0 p e m e' m') (tr w) -> home p = true /\ p < npair w;
    pl_count : exists ms h r, NoDup ms /\ (forall t, snd (g2 t) = Miss true <-> In t ms) /\ tr w = h ++ r /\
      numh home (npair w) + List.length ms <= List.length (waiting q0 h) + room h }.
  Definition pinv (w : mem) (gs : tid -> held * G2) : Prop :=
    inv E w (fun t => fst (gs t)) /\ exists home, pl w (fun t => fst (gs t)) (fun t => snd (gs t)) home.

  (** steps that do not matter *)
  Lemma pl_same w w' g1 g1' g2 g2' home t :
    npair w' = npair w -> pools w' = pools w -> queues w' = queues w ->
    tr w' = tr w \/ (exists o, tr w' = tr w ++ [(t, o)] /\ match o with OOffer _ _ _ _ _ _ => False | _ => True end) ->
    (forall t', map fst (g1' t') = map fst (g1 t')) ->
    (forall t', fst (g2' t') = fst (g2 t')) ->
    (forall t', snd (g2' t') = snd (g2 t') \/ (t' = t /\ snd (g2' t') = Seen /\ nomiss (snd (g2 t')) /\ In t (map fst (tr w')))) ->
    pl w g1 g2 home -> pl w' g1' g2' home.
  Proof.
    intros En Ep Eq Et Eg Ef Es [H1 H2 H3 H4 H5 H6 H7 (ms & h & r & C1 & C2 & C3 & C4)].
    assert (Hin : forall x, In x (map fst (tr w)) -> In x (map fst (tr w'))).
    { intros x Hx. destruct Et as [->|(o & -> & _)]; [exact Hx|]. rewrite map_app. apply in_or_app. auto. }
    assert (Hm : forall t', snd (g2' t') = Miss true <-> snd (g2 t') = Miss true).
    { intro t'. destruct (Es t') as [->|(_ & -> & Hn & _)]; [reflexivity|]. split; [discriminate|]. intro X. rewrite X in Hn. destruct Hn. }
    split.
    - intro t'. rewrite Ef, Eg. apply H1.
    - intros l p. rewrite Ep. apply H2.
    - intros q p. rewrite Eq. apply H3.
    - intros t' p b. rewrite Ef. apply H4.
    - intros t' Hne. destruct (Es t') as [X|(-> & _ & _ & X)]; [|exact X]. apply Hin, H5. intro Y. apply Hne.
      specialize (Ef t'). rewrite Y in Ef, X. destruct (g2' t'). simpl in *. congruence.
    - intro t'. rewrite Ef. destruct (Es t') as [->|(_ & -> & _)]; [apply H6|]. pose proof (H6 t'). simpl. lia.
    - intros t' p e m e' m' Hi. rewrite En. apply (H7 t' p e m e' m').
      destruct Et as [<-|(o & X & Ho)]; [exact Hi|]. rewrite X in Hi. apply in_app_or in Hi. destruct Hi as [Hi|[Hi|[]]]; [exact Hi|].
      injection Hi as -> ->. destruct Ho.
    - exists ms, h. destruct Et as [->|(o & -> & _)]; [exists r|exists (r ++ [(t, o)])]; rewrite En;
        (split; [exact C1|]); (split; [intro; rewrite Hm; apply C2|]); (split; [rewrite C3, <- ?app_assoc; reflexivity|exact C4]).
  Qed.

  Lemma gupd_map {X} (g : tid -> X) t (x : X) {Y} (f : X -> Y) : f x = f (g t) -> forall t', f (gupd g t x t') = f (g t').
  Proof. intros H t'. unfold gupd. destruct (tid_eq_dec t' t) as [->|]; auto. Qed.

  (** steps of thread t that change nothing but its phase *)
  Lemma pl_calm w w' g1 g1' g2 g2' home t :
    npair w' = npair w -> pools w' = pools w -> queues w' = queues w ->
    tr w' = tr w \/ (exists o, tr w' = tr w ++ [(t, o)] /\ match o with OOffer _ _ _ _ _ _ => False | _ => True end) ->
    map fst g1' = map fst (g1 t) ->
    g2' = g2 t \/ (g2' = (fst (g2 t), Seen) /\ nomiss (snd (g2 t)) /\ In t (map fst (tr w'))) ->
    pl w g1 g2 home -> pl w' (gupd g1 t g1') (gupd g2 t g2') home.
  Proof.
    intros En Ep Eq Et Eg Es. apply (pl_same w w' g1 _ g2 _ home t En Ep Eq Et).
    - apply gupd_map. exact Eg.
    - apply gupd_map. destruct Es as [->|[-> _]]; reflexivity.
    - intro t'. unfold gupd. destruct (tid_eq_dec t' t) as [->|]; [|left; reflexivity].
      destruct Es as [->|(-> & Hn & Hi)]; [left; reflexivity|right; auto].
  Qed.

  Lemma numh_ext f g n : (forall p, p < n -> f p = g p) -> numh f n = numh g n.
  Proof.
    intro H. unfold numh. f_equal. apply filter_ext_in. intros p Hp. apply in_seq in Hp. apply H. lia.
  Qed.
  Lemma numh_S f n : numh f (S n) = numh f n + (if f n then 1 else 0).
  Proof. unfold numh. rewrite seq_S, filter_app, app_length. simpl. destruct (f n); reflexivity. Qed.
  Lemma room_snoc h x : room h <= room (h ++ [x]).
  Proof.
    unfold room, threads_of. rewrite map_app. simpl.
    assert (H : forall l L, NoDup l -> incl l L -> list_sum (map in_hands l) <= list_sum (map in_hands L)).
    { induction l as [|a l IH]; intros L Hd Hi; simpl; [lia|]. inversion Hd as [|? ? Ha Hd']; subst.
      destruct (in_split a L) as (L1 & L2 & ->); [apply Hi; left; reflexivity|].
      specialize (IH (L1 ++ L2) Hd'). rewrite map_app, list_sum_app in *. simpl.
      assert (incl l (L1 ++ L2)).
      { intros y Hy. assert (In y (L1 ++ a :: L2)) by (apply Hi; right; exact Hy). rewrite in_app_iff in *. simpl in *.
        destruct H as [|[->|]]; auto. contradiction. }
      specialize (IH H). lia. }
    apply H; [apply NoDup_nodup|]. intros y Hy. rewrite nodup_In in *. apply in_or_app. left. exact Hy.
  Qed.
  Lemma sum_le {A} (f g : A -> nat) l : (forall x, f x <= g x) -> list_sum (map f l) <= list_sum (map g l).
  Proof. intro H. induction l as [|a l IH]; simpl; [lia|]. specialize (H a). lia. Qed.
  Lemma sum_add {A} (f g : A -> nat) l : list_sum (map (fun x => f x + g x) l) = list_sum (map f l) + list_sum (map g l).
  Proof. induction l as [|a l IH]; simpl; [reflexivity|]. lia. Qed.
  Lemma flat_sum {A B} (f : A -> list B) l : List.length (flat_map f l) = list_sum (map (fun x => List.length (f x)) l).
  Proof. induction l as [|a l IH]; simpl; [reflexivity|]. rewrite app_length. lia. Qed.
  Lemma filter_sum {A} (f : A -> bool) (g : A -> nat) l : (forall x, g x = if f x then 1 else 0) -> List.length (filter f l) = list_sum (map g l).
  Proof. intro H. induction l as [|a l IH]; simpl; [reflexivity|]. rewrite H. destruct (f a); simpl; lia. Qed.

  (** the pool of [l0] is empty: all its pairs are in use *)
  Lemma all_in_use w g1 g2 home : inv E w g1 -> pl w g1 g2 home -> pools w l0 = [] ->
    numh home (npair w) + List.length (filter (fun t => missb (snd (g2 t))) (threads_of (tr w))) <=
    List.length (waiting q0 (tr w)) + list_sum (map (fun t => List.length (fst (g2 t)) + missn (snd (g2 t))) (threads_of (tr w))).
  Proof.
    intros Hi Hl He. destruct Hi as [[loc [H1 H2 H3 H4 _ _ _ _ _]] Hf _ _ _]. destruct Hl as [L1 L2 L3 L4 L5 L6 L7 _].
    rewrite sum_add. rewrite (filter_sum _ (fun t => missn (snd (g2 t)))) by (intro x; destruct (snd (g2 x)) as [| |[|]]; reflexivity).
    assert (Hw : List.length (waiting q0 (tr w)) = List.length (queues w q0)).
    { rewrite waiting_length, Hf, app_length, map_length. lia. }
    rewrite Hw. assert (Hn : numh home (npair w) <= List.length (queues w q0 ++ flat_map (fun t => map fst (fst (g2 t))) (threads_of (tr w)))).
    { apply NoDup_incl_length; [apply NoDup_filter, seq_NoDup|]. intros p Hp. apply filter_In in Hp. destruct Hp as [Hp Hh]. apply in_seq in Hp.
      apply in_or_app. destruct (loc p) as [|l|q|t] eqn:El.
      - apply H1 in El. lia.
      - pose proof El as Hx. apply H2 in Hx. pose proof (L2 _ _ Hx) as Hy. rewrite Hh in Hy. symmetry in Hy. apply Nat.eqb_eq in Hy. subst l. rewrite He in Hx. destruct Hx.
      - apply H3 in El. pose proof (L3 _ _ El) as Hy. rewrite Hh in Hy. symmetry in Hy. apply Nat.eqb_eq in Hy. subst q. left. exact El.
      - right. apply H4 in El. rewrite <- L1 in El. apply in_flat_map. exists t. split; [|exact El].
        unfold threads_of. apply nodup_In. apply L5. intro X. rewrite X in El. destruct El. }
    rewrite app_length, flat_sum in Hn.
    rewrite (map_ext _ (fun x => List.length (fst (g2 x)))) in Hn by (intro; apply map_length). lia.
  Qed.

  Lemma nomiss_not s : nomiss s -> s <> Miss true.
  Proof. destruct s; simpl; [discriminate|discriminate|contradiction]. Qed.
  Lemma remove_len (t : tid) ms : NoDup ms -> In t ms -> S (List.length (remove tid_eq_dec t ms)) = List.length ms.
  Proof.
    intros Hd Hi. apply in_split in Hi. destruct Hi as (a & b & ->). apply NoDup_remove in Hd. destruct Hd as [_ Hn].
    rewrite in_app_iff in Hn. rewrite remove_app. simpl. destruct (tid_eq_dec t t); [|contradiction].
    rewrite !notin_remove by tauto. rewrite !app_length. simpl. lia.
  Qed.

  Lemma exec_pl w g1 g2 home t i v w' g1' :
    inv E w g1 -> pl w g1 g2 home -> pre E t (g1 t) i -> pre2 t (g2 t) i -> exec E w t i = Some (v, w') -> post t (g1 t) i v g1' ->
    exists g2' home', post2 t (g2 t) i v g2' /\ pl w' (gupd g1 t g1') (gupd g2 t g2') home'.
  Proof.
    intros Hi Hl Hp1 Hp2 Hx Hpost.
    assert (Hsame : npair w' = npair w -> pools w' = pools w -> queues w' = queues w ->
        tr w' = tr w \/ (exists o, tr w' = tr w ++ [(t, o)] /\ match o with OOffer _ _ _ _ _ _ => False | _ => True end) ->
        map fst g1' = map fst (g1 t) -> pl w' (gupd g1 t g1') (gupd g2 t (g2 t)) home).
    { intros. eapply pl_calm; eauto. }
    Ltac byrule := first [left; reflexivity|right; eexists; split; [reflexivity|exact I]].
    destruct i; simpl in Hx, Hpost, Hp1, Hp2;
      try (exists (g2 t), home; split; [reflexivity|];
           repeat match type of Hx with
             | (if ?b then _ else _) = _ => destruct b
             | match ?b with _ => _ end = _ => destruct b eqn:?
             end; try discriminate; injection Hx as <- <-;
           apply Hsame; try reflexivity; [byrule|rewrite Hpost; reflexivity]).
    - (* ICasStarted *)
      exists (g2 t), home. split; [reflexivity|].
      destruct (m_started (machs w m)); injection Hx as <- <-; (apply Hsame; try reflexivity; [byrule|rewrite Hpost; reflexivity]).
    - (* ICasEnded *)
      exists (g2 t), home. split; [reflexivity|].
      destruct (m_ended (machs w m)); [|destruct b]; injection Hx as <- <-; (apply Hsame; try reflexivity; [byrule|rewrite Hpost; reflexivity]).
    - (* INewPair *)
      injection Hx as <- <-. destruct Hp2 as [b Hb]. subst g1'.
      exists ((npair w, b) :: fst (g2 t), Seen), (upd home (npair w) b). split; [exists b; auto|].
      destruct Hi as [[loc [H1 H2 H3 H4 _ _ _ _ _]] Hf _ _ _]. destruct Hl as [L1 L2 L3 L4 L5 L6 L7 (ms & h & r & C1 & C2 & C3 & C4)].
      assert (Hfr : loc (npair w) = PFresh) by (apply H1; lia).
      assert (Hold : forall p, loc p <> PFresh -> upd home (npair w) b p = home p).
      { intros p Hne. unfold upd. destruct (Nat.eqb_spec p (npair w)); congruence. }
      split; simpl.
      + intro t'. unfold gupd. destruct (tid_eq_dec t' t) as [->|]; simpl; [f_equal|]; apply L1.
      + intros l p Hin. rewrite Hold; [eauto|]. apply H2 in Hin. congruence.
      + intros q p Hin. rewrite Hold; [eauto|]. apply H3 in Hin. congruence.
      + intros t' p b'. assert (Hrest : In (p, b') (fst (g2 t')) -> upd home (npair w) b p = b').
        { intro Hin. rewrite Hold; [eauto|]. apply (in_map fst) in Hin. rewrite L1 in Hin. apply H4 in Hin. simpl in Hin. congruence. }
        unfold gupd. destruct (tid_eq_dec t' t) as [->|]; simpl; auto. intros [Heq|Hin]; auto. injection Heq as <- <-. unfold upd. rewrite Nat.eqb_refl. reflexivity.
      + intros t' Hne. rewrite map_app. apply in_or_app. unfold gupd in Hne. destruct (tid_eq_dec t' t) as [->|]; [right; left; reflexivity|left; apply L5; exact Hne].
      + intro t'. unfold gupd. destruct (tid_eq_dec t' t) as [->|]; simpl; [|apply L6]. specialize (L6 t). rewrite Hb in L6.
        simpl in L6. lia.
      + intros t' p e m e' m' Hin. apply in_app_or in Hin. destruct Hin as [Hin|[Hin|[]]]; [|discriminate].
        destruct (L7 _ _ _ _ _ _ Hin) as [Ha Hb']. split; [|lia]. rewrite Hold; [exact Ha|]. intro X. apply H1 in X. lia.
      + rewrite numh_S. rewrite (numh_ext _ home) by (intros p Hp; unfold upd; destruct (Nat.eqb_spec p (npair w)); [lia|reflexivity]).
        assert (Hb' : upd home (npair w) b (npair w) = b) by (unfold upd; rewrite Nat.eqb_refl; reflexivity). rewrite Hb'.
        destruct b.
        * exists (remove tid_eq_dec t ms), h, (r ++ [(t, OWr (WrGot (npair w)))]).
          assert (Hit : In t ms) by (apply C2; exact Hb).
          split; [apply NoDup_remove_all; exact C1|]. split; [|split; [rewrite C3, <- app_assoc; reflexivity|pose proof (remove_len t ms C1 Hit); lia]].
          intro t'. unfold gupd. destruct (tid_eq_dec t' t) as [->|Hne]; simpl.
          -- split; [discriminate|]. intro X. exfalso. apply (remove_In tid_eq_dec ms t). exact X.
          -- rewrite C2. split; [apply in_in_remove; exact Hne|intro X; apply in_remove in X; tauto].
        * exists ms, h, (r ++ [(t, OWr (WrGot (npair w)))]).
          split; [exact C1|]. split; [|split; [rewrite C3, <- app_assoc; reflexivity|lia]].
          intro t'. unfold gupd. destruct (tid_eq_dec t' t) as [->|Hne]; simpl; [|apply C2].
          rewrite <- C2, Hb. split; discriminate.
    - (* ISetPair *)
      injection Hx as <- <-. exists (g2 t), home. split; [reflexivity|]. apply Hsame; try reflexivity; [byrule|].
      destruct Hp1 as (c0 & g0 & Hg). rewrite Hpost, Hg. reflexivity.
    - (* IGetPair *)
      injection Hx as <- <-. exists (g2 t), home. split; [reflexivity|]. apply Hsame; try reflexivity; [byrule|].
      destruct Hpost as [-> _]. reflexivity.
    - (* IPoolPoll *)
      destruct Hp2 as [Hs Hr].
      destruct (pools w l) as [|p r] eqn:El; injection Hx as <- <-.
      + exists (fst (g2 t), Miss (isl l)), home. split; [reflexivity|]. subst g1'.
        assert (Hns : g2 t <> ([], Idle)) by (intro X; rewrite X in Hs; discriminate).
        pose proof Hl as [L1 L2 L3 L4 L5 L6 L7 (ms & h & r & C1 & C2 & C3 & C4)].
        assert (L1' : forall t', map fst (fst (gupd g2 t (fst (g2 t), Miss (isl l)) t')) = map fst (gupd g1 t (g1 t) t')).
        { intro t'. unfold gupd. destruct (tid_eq_dec t' t) as [->|]; apply L1. }
        assert (L4' : forall t' p b, In (p, b) (fst (gupd g2 t (fst (g2 t), Miss (isl l)) t')) -> home p = b).
        { intros t' p b. unfold gupd. destruct (tid_eq_dec t' t) as [->|]; apply L4. }
        assert (L5' : forall t', gupd g2 t (fst (g2 t), Miss (isl l)) t' <> ([], Idle) -> In t' (map fst (tr w))).
        { intros t' Hne. unfold gupd in Hne. destruct (tid_eq_dec t' t) as [->|]; apply L5; auto. }
        assert (L6' : forall t', List.length (fst (gupd g2 t (fst (g2 t), Miss (isl l)) t')) + missa (snd (gupd g2 t (fst (g2 t), Miss (isl l)) t')) <= in_hands t').
        { intro t'. unfold gupd. destruct (tid_eq_dec t' t) as [->|]; [simpl; lia|apply L6]. }
        split; auto.
        destruct (Nat.eqb_spec l l0) as [->|Hne].
        * set (g2' := gupd g2 t (fst (g2 t), Miss true)) in *.
          exists (filter (fun t => missb (snd (g2' t))) (threads_of (tr w))), (tr w), [].
          split; [apply NoDup_filter, NoDup_nodup|]. split; [|split; [rewrite app_nil_r; reflexivity|]].
          -- intro t'. rewrite filter_In. split.
             ++ intro X. split; [|rewrite X; reflexivity]. unfold threads_of. apply nodup_In. apply L5'. intro Y. rewrite Y in X. discriminate.
             ++ intros [_ X]. destruct (snd (g2' t')) as [| |[|]]; try discriminate. reflexivity.
          -- assert (Hl' : pl w g1 g2 home) by exact Hl.
             (* the count at this moment *)
             pose proof (all_in_use w g1 g2 home Hi Hl El) as Hu. unfold room.
             assert (X : List.length (filter (fun t => missb (snd (g2' t))) (threads_of (tr w))) =
                         List.length (filter (fun t => missb (snd (g2 t))) (threads_of (tr w))) + 1).
             { assert (Hit : In t (threads_of (tr w))) by (unfold threads_of; apply nodup_In; apply L5; exact Hns).
               assert (Hnd : NoDup (threads_of (tr w))) by apply NoDup_nodup.
               apply in_split in Hit. destruct Hit as (a & b & Hab). rewrite Hab in *. apply NoDup_remove in Hnd. destruct Hnd as [_ Hnd].
               rewrite !filter_app, !app_length. simpl.
               assert (Y : forall c, ~ In t c -> filter (fun t0 => missb (snd (g2' t0))) c = filter (fun t0 => missb (snd (g2 t0))) c).
               { intros c Hc. apply filter_ext_in. intros y Hy. unfold g2'. rewrite gupd_neq; [reflexivity|]. intros ->. contradiction. }
               rewrite in_app_iff in Hnd. rewrite !Y by tauto. unfold g2'. rewrite gupd_eq, Hs. simpl. lia. }
             assert (Z : list_sum (map (fun t => List.length (fst (g2 t)) + missn (snd (g2 t))) (threads_of (tr w))) + 1 <=
                         list_sum (map in_hands (threads_of (tr w)))).
             { assert (Hit : In t (threads_of (tr w))) by (unfold threads_of; apply nodup_In; apply L5; exact Hns).
               apply in_split in Hit. destruct Hit as (a & b & Hab). rewrite Hab. rewrite !map_app, !list_sum_app. simpl.
               assert (Y : forall x, List.length (fst (g2 x)) + missn (snd (g2 x)) <= in_hands x).
               { intro x. specialize (L6 x). destruct (snd (g2 x)) as [| |[|]]; simpl in *; lia. }
               pose proof (sum_le _ _ a Y). pose proof (sum_le _ _ b Y). rewrite Hs. simpl missn. lia. }
             lia.
        * exists ms, h, r. split; [exact C1|]. split; [|split; [exact C3|exact C4]].
          intro t'. unfold gupd. destruct (tid_eq_dec t' t) as [->|]; [|apply C2]. simpl. rewrite <- C2, Hs. split; discriminate.
      + exists ((p, isl l) :: fst (g2 t), Seen), home. split; [reflexivity|]. destruct Hpost as [c ->].
        destruct Hl as [L1 L2 L3 L4 L5 L6 L7 (ms & h & r' & C1 & C2 & C3 & C4)]. split; simpl.
        * intro t'. unfold gupd. destruct (tid_eq_dec t' t) as [->|]; simpl; [f_equal|]; apply L1.
        * intros l' p'. unfold upd. destruct (Nat.eqb_spec l' l) as [->|]; [|apply L2]. intro Hin. apply L2. rewrite El. right. exact Hin.
        * exact L3.
        * intros t' p' b. unfold gupd. destruct (tid_eq_dec t' t) as [->|]; simpl; [|apply L4]. intros [Heq|Hin]; [|eauto].
          injection Heq as <- <-. apply L2. rewrite El. left. reflexivity.
        * intros t' Hne. rewrite map_app. apply in_or_app. unfold gupd in Hne. destruct (tid_eq_dec t' t) as [->|]; [right; left; reflexivity|left; apply L5; exact Hne].
        * intro t'. unfold gupd. destruct (tid_eq_dec t' t) as [->|]; simpl; [lia|apply L6].
        * intros t' p' e m e' m' Hin. apply in_app_or in Hin. destruct Hin as [Hin|[Hin|[]]]; [eauto|discriminate].
        * exists ms, h, (r' ++ [(t, OWr (WrGot p))]). split; [exact C1|]. split; [|split; [rewrite C3, <- app_assoc; reflexivity|exact C4]].
          intro t'. unfold gupd. destruct (tid_eq_dec t' t) as [->|]; [|apply C2]. simpl. rewrite <- C2, Hs. split; discriminate.
    - (* IPoolOffer *)
      injection Hx as <- <-. destruct Hp2 as [Hn [g0 Hg0]]. destruct Hp1 as (c & g & Hg). subst g1'.
      exists (tl (fst (g2 t)), snd (g2 t)), home. split; [reflexivity|].
      destruct Hl as [L1 L2 L3 L4 L5 L6 L7 (ms & h & r' & C1 & C2 & C3 & C4)]. split; simpl.
      + intro t'. unfold gupd. destruct (tid_eq_dec t' t) as [->|]; simpl; [|apply L1]. specialize (L1 t). rewrite Hg0, Hg in *. simpl in *. congruence.
      + intros l' p'. unfold upd. destruct (Nat.eqb_spec l' l) as [->|]; [|apply L2]. intro Hin. apply in_app_or in Hin. destruct Hin as [Hin|[<-|[]]]; [eauto|].
        apply (L4 t). rewrite Hg0. left. reflexivity.
      + exact L3.
      + intros t' p' b. unfold gupd. destruct (tid_eq_dec t' t) as [->|]; simpl; [|apply L4]. intro Hin. apply (L4 t). rewrite Hg0 in *. right. exact Hin.
      + intros t' Hne. rewrite map_app. apply in_or_app. unfold gupd in Hne. destruct (tid_eq_dec t' t) as [->|]; [right; left; reflexivity|left; apply L5; exact Hne].
      + intro t'. unfold gupd. destruct (tid_eq_dec t' t) as [->|]; simpl; [|apply L6]. specialize (L6 t). rewrite Hg0 in *. simpl in *. lia.
      + intros t' p' e m e' m' Hin. apply in_app_or in Hin. destruct Hin as [Hin|[Hin|[]]]; [eauto|discriminate].
      + exists ms, h, (r' ++ [(t, OWr (WrGive l p))]). split; [exact C1|]. split; [|split; [rewrite C3, <- app_assoc; reflexivity|exact C4]].
        intro t'. unfold gupd. destruct (tid_eq_dec t' t) as [->|]; simpl; apply C2.
    - (* IQSize *)
      injection Hx as <- <-. exists (fst (g2 t), Seen), home. split; [reflexivity|].
      eapply pl_calm; try exact Hl; try reflexivity; [byrule|rewrite Hpost; reflexivity|].
      right. split; [reflexivity|]. split; [exact Hp2|]. simpl. rewrite map_app. apply in_or_app. right. left. reflexivity.
    - (* IQOffer *)
      destruct Hp2 as [Hn [g0 Hg0]]. destruct Hp1 as (g & Hg & Hq). subst g1'.
      assert (HP : pairs w p = Some (e', m)). { destruct Hi as [[loc Hil] _ _ _ _]. eapply (il_cont _ _ _ Hil t). rewrite Hg. left. reflexivity. }
      assert (Hpn : p < npair w).
      { destruct Hi as [[loc Hil] _ _ _ _]. destruct (Nat.lt_ge_cases p (npair w)) as [|X]; [assumption|]. apply (il_fresh _ _ _ Hil) in X.
        assert (Y : loc p = PHeld t) by (apply (il_held _ _ _ Hil); rewrite Hg; left; reflexivity). congruence. }
      rewrite HP in Hx. injection Hx as <- <-.
      exists (tl (fst (g2 t)), snd (g2 t)), home. split; [reflexivity|].
      destruct Hl as [L1 L2 L3 L4 L5 L6 L7 (ms & h & r' & C1 & C2 & C3 & C4)].
      assert (Hh : home p = isq q) by (apply (L4 t); rewrite Hg0; left; reflexivity).
      split; simpl.
      + intro t'. unfold gupd. destruct (tid_eq_dec t' t) as [->|]; simpl; [|apply L1]. specialize (L1 t). rewrite Hg0, Hg in *. simpl in *. congruence.
      + exact L2.
      + intros q' p'. unfold upd. destruct (Nat.eqb_spec q' q) as [->|]; [|apply L3]. intro Hin. apply in_app_or in Hin. destruct Hin as [Hin|[<-|[]]]; [eauto|exact Hh].
      + intros t' p' b. unfold gupd. destruct (tid_eq_dec t' t) as [->|]; simpl; [|apply L4]. intro Hin. apply (L4 t). rewrite Hg0 in *. right. exact Hin.
      + intros t' Hne. rewrite map_app. apply in_or_app. unfold gupd in Hne. destruct (tid_eq_dec t' t) as [->|]; [right; left; reflexivity|left; apply L5; exact Hne].
      + intro t'. unfold gupd. destruct (tid_eq_dec t' t) as [->|]; simpl; [|apply L6]. specialize (L6 t). rewrite Hg0 in *. simpl in *. lia.
      + intros t' p' e1 m1 e2 m2 Hin. apply in_app_or in Hin. destruct Hin as [Hin|[Hin|[]]]; [eauto|]. injection Hin as <- -> <- _ _ _ _.
        rewrite Nat.eqb_refl in Hh. auto.
      + exists ms, h, (r' ++ [(t, OOffer q p e m e' m)]). split; [exact C1|]. split; [|split; [rewrite C3, <- app_assoc; reflexivity|exact C4]].
        intro t'. unfold gupd. destruct (tid_eq_dec t' t) as [->|]; simpl; apply C2.
    - (* IQPoll *)
      destruct Hp2 as [Hn Hr].
      destruct (queues w q) as [|p r] eqn:El; injection Hx as <- <-.
      { exists (g2 t), home. split; [reflexivity|]. apply Hsame; try reflexivity; [byrule|]. rewrite Hpost. reflexivity. }
      exists ((p, isq q) :: fst (g2 t), snd (g2 t)), home. split; [reflexivity|]. destruct Hpost as [c ->].
      destruct Hl as [L1 L2 L3 L4 L5 L6 L7 (ms & h & r' & C1 & C2 & C3 & C4)]. split; simpl.
      + intro t'. unfold gupd. destruct (tid_eq_dec t' t) as [->|]; simpl; [f_equal|]; apply L1.
      + exact L2.
      + intros q' p'. unfold upd. destruct (Nat.eqb_spec q' q) as [->|]; [|apply L3]. intro Hin. apply L3. rewrite El. right. exact Hin.
      + intros t' p' b. unfold gupd. destruct (tid_eq_dec t' t) as [->|]; simpl; [|apply L4]. intros [Heq|Hin]; [|eauto].
        injection Heq as <- <-. apply L3. rewrite El. left. reflexivity.
      + intros t' Hne. rewrite map_app. apply in_or_app. unfold gupd in Hne. destruct (tid_eq_dec t' t) as [->|]; [right; left; reflexivity|left; apply L5; exact Hne].
      + intro t'. unfold gupd. destruct (tid_eq_dec t' t) as [->|]; simpl; [|apply L6]. destruct (snd (g2 t)); simpl in *; try contradiction; lia.
      + intros t' p' e m e' m' Hin. apply in_app_or in Hin. destruct Hin as [Hin|[Hin|[]]]; [eauto|discriminate].
      + exists ms, h, (r' ++ [(t, OTake q p (pairs w p))]). split; [exact C1|]. split; [|split; [rewrite C3, <- app_assoc; reflexivity|exact C4]].
        intro t'. unfold gupd. destruct (tid_eq_dec t' t) as [->|]; simpl; apply C2.
    - (* IExecute *)
      exists (g2 t), home. split; [reflexivity|].
      destruct (shut w x); injection Hx as <- <-; (apply Hsame; try reflexivity; [byrule|rewrite Hpost; reflexivity]).
    - exists (g2 t), home. split; [reflexivity|].
      destruct (has_leaf l (multis w k)); injection Hx as <- <-; (apply Hsame; try reflexivity; [byrule|rewrite Hpost; reflexivity]).
    - exists (g2 t), home. split; [reflexivity|].
      destruct (has_leaf l (multis w k)); injection Hx as <- <-; (apply Hsame; try reflexivity; [byrule|rewrite Hpost; reflexivity]).
    - (* ILatchAwait *)
      exists (g2 t), home. split; [reflexivity|].
      destruct t; [destruct (intrs w n); [|destruct (latches w p)]|destruct (latches w p)];
        try discriminate; injection Hx as <- <-; (apply Hsame; try reflexivity; [byrule|rewrite Hpost; reflexivity]).
    - (* ISelfInterrupt *)
      exists (g2 t), home. split; [reflexivity|].
      destruct t; injection Hx as <- <-; (apply Hsame; try reflexivity; [byrule|rewrite Hpost; reflexivity]).
    - (* ICall *)
      discriminate.
    - (* IMark *)
      injection Hx as <- <-. exists (g2 t), home. split; [reflexivity|]. apply Hsame; try reflexivity; [|rewrite Hpost; reflexivity].
      right. exists o. split; [reflexivity|]. destruct o; auto.
  Qed.

  (** ** The programs *)
  Definition ok2 (t : tid) (g : G2) : Prop := nomiss (snd g) /\ List.length (fst g) + 1 <= in_hands t.
  Definition rel2 (t : tid) (g g' : G2) : Prop := fst g' = fst g.
  Notation JJ := (@J G2 pre2 post2 ok2 rel2).
  Lemma rrefl2 : forall t g, rel2 t g g. Proof. reflexivity. Qed.
  Lemma rtrans2 : forall t a b c, rel2 t a b -> rel2 t b c -> rel2 t a c. Proof. unfold rel2. congruence. Qed.
  Definition plain2 (i : instr) : bool :=
    match i with IQOffer _ _ _ _ _ | IPoolOffer _ _ | IPoolPoll _ | INewPair | IQPoll _ => false | _ => true end.
  Lemma J_plain2 i : plain2 i = true -> JJ (op i).
  Proof.
    intros H t g [Hn Hl]. destruct i; try discriminate; simpl; (split; [auto|]); intros v g' Hp; try subst g'; unfold rel2, ok2; simpl; auto.
    destruct Hp as [Hf Hm]. rewrite Hf. auto.
  Qed.
  Lemma J_boring2 i : boring i = true -> JJ (op i).
  Proof. intro H. apply J_plain2. destruct i; try discriminate; auto. Qed.

  Lemma J_default2 e m : JJ (default_process E (strat_of E m) e m).
  Proof.
    intros t g Hok. unfold default_process, queue_size. pose proof Hok as [Hn Hl].
    apply wp_bind, wp_bind, wp_op; [exact Hn|]. intros cc g' ->. apply wp_op; [exact Hn|]. intros n g' ->.
    destruct (andb _ _).
    { assert (Hok' : ok2 t (fst g, Seen)) by (split; [exact I|exact Hl]).
      exact (J_call_ufl E pre2 post2 ok2 rel2 rrefl2 rtrans2 J_boring2 (s_ufl (strat E (strat_of E m)))
        (KUflExn (s_ufl (strat E (strat_of E m))) e m (XIllegalState (RQueueFull n))) t _ Hok'). }
    apply wp_bind. unfold pool_take. apply wp_bind, wp_op; [simpl; auto|].
    assert (Hrest : forall p,
      wp pre2 post2 t (py <- op (IGetPay e) ;;
        e' <- match py with
        | Some _ => nm <- op (IGetName e) ;; py' <- op (IGetPay e) ;; c <- op (INewCopy nm py') ;; op (ISetPair p c m) ;;; Ret c
        | None => op (ISetPair p e m) ;;; Ret e
        end ;;
        op (IQOffer (s_queue (strat E (strat_of E m))) p e m e') ;;;
        ok <- op (IExecute (s_exec (strat E (strat_of E m))) {| tk_strat := strat_of E m; tk_mach := m |}) ;;
        if (ok : bool) then skip else Throw XRejected)
        (fun _ g' => rel2 t g g' /\ ok2 t g') ((p, isl (s_pool (strat E (strat_of E m)))) :: fst g, Seen)).
    { intros p. apply wp_bind, wp_op; [exact I|]. intros py g' ->.
      assert (Hfin : forall e' , wp pre2 post2 t (op (IQOffer (s_queue (strat E (strat_of E m))) p e m e') ;;;
          ok <- op (IExecute (s_exec (strat E (strat_of E m))) {| tk_strat := strat_of E m; tk_mach := m |}) ;;
          if (ok : bool) then skip else Throw XRejected) (fun _ g' => rel2 t g g' /\ ok2 t g') ((p, isl (s_pool (strat E (strat_of E m)))) :: fst g, Seen)).
      { intro e'. apply wp_bind, wp_op; [split; [exact I|]; exists (fst g); rewrite bel; reflexivity|]. intros _ g' ->. simpl tl.
        apply wp_bind, wp_op; [exact I|]. intros ok g' ->. destruct ok; simpl; (split; [reflexivity|split; [exact I|exact Hl]]). }
      apply wp_bind. destruct py.
      - apply wp_bind, wp_op; [exact I|]. intros nm g' ->.
        apply wp_bind, wp_op; [exact I|]. intros py' g' ->.
        apply wp_bind, wp_op; [exact I|]. intros c' g' ->.
        apply wp_bind, wp_op; [exact I|]. intros _ g' ->. apply Hfin.
      - apply wp_bind, wp_op; [exact I|]. intros _ g' ->. apply Hfin. }
    intros [p|] g' ->.
    - apply Hrest.
    - apply wp_op; [simpl; eauto|]. intros p g' (b & Hb & ->). injection Hb as <-. apply Hrest.
  Qed.
  Lemma J_process2 e m : JJ (process_event E (strat_of E m) e m).
  Proof.
    apply J_process_event; auto using J_boring2, J_default2; try exact rrefl2; try exact rtrans2; intros; apply J_plain2; reflexivity.
  Qed.
  Lemma J_interp2 u : JJ (interp E u).
  Proof.
    apply (J_interp E pre2 post2 ok2 rel2 rrefl2 rtrans2 J_boring2 (fun _ => True)).
    - intros a _. apply Jret_J; try exact rrefl2; try exact rtrans2; [|intro; apply J_plain2; reflexivity].
      apply J_api; auto using J_boring2, J_process2; try exact rrefl2; try exact rtrans2.
      + intros. apply J_update_current; auto using J_boring2; try exact rrefl2; try exact rtrans2; intros; apply J_plain2; reflexivity.
      + intros. apply J_start; auto using J_boring2, J_process2; try exact rrefl2; try exact rtrans2; intros; apply J_plain2; reflexivity.
      + intros. apply J_start_in; auto using J_boring2, J_process2; try exact rrefl2; try exact rtrans2; intros; apply J_plain2; reflexivity.
      + intros i H. apply J_plain2. destruct a; try discriminate; injection H as <-; reflexivity.
    - induction u; simpl; auto.
  Qed.
  Lemma J_exec2 k e m : JJ (execute E k e m).
  Proof.
    apply J_execute; auto using J_boring2, J_process2; try exact rrefl2; try exact rtrans2.
    intros. apply J_update_current; auto using J_boring2; try exact rrefl2; try exact rtrans2; intros; apply J_plain2; reflexivity.
  Qed.
  Definition rest2 (g : G2) : Prop := fst g = [] /\ nomiss (snd g).
  Notation PRE := (pre12 (pre E) pre2).
  Notation POST := (post12 post post2).
  Definition rest12 (g : held * G2) : Prop := fst g = [] /\ rest2 (snd g).
  Lemma wp_drain12 x i tk g : rest12 g -> wp PRE POST (TWorker x i) (drain_iter E tk) (fun _ g' => rest12 g') g.
  Proof.
    destruct g as [g1 g2]. intros [Hg1 [Hf Hn]]. simpl in Hg1, Hf, Hn. subst g1.
    unfold drain_iter. apply wp_bind, wp_op; [split; [exact I|exact Hn]|]. intros b [h1 h2] [X1 X2]. simpl in X1, X2. subst h1 h2.
    destruct b; [repeat split; assumption|].
    apply wp_bind, wp_op; [split; [exact I|split; [exact Hn|simpl; rewrite Hf; simpl; lia]]|].
    intros [p|] [h1 h2] [X1 X2]; simpl in X1, X2; [|subst h1 h2; repeat split; assumption].
    destruct X1 as [c ->]. subst h2. rewrite Hf. set (q := s_queue (strat E (tk_strat tk))).
    apply wp_bind, wp_then_res. apply wp_bind, wp_op; [split; [exact I|exact Hn]|]. intros v [h1 h2] [[X1 Hv] X2]. simpl in X1, X2, Hv. subst h1 h2.
    rewrite (Hv (Some c) [] eq_refl). destruct c as [e m].
    apply wp_try_finally.
    eapply wp_mono with (Q := fun _ g' => fst g' = [(p, (true, Some (e, m)))] /\ fst (snd g') = [(p, isq q)] /\ nomiss (snd (snd g'))).
    { intros r [h1 h2] (Y1 & Y2 & Y3). simpl in Y1, Y2, Y3. subst h1.
      apply wp_op; [split; [simpl; eauto|split; [exact Y3|]; exists []; simpl; rewrite Y2; unfold q; rewrite bel; reflexivity]|].
      intros u1 [h1 h2'] [X1 X2]. simpl in X1, X2. subst h1 h2'.
      assert (Hr : rest12 ([], (tl (fst h2), snd h2))) by (split; [reflexivity|split; [simpl; rewrite Y2; reflexivity|exact Y3]]).
      destruct r as [[]|y]; apply wp_bind, wp_op; try (split; [exact I|exact Y3]); intros u2 [z1 z2] [X1 X2]; simpl in X1, X2; subst z1 z2; simpl; exact Hr. }
    assert (H1 : @J held (pre E) post (fun _ _ => True) (fun _ g g' => g' = g) unit (try_catch
                    (en <- op (IGetEnded (tk_mach tk)) ;;
                     if (en : bool) then skip else execute E (tk_strat tk) e m)
                    (fun x => call_ufl E (s_ufl (strat E (tk_strat tk))) (KUflExn (s_ufl (strat E (tk_strat tk))) e m x)))).
    { apply J_try_catch; try exact rrefl; try exact rtrans; [|intro; apply J_call_ufl; auto using rrefl, J_boring; exact rtrans].
      apply J_bind; try exact rrefl; try exact rtrans; [apply J_plain; reflexivity|]. intros [|]; [apply J_skip; exact rrefl|apply J_exec]. }
    assert (H2 : JJ (try_catch
                    (en <- op (IGetEnded (tk_mach tk)) ;;
                     if (en : bool) then skip else execute E (tk_strat tk) e m)
                    (fun x => call_ufl E (s_ufl (strat E (tk_strat tk))) (KUflExn (s_ufl (strat E (tk_strat tk))) e m x)))).
    { apply J_try_catch; try exact rrefl2; try exact rtrans2; [|intro; apply J_call_ufl; auto using rrefl2, J_boring2; exact rtrans2].
      apply J_bind; try exact rrefl2; try exact rtrans2; [apply J_plain2; reflexivity|]. intros [|]; [apply J_skip; exact rrefl2|apply J_exec2]. }
    assert (Hok : ok2 (TWorker x i) ([(p, isq q)], snd g2)) by (split; [exact Hn|simpl; lia]).
    eapply wp_mono; [|apply wp_pair; [apply (H1 (TWorker x i) [(p, (true, Some (e, m)))] I)|apply (H2 (TWorker x i) _ Hok)]].
    simpl. intros r [h1 h2] [[X1 _] [X2 [X3 _]]]. simpl in *. auto.
  Qed.

  Lemma pinv_same w w' gs t g' :
    g' = gs t ->
    npair w' = npair w -> pools w' = pools w -> queues w' = queues w -> pairs w' = pairs w ->
    tr w' = tr w \/ (exists o, tr w' = tr w ++ [(t, o)] /\ quiet_obs o) ->
    pinv w gs -> pinv w' (gupd gs t g').
  Proof.
    intros -> E1 E2 E3 E4 E5 [Hi [home Hl]]. split.
    - eapply inv_ext; [|apply (inv_same E w w' (fun t => fst (gs t)) t E1 E2 E3 E4); [|exact Hi]].
      + intro t'. unfold gupd. destruct (tid_eq_dec t' t) as [->|]; reflexivity.
      + destruct E5 as [X|(o & X & Ho)]; [left; exact X|right; eauto].
    - exists home. apply (pl_same w w' (fun t => fst (gs t)) _ (fun t => snd (gs t)) _ home t E1 E2 E3).
      + destruct E5 as [->|(o & -> & Ho)]; [left; reflexivity|right; exists o; split; [reflexivity|destruct o; auto]].
      + apply (gupd_map gs t (gs t) (fun g => map fst (fst g))). reflexivity.
      + apply (gupd_map gs t (gs t) (fun g => fst (snd g))). reflexivity.
      + intro t'. left. apply (gupd_map gs t (gs t) (fun g => snd (snd g))). reflexivity.
      + exact Hl.
  Qed.

  Theorem pool_inv w0 w : init_mem E w0 -> reach E w0 w -> exists gs, pinv (wm w) gs.
  Proof.
    intros H0 [sched ->].
    destruct (sound E PRE POST pinv (fun _ _ _ => True) (fun _ _ _ g => rest12 g) (fun _ g => rest12 g)) with
      (w := init_world E w0) (gs := fun _ : tid => (@nil (pid * (bool * content)), (@nil (pid * bool), Idle))) (sched := sched) as [gs Hok].
    - intros w gs t i v w' [Hi [home Hl]] [Hp1 Hp2] Hx.
      destruct (exec_own E _ _ _ _ _ _ Hi Hp1 Hx) as (g1' & Hpost & Hi').
      destruct (exec_pl _ _ _ _ _ _ _ _ _ Hi Hl Hp1 Hp2 Hx Hpost) as (g2' & home' & Hpost2 & Hl').
      exists (g1', g2'). split; [split; assumption|]. split.
      + eapply inv_ext; [|exact Hi']. intro t'. unfold gupd. destruct (tid_eq_dec t' t); reflexivity.
      + exists home'. refine (pl_same w' w' _ _ _ _ home' t eq_refl eq_refl eq_refl (or_introl eq_refl) _ _ _ Hl').
        * intro t'. unfold gupd. destruct (tid_eq_dec t' t); reflexivity.
        * intro t'. unfold gupd. destruct (tid_eq_dec t' t); reflexivity.
        * intro t'. left. unfold gupd. destruct (tid_eq_dec t' t); reflexivity.
    - intros t [g1 g2] c h [_ Hp]. eapply wp_mono; [|apply wp_pair; [apply (J_interp_all E _ t g1 I)|apply (J_interp2 _ t g2 Hp)]].
      simpl. intros r [h1 h2] [[X _] [Y [Z _]]]. simpl in *. split; [exact X|]. split; [exact Y|exact Z].
    - intros w gs x i tk r Hi Hl Hg Et. exists (gs (TWorker x i)). split; [|apply wp_drain12; exact Hg].
      apply (pinv_same w); try reflexivity; auto.
    - intros w gs x i tk Hi Hl Hg. exists (gs (TWorker x i)). split; [|apply wp_drain12; exact Hg].
      apply (pinv_same w); try reflexivity; auto.
    - intros w gs x i tk Hi Hl Hg. exists (gs (TWorker x i)). split; [|exact Hg]. apply (pinv_same w); try reflexivity; auto.
    - intros w gs x i tk e Hi Hl Hg. exists (gs (TWorker x i)). split; [|exact Hg].
      apply (pinv_same w); try reflexivity; auto. right. eexists. split; [reflexivity|exact I].
    - split; [|split].
      + destruct H0. split.
        * split.
          -- exists (fun _ => PFresh). simpl. split; simpl; intros; rewrite ?im_pools, ?im_queues, ?im_npair in *; simpl in *;
               try constructor; try easy; try lia.
          -- intro q. simpl. rewrite im_tr, im_queues. reflexivity.
          -- intros t q p e m e' m'. simpl. rewrite im_tr. intros [].
          -- intros t p. simpl. rewrite im_tr. simpl. split; [intros []|intros [c []]].
          -- simpl. rewrite im_tr. constructor.
        * exists (fun _ => false). split; simpl.
          -- reflexivity.
          -- intros l p. rewrite im_pools. intros [].
          -- intros q p. rewrite im_queues. intros [].
          -- intros t p b [].
          -- intros t X. contradiction.
          -- intro t. destruct t; simpl; lia.
          -- rewrite im_tr. intros t p e m e' m' [].
          -- exists [], [], []. rewrite im_tr, im_npair. split; [constructor|]. split; [|split; [reflexivity|simpl; lia]].
             intro t. split; [discriminate|intros []].
      + intro n. simpl. destruct (Nat.ltb n (n_clients E)); [|exact I].
        assert (Hok : ok2 (TClient n) ([], Idle)) by (split; [exact I|simpl; lia]).
        eapply wp_mono; [|apply wp_pair; [apply (J_interp_all E _ _ [] I)|apply (J_interp2 _ _ _ Hok)]]. auto.
      + intros x i. simpl. repeat split.
    - exists gs. apply Hok.
  Qed.
End Pool.

Theorem p_C68_bound : forall E w0 w q l, init_mem E w0 -> reach E w0 w -> belong E q l ->
  forall ps, pair_objects q (tr (wm w)) ps ->
    exists h r, tr (wm w) = h ++ r /\ List.length ps <= List.length (waiting q h) + room h.
Proof.
  intros E w0 w q l H0 Hr Hb ps [Hnd Hps]. destruct (pool_inv E q l Hb w0 w H0 Hr) as [gs [_ [home Hl]]].
  destruct Hl as [_ _ _ _ _ _ L7 (ms & h & r & _ & _ & Ht & Hc)]. exists h, r. split; [exact Ht|].
  assert (List.length ps <= numh home (npair (wm w))); [|lia].
  apply NoDup_incl_length; [exact Hnd|]. intros p Hp. destruct (Hps p Hp) as (t & e & m & e' & m' & Hin).
  destruct (L7 _ _ _ _ _ _ Hin) as [Ha Hb']. apply filter_In. split; [apply in_seq; lia|exact Ha].
Qed.

Lemma room_upto h r : room h <= room (h ++ r).
Proof.
  revert h. induction r as [|x r IH]; intro h; [rewrite app_nil_r; lia|].
  specialize (IH (h ++ [x])). rewrite <- app_assoc in IH. simpl in IH. pose proof (room_snoc h x). lia.
Qed.
Theorem p_C68_bounded_queue : forall E w0 w q l, init_mem E w0 -> reach E w0 w -> belong E q l ->
  forall max ts, (0 < max)%Z -> (forall m, queue_of E m = q -> limit E m = max) -> (forall t, feeds q t (tr (wm w)) -> In t ts) ->
  forall ps, pair_objects q (tr (wm w)) ps ->
    (Z.of_nat (List.length ps) <= max - 1 + Z.of_nat (List.length ts) + Z.of_nat (room (tr (wm w))))%Z.
Proof.
  intros E w0 w q l H0 Hr Hb max ts Hm Hlim Hts ps Hps.
  destruct (p_C68_bound E w0 w q l H0 Hr Hb ps Hps) as (h & r & Ht & Hle).
  pose proof (bound_threads E w0 w H0 Hr q max ts Hm Hlim Hts h r Ht) as Hq. pose proof (room_upto h r) as Hro. rewrite <- Ht in Hro. lia.
Qed.

Theorem p_C68_none_lost : forall E w0 w q l, init_mem E w0 -> reach E w0 w -> belong E q l ->
  forall ps p, pair_objects q (tr (wm w)) ps -> In p ps ->
    In p (map fst (waiting q (tr (wm w)))) \/ (exists t, In (t, p) (hands (tr (wm w)))) \/ In p (pools (wm w) l).
Proof.
  intros E w0 w q l H0 Hr Hb ps p [_ Hps] Hp. destruct (pool_inv E q l Hb w0 w H0 Hr) as [gs [Hi [home Hl]]].
  destruct Hl as [_ L2 L3 _ _ _ L7 _]. destruct (Hps p Hp) as (t & e & m & e' & m' & Hin). destruct (L7 _ _ _ _ _ _ Hin) as [Hh Hn].
  destruct (own_hands E w0 w H0 Hr) as (gs' & [[loc [H1 H2 H3 H4 _ _ _ _ _]] Hf _ _ _] & [Ha _ _]).
  destruct (loc p) as [|l'|q'|t'] eqn:El.
  - apply H1 in El. lia.
  - apply H2 in El. pose proof (L2 _ _ El) as X. rewrite Hh in X. symmetry in X. apply Nat.eqb_eq in X. subst l'. auto.
  - apply H3 in El. pose proof (L3 _ _ El) as X. rewrite Hh in X. symmetry in X. apply Nat.eqb_eq in X. subst q'. left.
    unfold waiting. rewrite Hf, skipn_app, skipn_all, Nat.sub_diag. simpl. rewrite map_map. simpl. rewrite map_id. exact El.
  - right. left. exists t'. apply Ha. apply H4. exact El.
Qed.
