(** * BoundProofs.v: proofs for C26 and C27 *)
From Verif Require Import BoundSpec Own Lang Tree QueueProofs Truth QTruth MemInv Moments Copies StartProofs OfferProofs FireProofs.

Section Bound.
  Context (E : env) (w0 : mem) (w : world) (H0 : init_mem E w0) (Hr : reach E w0 w).
  Notation T := (tr (wm w)).

  Definition access (o : obs) : Prop := match o with ORd _ | OWr _ => True | _ => False end.
  Lemma small_access l : Forall small l -> Forall access l.
  Proof. intro H. induction H as [|o l Ho Hl IH]; constructor; auto; destruct o; simpl; auto. Qed.
  Lemma accepted_snoc q h t o : List.length (accepted q (h ++ [(t, o)])) =
    List.length (accepted q h) + match o with OOffer q' _ _ _ _ _ => if Nat.eqb q' q then 1 else 0 | _ => 0 end.
  Proof.
    unfold accepted. rewrite flat_map_app, app_length. simpl. rewrite app_nil_r. destruct o; try reflexivity. destruct (Nat.eqb q0 q); reflexivity.
  Qed.
  Lemma taken_snoc q h t o : List.length (taken q (h ++ [(t, o)])) =
    List.length (taken q h) + match o with OTake q' _ _ => if Nat.eqb q' q then 1 else 0 | _ => 0 end.
  Proof.
    unfold taken. rewrite flat_map_app, app_length. simpl. rewrite app_nil_r. destruct o; try reflexivity. destruct (Nat.eqb q0 q); reflexivity.
  Qed.
  Lemma waiting_length q h : List.length (waiting q h) = List.length (accepted q h) - List.length (taken q h).
  Proof. unfold waiting. apply skipn_length. Qed.

  Lemma full_false m n max : limit E m = max -> (0 < max)%Z -> full E (strat_of E m) n = false -> (Z.of_nat n < max)%Z.
  Proof.
    unfold limit, full. intros -> Hp Hf. destruct (Z.ltb_spec 0 max); [|lia]. simpl in Hf. apply Z.leb_gt in Hf. exact Hf.
  Qed.
  (** an observation of a thread is an entry of the trace *)
  Lemma obs_entry t h : forall l1 o l2, thread_obs t h = l1 ++ o :: l2 ->
    exists u v, h = u ++ (t, o) :: v /\ thread_obs t u = l1 /\ thread_obs t v = l2.
  Proof.
    induction h as [|[t' o'] h IH] using rev_ind; intros l1 o l2; [destruct l1; discriminate|].
    rewrite thread_obs_snoc. destruct (tid_eq_dec t' t) as [->|N].
    - intro Hs. apply snoc_split in Hs. destruct Hs as [(-> & <- & ->)|(l3 & -> & Hs)].
      + exists h, []. auto.
      + destruct (IH _ _ _ Hs) as (u & v & -> & H1 & H2). exists u, (v ++ [(t, o')]). split; [rewrite <- app_assoc; reflexivity|].
        split; [exact H1|]. rewrite thread_obs_snoc. destruct (tid_eq_dec t t); [rewrite H2; reflexivity|congruence].
    - intro Hs. destruct (IH _ _ _ Hs) as (u & v & -> & H1 & H2). exists u, (v ++ [(t', o')]). split; [rewrite <- app_assoc; reflexivity|].
      split; [exact H1|]. rewrite thread_obs_snoc. destruct (tid_eq_dec t' t); [congruence|exact H2].
  Qed.
  Lemma thread_obs_split t a b : thread_obs t (a ++ b) = thread_obs t a ++ thread_obs t b.
  Proof. unfold thread_obs. rewrite filter_app, map_app. reflexivity. Qed.
  Lemma thread_obs_cons t o b : thread_obs t ((t, o) :: b) = o :: thread_obs t b.
  Proof. unfold thread_obs. simpl. unfold tid_eqb. destruct (tid_eq_dec t t); [reflexivity|congruence]. Qed.

  (** two ways to cut a list *)
  Lemma cut2 {A} (a : list A) : forall x b u y v, a ++ x :: b = u ++ y :: v ->
    (exists a2, a = u ++ y :: a2 /\ v = a2 ++ x :: b) \/ (u = a /\ x = y /\ b = v) \/ (exists b1, u = a ++ x :: b1 /\ b = b1 ++ y :: v).
  Proof.
    induction a as [|z a IH]; intros x b u y v Hs; destruct u as [|z' u]; simpl in Hs; injection Hs as -> Hs.
    - right. left. auto.
    - right. right. exists u. auto.
    - left. exists a. auto.
    - destruct (IH _ _ _ _ _ Hs) as [(a2 & -> & ->)|[(-> & -> & ->)|(b1 & -> & ->)]].
      + left. exists a2. auto.
      + right. left. auto.
      + right. right. exists b1. auto.
  Qed.

  (** ** Who queued what *)
  Definition accepted_by (q : qid) (h : trace) : list (tid * (pid * option (eid * mid))) :=
    flat_map (fun to => match snd to with
                        | OOffer q' p _ _ e' m => if Nat.eqb q' q then [(fst to, (p, Some (e', m)))] else []
                        | _ => []
                        end) h.
  Lemma by_split q a b : accepted_by q (a ++ b) = accepted_by q a ++ accepted_by q b.
  Proof. apply flat_map_app. Qed.
  Lemma by_snd q h : map snd (accepted_by q h) = accepted q h.
  Proof.
    unfold accepted_by, accepted. induction h as [|[t o] h IH]; [reflexivity|]. simpl. rewrite map_app, IH. f_equal.
    destruct o; try reflexivity. destruct (Nat.eqb q0 q); reflexivity.
  Qed.
  Lemma by_entry q h : forall L1 x L2, accepted_by q h = L1 ++ x :: L2 ->
    exists a t p e m e' m' b, h = a ++ (t, OOffer q p e m e' m') :: b /\ x = (t, (p, Some (e', m'))) /\ accepted_by q a = L1 /\ accepted_by q b = L2.
  Proof.
    induction h as [|[t o] h IH]; intros L1 x L2 Hs; [destruct L1; discriminate|].
    assert (Hc : (exists p e m e' m', o = OOffer q p e m e' m') \/ accepted_by q [(t, o)] = []).
    { destruct o; try (right; reflexivity). destruct (Nat.eqb_spec q0 q) as [->|N]; [left; eauto 10|right].
      unfold accepted_by. simpl. destruct (Nat.eqb_spec q0 q); [congruence|reflexivity]. }
    change ((t, o) :: h) with ([(t, o)] ++ h) in Hs. rewrite by_split in Hs.
    destruct Hc as [(p & e & m & e' & m' & ->)|Hn].
    - assert (H1 : accepted_by q [(t, OOffer q p e m e' m')] = [(t, (p, Some (e', m')))]) by (unfold accepted_by; simpl; rewrite Nat.eqb_refl; reflexivity).
      rewrite H1 in Hs. destruct L1 as [|z L1]; simpl in Hs; injection Hs as <- Hs.
      + exists [], t, p, e, m, e', m', h. auto.
      + destruct (IH _ _ _ Hs) as (a & t1 & p1 & e1 & m1 & e1' & m1' & b & -> & -> & <- & <-).
        exists ((t, OOffer q p e m e' m') :: a), t1, p1, e1, m1, e1', m1', b. repeat (split; [reflexivity|]). split; [|reflexivity].
        change (accepted_by q ([(t, OOffer q p e m e' m')] ++ a) = (t, (p, Some (e', m'))) :: accepted_by q a). rewrite by_split, H1. reflexivity.
    - rewrite Hn in Hs. destruct (IH _ _ _ Hs) as (a & t1 & p1 & e1 & m1 & e1' & m1' & b & -> & -> & <- & <-).
      exists ((t, o) :: a), t1, p1, e1, m1, e1', m1', b. repeat (split; [reflexivity|]). split; [|reflexivity].
      change (accepted_by q ([(t, o)] ++ a) = accepted_by q a). rewrite by_split, Hn. reflexivity.
  Qed.


  (** ** Events queued at the same time *)
  Section Pairs.
  Context (q : qid) (h r : trace) (HT : T = h ++ r) (base : nat) (sel : tid * (pid * option (eid * mid)) -> bool)
    (P : tid -> trace -> Prop).
  (** the thread of the later one of two events satisfies P before the first one is queued *)
  Context (Hpair : forall D x W1 y W2, accepted_by q h = D ++ x :: W1 ++ y :: W2 -> base <= List.length D ->
    sel x = true -> sel y = true ->
    exists a p e m e' m' b, h = a ++ (fst x, OOffer q p e m e' m') :: b /\ accepted_by q a = D /\
      fst y <> fst x /\ P (fst y) a).
  Context (Hself : forall a t p e m e' m' b, h = a ++ (t, OOffer q p e m e' m') :: b -> P t a).

  Lemma pairs_nodup W : forall D, accepted_by q h = D ++ W -> base <= List.length D -> NoDup (map fst (filter sel W)).
  Proof.
    induction W as [|x W IH]; intros D Ha Ht; [constructor|].
    assert (Hn : NoDup (map fst (filter sel W))).
    { apply (IH (D ++ [x])); [rewrite <- app_assoc; exact Ha|rewrite app_length; lia]. }
    simpl. destruct (sel x) eqn:Hx; [|exact Hn]. simpl. constructor; [|exact Hn].
    intro Hin. apply in_map_iff in Hin. destruct Hin as (y & Hxy & Hin). apply filter_In in Hin. destruct Hin as [Hin Hy].
    apply in_split in Hin. destruct Hin as (W1 & W2 & ->).
    destruct (Hpair D x W1 y W2 Ha Ht Hx Hy) as (_ & _ & _ & _ & _ & _ & _ & _ & _ & Hne & _). congruence.
  Qed.
  Lemma pairs_together W : forall D, accepted_by q h = D ++ W -> base <= List.length D ->
    filter sel W = [] \/ exists a b, h = a ++ b /\ forall x, In x (filter sel W) -> P (fst x) a.
  Proof.
    induction W as [|x W IH]; intros D Ha Ht; [left; reflexivity|].
    simpl. destruct (sel x) eqn:Hx; [|apply (IH (D ++ [x])); [rewrite <- app_assoc; exact Ha|rewrite app_length; lia]].
    right. destruct (by_entry _ _ _ _ _ Ha) as (a & t & p & e & m & e' & m' & b & Eh & Ex & Ea & Eb).
    exists a, ((t, OOffer q p e m e' m') :: b). split; [exact Eh|]. intros y [<-|Hy].
    - rewrite Ex. simpl. eapply Hself; exact Eh.
    - apply filter_In in Hy. destruct Hy as [Hin Hy]. apply in_split in Hin. destruct Hin as (W1 & W2 & ->).
      destruct (Hpair D x W1 y W2 Ha Ht Hx Hy) as (a' & p1 & e1 & m1 & e1' & m1' & b' & Eh' & Ea' & _ & Hi).
      assert (Haa : a' = a); [|subst a'; exact Hi].
      (* both are the entry after the first |D| accepted ones *)
      rewrite Ex in Eh'. simpl in Eh'. rewrite Eh in Eh'. destruct (cut2 _ _ _ _ _ _ Eh') as [(a2 & -> & _)|[(-> & _ & _)|(b1 & -> & _)]]; [| reflexivity|]; exfalso.
      + rewrite by_split in Ea. rewrite <- Ea' in Ea. apply (f_equal (@List.length _)) in Ea. rewrite app_length in Ea.
        unfold accepted_by at 2 in Ea. simpl in Ea. rewrite Nat.eqb_refl in Ea. simpl in Ea. lia.
      + rewrite by_split in Ea'. rewrite <- Ea in Ea'. apply (f_equal (@List.length _)) in Ea'. rewrite app_length in Ea'.
        unfold accepted_by at 2 in Ea'. simpl in Ea'. rewrite Nat.eqb_refl in Ea'. simpl in Ea'. lia.
  Qed.
  Lemma waiting_by : exists D W, accepted_by q h = D ++ W /\ List.length (taken q h) = List.length D /\ map snd W = waiting q h.
  Proof.
    exists (firstn (List.length (taken q h)) (accepted_by q h)), (skipn (List.length (taken q h)) (accepted_by q h)).
    split; [symmetry; apply firstn_skipn|].
    destruct (reach_prefix E w0 w (im_tr _ _ H0) Hr h r HT) as (w1 & Hr1 & Hw1).
    pose proof (fifo E w0 w1 q H0 Hr1) as Hf. rewrite Hw1 in Hf.
    assert (Hle : List.length (taken q h) <= List.length (accepted_by q h)).
    { pose proof (f_equal (@List.length _) (by_snd q h)) as Hl. rewrite map_length in Hl. rewrite Hl, Hf, app_length. lia. }
    split; [rewrite firstn_length; lia|]. unfold waiting. rewrite <- by_snd. symmetry. apply skipn_map.
  Qed.
  Lemma pairs_bound k D W : accepted_by q h = D ++ W -> base <= List.length D ->
    (forall a b, h = a ++ b -> at_most k (fun t => P t a)) -> List.length (filter sel W) <= k.
  Proof.
    intros Ha Ht Hk. destruct (pairs_together W D Ha Ht) as [->|(a & b & Eh & Hi)]; [simpl; lia|].
    rewrite <- (map_length fst). apply (Hk a b Eh); [eapply pairs_nodup; [exact Ha|lia]|].
    intros t Hin. apply in_map_iff in Hin. destruct Hin as (x & <- & Hin). apply Hi. exact Hin.
  Qed.
  Lemma pairs_feeders ts D W : accepted_by q h = D ++ W -> base <= List.length D ->
    (forall t, feeds q t h -> In t ts) -> List.length (filter sel W) <= List.length ts.
  Proof.
    intros Ha Ht Hts. rewrite <- (map_length fst). apply NoDup_incl_length; [eapply pairs_nodup; [exact Ha|lia]|].
    intros t Hin. apply in_map_iff in Hin. destruct Hin as (x & <- & Hin). apply filter_In in Hin. destruct Hin as [Hin _].
    apply in_split in Hin. destruct Hin as (W1 & W2 & ->). rewrite app_assoc in Ha.
    destruct (by_entry _ _ _ _ _ Ha) as (a & t & p & e & m & e' & m' & b & Eh & -> & _). apply Hts. simpl.
    exists p, e, m, e', m'. rewrite Eh. apply in_or_app. right. left. reflexivity.
  Qed.
  End Pairs.

  (** ** C26 *)
  Lemma seen_room_snoc q max l o : seen_room q max (l ++ [o]) =
    match o with
    | ORd (RdLook q' _) => if Nat.eqb q' q then true else seen_room q max l
    | ORd (RdSize q' _ n) => if Nat.eqb q' q then andb (seen_room q max l) (Z.ltb (Z.of_nat n) max) else seen_room q max l
    | ORd _ | OWr _ => seen_room q max l
    | _ => false
    end.
  Proof. unfold seen_room. rewrite fold_left_app. reflexivity. Qed.
  (** marks that leave a thread adding *)
  Definition fits (max : Z) (o : obs) : Prop :=
    match o with ORd (RdSize _ _ n) => (Z.of_nat n < max)%Z | ORd _ | OWr _ => True | _ => False end.
  Lemma small_fits max l : Forall small l -> Forall (fits max) l.
  Proof. intro H. induction H as [|o l Ho Hl IH]; constructor; auto. destruct o; try contradiction; simpl; auto. destruct r; try contradiction; auto. Qed.
  Lemma fits_access max l : Forall (fits max) l -> Forall access l.
  Proof. intro H. induction H as [|o l Ho Hl IH]; constructor; auto. destruct o; try contradiction; exact I. Qed.
  Lemma seen_room_app q max l2 : Forall (fits max) l2 -> forall l1, seen_room q max l1 = true -> seen_room q max (l1 ++ l2) = true.
  Proof.
    intro H. induction H as [|o l Ho Hl IH]; intros l1 H1; [rewrite app_nil_r; exact H1|].
    change (o :: l) with ([o] ++ l). rewrite app_assoc. apply IH. rewrite seen_room_snoc.
    destruct o; try contradiction; auto. destruct r; auto; destruct (Nat.eqb q0 q); auto.
    rewrite H1. simpl in Ho. apply Z.ltb_lt. exact Ho.
  Qed.
  Lemma looked_adding q max t u c v : Forall (fits max) (thread_obs t v) -> adding q max t (u ++ (t, ORd (RdLook q c)) :: v).
  Proof.
    intro H. unfold adding. rewrite thread_obs_split, thread_obs_cons.
    change (ORd (RdLook q c) :: thread_obs t v) with ([ORd (RdLook q c)] ++ thread_obs t v). rewrite app_assoc.
    apply seen_room_app; [exact H|]. rewrite seen_room_snoc, Nat.eqb_refl. reflexivity.
  Qed.
  (** a thread that queues an event began to count the events before, and found few *)
  Lemma offer_looked h t q p e m e' m' r max : T = h ++ (t, OOffer q p e m e' m') :: r ->
    limit E m = max -> (0 < max)%Z ->
    exists u c v, h = u ++ (t, ORd (RdLook q c)) :: v /\ Forall (fits max) (thread_obs t v) /\
      (Z.of_nat (acc q u - tak q h) < max)%Z.
  Proof.
    intros Hs Hl Hm. destruct (offer_past E w0 w H0 Hr _ _ _ _ _ _ _ _ _ Hs) as (-> & _ & g0 & c & n & mid & Hg & Hf & Hsm & _).
    destruct (obs_entry _ _ _ _ _ Hg) as (u & v & Eh & _ & Hv).
    destruct (obs_entry _ _ [] _ _ Hv) as (v1 & v2 & Ev & _ & _).
    assert (Hn : (Z.of_nat n < max)%Z) by (eapply full_false; eauto).
    exists u, c, v. split; [exact Eh|]. split; [rewrite Hv; constructor; [exact Hn|apply small_fits; exact Hsm]|].
    assert (Hc : counted (queue_of E m) u (u ++ (t, ORd (RdLook (queue_of E m) c)) :: v1) n).
    { eapply (size_reads E w0 w u t _ c t v1 n _ H0 Hr). rewrite Hs, Eh, Ev. lst. }
    destruct Hc as [Hc _]. unfold stayed in Hc. fold (acc (queue_of E m) u) in Hc.
    fold (tak (queue_of E m) (u ++ (t, ORd (RdLook (queue_of E m) c)) :: v1)) in Hc.
    pose proof (tak_app (queue_of E m) (u ++ (t, ORd (RdLook (queue_of E m) c)) :: v1) ((t, ORd (RdSize (queue_of E m) c n)) :: v2)) as Ht.
    replace ((u ++ (t, ORd (RdLook (queue_of E m) c)) :: v1) ++ (t, ORd (RdSize (queue_of E m) c n)) :: v2) with h in Ht by (rewrite Eh, Ev; lst).
    lia.
  Qed.

  Section Room.
  Context (q : qid) (max : Z) (h r : trace) (HT : T = h ++ r) (Hmax : (0 < max)%Z) (Hlim : forall m, queue_of E m = q -> limit E m = max).
  Lemma room_self a t p e m e' m' b : h = a ++ (t, OOffer q p e m e' m') :: b -> adding q max t a.
  Proof.
    intro Eh. assert (HT' : T = a ++ (t, OOffer q p e m e' m') :: b ++ r) by (rewrite HT, Eh; lst).
    destruct (offer_past E w0 w H0 Hr _ _ _ _ _ _ _ _ _ HT') as (Hq & _).
    destruct (offer_looked _ _ _ _ _ _ _ _ _ max HT' (Hlim _ (eq_sym Hq)) Hmax) as (u & c & v & -> & Hf & _).
    apply looked_adding. exact Hf.
  Qed.
  Lemma room_pair D x W1 y W2 : accepted_by q h = D ++ x :: W1 ++ y :: W2 -> tak q h + Z.to_nat (max - 1) <= List.length D ->
    exists a p e m e' m' b, h = a ++ (fst x, OOffer q p e m e' m') :: b /\ accepted_by q a = D /\
      fst y <> fst x /\ adding q max (fst y) a.
  Proof.
    intros Ha Ht. destruct (by_entry _ _ _ _ _ Ha) as (a & t1 & p1 & e1 & m1 & e1' & m1' & b & Eh & -> & Ea & Eb).
    destruct (by_entry _ _ _ _ _ Eb) as (b1 & t2 & p2 & e2 & m2 & e2' & m2' & c & Eh2 & -> & Eb1 & _). subst b.
    exists a, p1, e1, m1, e1', m1', (b1 ++ (t2, OOffer q p2 e2 m2 e2' m2') :: c). split; [exact Eh|]. split; [exact Ea|]. cbn [fst].
    assert (HT' : T = (a ++ (t1, OOffer q p1 e1 m1 e1' m1') :: b1) ++ (t2, OOffer q p2 e2 m2 e2' m2') :: c ++ r).
    { rewrite HT, Eh. lst. }
    destruct (offer_past E w0 w H0 Hr _ _ _ _ _ _ _ _ _ HT') as (Hq & _).
    destruct (offer_looked _ _ _ _ _ _ _ _ _ max HT' (Hlim _ (eq_sym Hq)) Hmax) as (u & cc & v & Huv & Hf & Hn).
    destruct (cut2 _ _ _ _ _ _ Huv) as [(a2 & Ea2 & Hv2)|[(_ & Hx & _)|(b2 & Hb1 & Hb2)]].
    - rewrite Hv2, thread_obs_split in Hf. apply Forall_app in Hf. destruct Hf as [Hf1 Hf2]. split.
      + intros ->. rewrite thread_obs_cons in Hf2. inversion Hf2 as [|? ? Hno _]. exact Hno.
      + rewrite Ea2. apply looked_adding. exact Hf1.
    - discriminate Hx.
    - exfalso.
      assert (Hau : acc q u >= S (List.length D)).
      { rewrite Hb1. unfold acc. rewrite <- by_snd, map_length, by_split, app_length, Ea. unfold accepted_by at 1. simpl. rewrite Nat.eqb_refl. simpl. lia. }
      assert (Htu : tak q (a ++ (t1, OOffer q p1 e1 m1 e1' m1') :: b1) <= tak q h).
      { rewrite Eh. change (a ++ (t1, OOffer q p1 e1 m1 e1' m1') :: b1 ++ (t2, OOffer q p2 e2 m2 e2' m2') :: c) with
          (a ++ ((t1, OOffer q p1 e1 m1 e1' m1') :: b1) ++ (t2, OOffer q p2 e2 m2 e2' m2') :: c).
        rewrite app_assoc. apply tak_app. }
      lia.
  Qed.
  Lemma room_split : List.length (waiting q h) < Z.to_nat max \/ exists D W, accepted_by q h = D ++ W /\
    tak q h + Z.to_nat (max - 1) <= List.length D /\ List.length (waiting q h) = Z.to_nat (max - 1) + List.length W.
  Proof.
    destruct (waiting_by q h r HT) as (D & W & Ha & Ht & Hw).
    assert (Hl : List.length (waiting q h) = List.length W) by (rewrite <- Hw; apply map_length).
    destruct (Nat.lt_ge_cases (List.length (waiting q h)) (Z.to_nat max)) as [|Hge]; [left; assumption|right].
    exists (D ++ firstn (Z.to_nat (max - 1)) W), (skipn (Z.to_nat (max - 1)) W).
    split; [rewrite <- app_assoc, firstn_skipn; exact Ha|]. rewrite app_length, firstn_length, skipn_length. unfold tak. lia.
  Qed.
  Lemma sel_all {A} (W : list A) : filter (fun _ => true) W = W.
  Proof. induction W; simpl; congruence. Qed.
  Lemma bound_at k : (forall a b, h = a ++ b -> at_most k (fun t => adding q max t a)) ->
    (Z.of_nat (List.length (waiting q h)) <= max - 1 + Z.of_nat k)%Z.
  Proof.
    intro Hk. destruct room_split as [Hlt|(D & W & Ha & Ht & Hl)]; [lia|].
    pose proof (pairs_bound q h (tak q h + Z.to_nat (max - 1)) (fun _ => true) (adding q max)
      (fun D x W1 y W2 H1 H2 _ _ => room_pair D x W1 y W2 H1 H2) room_self k D W Ha Ht Hk) as Hb. rewrite sel_all in Hb. lia.
  Qed.
  Lemma bound_threads_at ts : (forall t, feeds q t h -> In t ts) ->
    (Z.of_nat (List.length (waiting q h)) <= max - 1 + Z.of_nat (List.length ts))%Z.
  Proof.
    intro Hts. destruct room_split as [Hlt|(D & W & Ha & Ht & Hl)]; [lia|].
    pose proof (pairs_feeders q h (tak q h + Z.to_nat (max - 1)) (fun _ => true) (adding q max)
      (fun D x W1 y W2 H1 H2 _ _ => room_pair D x W1 y W2 H1 H2) ts D W Ha Ht Hts) as Hb. rewrite sel_all in Hb. lia.
  Qed.
  End Room.
  Lemma bound q max k : (0 < max)%Z -> (forall m, queue_of E m = q -> limit E m = max) ->
    (forall h r, T = h ++ r -> at_most k (fun t => adding q max t h)) ->
    forall h r, T = h ++ r -> (Z.of_nat (List.length (waiting q h)) <= max - 1 + Z.of_nat k)%Z.
  Proof.
    intros H1 H2 H3 h r Hs. apply (bound_at q max h r Hs H1 H2). intros a b ->. apply (H3 a (b ++ r)). rewrite Hs. symmetry. apply app_assoc.
  Qed.
  Lemma bound_threads q max ts : (0 < max)%Z -> (forall m, queue_of E m = q -> limit E m = max) ->
    (forall t, feeds q t T -> In t ts) ->
    forall h r, T = h ++ r -> (Z.of_nat (List.length (waiting q h)) <= max - 1 + Z.of_nat (List.length ts))%Z.
  Proof.
    intros H1 H2 H3 h r Hs. apply (bound_threads_at q max h r Hs H1 H2). intros t (p & e & m & e' & m' & Hin). apply H3.
    exists p, e, m, e', m'. rewrite Hs. apply in_or_app. auto.
  Qed.

  (** ** C27 *)
  Lemma reads_access l : reads l -> Forall access l.
  Proof. intro H. induction H as [|o l Ho Hl IH]; constructor; auto; destruct o; try discriminate; exact I. Qed.
  Lemma seen_queue_snoc q l o : seen_queue q (l ++ [o]) =
    match o with ORd (RdIter q' _) => if Nat.eqb q' q then true else seen_queue q l | ORd _ | OWr _ => seen_queue q l | _ => false end.
  Proof. unfold seen_queue. rewrite fold_left_app. reflexivity. Qed.
  Lemma seen_queue_app q l1 l2 : seen_queue q l1 = true -> Forall access l2 -> seen_queue q (l1 ++ l2) = true.
  Proof.
    intros H1 H2. revert l1 H1. induction H2 as [|o l Ho Hl IH]; intros l1 H1; [rewrite app_nil_r; exact H1|].
    change (o :: l) with ([o] ++ l). rewrite app_assoc. apply IH. rewrite seen_queue_snoc.
    destruct o; try contradiction; auto. destruct r; auto. destruct (Nat.eqb q0 q); auto.
  Qed.

  Lemma name_read h t e nm r h' r' : objects_exist T -> T = h ++ (t, ORd (RdName e nm)) :: r -> T = h' ++ r' -> upto (h ++ [(t, ORd (RdName e nm))]) h' ->
    name_at E w0 e h' = nm.
  Proof.
    intros Hob Hs Hs' [u Hu]. pose proof (read_true E w0 w H0 Hr _ _ _ _ Hs) as Hn. simpl in Hn. rewrite Hn. subst h'.
    rewrite <- app_assoc. apply (name_fixed E w0 w H0 Hr e h ([(t, ORd (RdName e nm))] ++ u) r'); [|eapply Hob; exact Hs].
    rewrite Hs'. rewrite <- !app_assoc. reflexivity.
  Qed.
  Lemma name_copy h t e nm y r h' r' : T = h ++ (t, OWr (WrCopy e nm y)) :: r -> T = h' ++ r' -> upto (h ++ [(t, OWr (WrCopy e nm y))]) h' ->
    name_at E w0 e h' = nm.
  Proof.
    intros Hs Hs' [u Hu]. subst h'. rewrite (name_fixed E w0 w H0 Hr e (h ++ [(t, OWr (WrCopy e nm y))]) u r').
    - unfold name_at, names_of. rewrite replay_snoc. unfold eid_eqb. destruct (eid_eq_dec e e); [reflexivity|congruence].
    - rewrite Hs'. rewrite <- !app_assoc. reflexivity.
    - unfold made. destruct e; auto. exists t, nm, y. apply in_or_app. right. left. reflexivity.
  Qed.
  Lemma match_in nm ps l : matchL nm ps (inr false) l -> forall p, In p ps -> exists l1 e m nm' l2,
    l = l1 ++ ORd (RdPair p (Some (e, m))) :: ORd (RdName e nm') :: l2 /\ nm' <> nm.
  Proof.
    intro H. remember (inr false) as b eqn:Eb. induction H as [|p0 r|p0 r e m|p0 r e m nm' b out Hn Hm IH]; intros p Hin; try discriminate; [destruct Hin|].
    destruct Hin as [->|Hin].
    - exists [], e, m, nm', out. auto.
    - destruct (IH Eb p Hin) as (l1 & e1 & m1 & nm1 & l2 & -> & Hne).
      exists (ORd (RdPair p0 (Some (e, m))) :: ORd (RdName e nm') :: l1), e1, m1, nm1, l2. auto.
  Qed.
  Lemma acc_split q a b : accepted q (a ++ b) = accepted q a ++ accepted q b.
  Proof. apply flat_map_app. Qed.
  Lemma tak_split q a b : taken q (a ++ b) = taken q a ++ taken q b.
  Proof. apply flat_map_app. Qed.
  (** the event stays in the queue while the number of events taken is small *)
  Lemma in_waiting q a t p e m e' m' b : List.length (taken q (a ++ (t, OOffer q p e m e' m') :: b)) <= List.length (accepted q a) ->
    In (p, Some (e', m')) (waiting q (a ++ (t, OOffer q p e m e' m') :: b)).
  Proof.
    intro Hle. unfold waiting. rewrite acc_split. change ((t, OOffer q p e m e' m') :: b) with ([(t, OOffer q p e m e' m')] ++ b) at 2.
    rewrite acc_split. unfold accepted at 2. simpl. rewrite Nat.eqb_refl. simpl.
    rewrite skipn_app. apply in_or_app. right.
    replace (List.length (taken q (a ++ (t, OOffer q p e m e' m') :: b)) - List.length (accepted q a)) with 0 by lia. left. reflexivity.
  Qed.

  Lemma in_skip {A} (l : list A) : forall k i x, k <= i -> nth_error l i = Some x -> In x (skipn k l).
  Proof.
    induction l as [|y l IH]; intros k i x Hk Hn; [destruct i; discriminate|]. destruct k as [|k]; [eapply nth_error_In; exact Hn|].
    destruct i as [|i]; [lia|]. simpl in *. apply (IH k i); [lia|exact Hn].
  Qed.
  (** a walk along the queue that starts at or before an event that stays in the
      queue looks at this event *)
  Lemma scan_in t2 q nm f c l i p1 h2 rest : T = h2 ++ rest -> scanL nm q f c (inr false) l -> forall u v pre suf, h2 = u ++ v -> c <= i ->
    thread_obs t2 v = pre ++ l ++ suf ->
    (forall x y, h2 = x ++ y -> upto u x -> tak q x <= i /\ nth_error (map fst (accepted q x)) i = Some p1) ->
    exists l1 e m nm' l2, l = l1 ++ ORd (RdPair p1 (Some (e, m))) :: ORd (RdName e nm') :: l2 /\ nm' <> nm.
  Proof.
    intros HT Hsc u v pre suf Huv. revert pre. remember (inr false) as b eqn:Eb.
    assert (Hat : forall pre r l, thread_obs t2 v = pre ++ ORd r :: l -> exists x y, h2 = x ++ y /\ upto u x /\ q_read_at x r).
    { intros pre r l' Hv. destruct (obs_entry _ _ _ _ _ Hv) as (v1 & v2 & Ev & _ & _). exists (u ++ v1), ((t2, ORd r) :: v2).
      split; [rewrite Huv, Ev; lst|]. split; [eexists; reflexivity|].
      eapply (q_read_true E w0 w t2 _ r (v2 ++ rest) H0 Hr). rewrite HT, Huv, Ev. lst. }
    induction Hsc as [c ps b l Hm|f c|f c p c' fin|f c p c' fin e m|f c p c' e m nm' Hn|f c p c' e m nm' b l Hn Hm IH];
      intros pre Hci Hv Hi; try discriminate.
    - subst b. destruct (Hat _ _ _ Hv) as (x & y & Exy & Hux & Hq). simpl in Hq. destruct (Hi x y Exy Hux) as [Ht Hne].
      destruct (match_in _ _ _ Hm p1) as (l1 & e & m & nm' & l2 & -> & Hnn).
      + rewrite Hq, <- skipn_map. eapply in_skip; [|exact Hne]. lia.
      + exists (R (RdRest q c ps) :: l1), e, m, nm', l2. auto.
    - exfalso. destruct (Hat _ _ _ Hv) as (x & y & Exy & Hux & Hq). simpl in Hq. destruct (Hi x y Exy Hux) as [Ht Hne].
      assert (Hlt : i < List.length (map fst (accepted q x))) by (apply nth_error_Some; congruence). rewrite map_length in Hlt. unfold acc in Hq. lia.
    - destruct (Hat _ _ _ Hv) as (x & y & Exy & Hux & Hq). simpl in Hq. destruct (Hi x y Exy Hux) as [Ht Hne].
      destruct Hq as (-> & Hp & Hfin). specialize (Hfin eq_refl).
      assert (Hlt : i < List.length (map fst (accepted q x))) by (apply nth_error_Some; congruence). rewrite map_length in Hlt. unfold acc in Hfin.
      assert (Hx : Nat.max c (tak q x) = i) by lia. rewrite Hx in Hp. assert (p = p1) by congruence. subst p.
      exists [R (RdNext q c (Some (p1, S (Nat.max c (tak q x)), true)))], e, m, nm', []. auto.
    - destruct (Hat _ _ _ Hv) as (x & y & Exy & Hux & Hq). simpl in Hq. destruct (Hi x y Exy Hux) as [Ht Hne].
      destruct Hq as (-> & Hp & _). destruct (Nat.eq_dec (Nat.max c (tak q x)) i) as [Hx|N].
      + rewrite Hx in Hp. assert (p = p1) by congruence. subst p.
        exists [R (RdNext q c (Some (p1, S (Nat.max c (tak q x)), false)))], e, m, nm', l. auto.
      + destruct (IH Eb (pre ++ [R (RdNext q c (Some (p, S (Nat.max c (tak q x)), false))); R (RdPair p (Some (e, m))); R (RdName e nm')])) as (l1 & e1 & m1 & nm1 & l2 & -> & Hnn);
          [lia|rewrite Hv; lst|exact Hi|].
        exists (R (RdNext q c (Some (p, S (Nat.max c (tak q x)), false))) :: R (RdPair p (Some (e, m))) :: R (RdName e nm') :: l1), e1, m1, nm1, l2. auto.
  Qed.

  Lemma offer_inspecting h t q p e m e' m' r : T = h ++ (t, OOffer q p e m e' m') :: r -> drops_duplicates E m = true -> inspecting q t h.
  Proof.
    intros Hs Hd. destruct (offer_past E w0 w H0 Hr _ _ _ _ _ _ _ _ _ Hs) as (-> & _ & g0 & c & n & mid & Hg & _ & Hsm & _ & Hdr).
    destruct (Hdr Hd) as (g1 & cc & nm & scan & -> & Hm). unfold inspecting. rewrite Hg.
    change (ORd (RdIter (queue_of E m) cc) :: ORd (RdName e nm) :: scan) with ([ORd (RdIter (queue_of E m) cc)] ++ ORd (RdName e nm) :: scan).
    rewrite app_assoc, <- app_assoc. apply seen_queue_app; [rewrite seen_queue_snoc, Nat.eqb_refl; reflexivity|].
    apply Forall_app. split; [constructor; [exact I|eapply reads_access, scan_reads; eauto]|]. constructor; [exact I|]. constructor; [exact I|]. apply small_access. exact Hsm.
  Qed.

  Lemma no_two a t1 q p1 e1 m1 e1' m1' b t2 p2 e2 m2 e2' m2' c r : objects_exist T ->
    T = a ++ (t1, OOffer q p1 e1 m1 e1' m1') :: b ++ (t2, OOffer q p2 e2 m2 e2' m2') :: c ++ r ->
    drops_duplicates E m2 = true ->
    List.length (taken q (a ++ (t1, OOffer q p1 e1 m1 e1' m1') :: b)) <= List.length (accepted q a) ->
    (let h := a ++ (t1, OOffer q p1 e1 m1 e1' m1') :: b ++ (t2, OOffer q p2 e2 m2 e2' m2') :: c in name_at E w0 e1' h = name_at E w0 e2' h) ->
    t2 <> t1 /\ inspecting q t2 a.
  Proof.
    intros Hob HT Hd Hw Hnm. simpl in Hnm.
    set (o1 := OOffer q p1 e1 m1 e1' m1') in *. set (o2 := OOffer q p2 e2 m2 e2' m2') in *.
    assert (HT2 : T = (a ++ (t1, o1) :: b) ++ (t2, o2) :: c ++ r) by (rewrite HT; rewrite <- app_assoc; reflexivity).
    set (h2 := a ++ (t1, o1) :: b) in *. set (h := a ++ (t1, o1) :: b ++ (t2, o2) :: c) in *.
    assert (Hh : h = h2 ++ (t2, o2) :: c) by (unfold h, h2; rewrite <- app_assoc; reflexivity).
    assert (HTh : T = h ++ r) by (rewrite HT2, Hh, <- app_assoc; reflexivity).
    destruct (offer_past E w0 w H0 Hr _ _ _ _ _ _ _ _ _ HT2) as (Hq & _ & g0 & ct & n & mid & Hg & _ & Hsm & Hcopy & Hdr).
    destruct (Hdr Hd) as (g1 & cc & nm & scan & -> & Hm). rewrite <- Hq in *. clear Hdr.
    set (tail := ORd (RdName e2 nm) :: scan ++ ORd (RdLook q ct) :: ORd (RdSize q ct n) :: mid).
    assert (Hg' : thread_obs t2 h2 = g1 ++ ORd (RdIter q cc) :: tail) by (rewrite Hg, <- app_assoc; reflexivity).
    assert (Htail : Forall access tail).
    { constructor; [exact I|]. apply Forall_app. split; [eapply reads_access, scan_reads; eauto|]. constructor; [exact I|]. constructor; [exact I|apply small_access; exact Hsm]. }
    destruct (obs_entry _ _ _ _ _ Hg') as (u & v & Huv & Hu & Hv).
    destruct (cut2 _ _ _ _ _ _ Huv) as [(a2 & Ha & Hv2)|[(_ & Hx & _)|(b1 & Hb1 & Hb2)]].
    - (* inspected before event 1 was queued *)
      rewrite Hv2, thread_obs_split in Hv. split.
      + intro Ht. subst t2. rewrite thread_obs_cons in Hv. rewrite <- Hv in Htail. apply Forall_app in Htail. destruct Htail as [_ Ht].
        inversion Ht as [|? ? Hno _]. exact Hno.
      + unfold inspecting. rewrite Ha, thread_obs_split, thread_obs_cons.
        change (ORd (RdIter q cc) :: thread_obs t2 a2) with ([ORd (RdIter q cc)] ++ thread_obs t2 a2). rewrite app_assoc.
        apply seen_queue_app; [rewrite seen_queue_snoc, Nat.eqb_refl; reflexivity|]. rewrite <- Hv in Htail. apply Forall_app in Htail. apply Htail.
    - discriminate Hx.
    - (* inspected later: event 1 was seen *)
      exfalso.
      assert (Hin : forall x y, h2 = x ++ y -> upto u x -> In (p1, Some (e1', m1')) (waiting q x)).
      { intros x y Hxy [z Hz]. subst x. rewrite Hb1. rewrite <- app_assoc. simpl. apply in_waiting.
        rewrite Hxy in Hw. rewrite tak_split, app_length in Hw. rewrite Hb1, <- app_assoc in Hw. simpl in Hw. unfold o1 in Hw. lia. }
      (* the walk *)
      assert (HTu : T = u ++ (t2, ORd (RdIter q cc)) :: v ++ (t2, o2) :: c ++ r) by (rewrite HT2, Huv, <- app_assoc; reflexivity).
      pose proof (q_read_true E w0 w t2 u _ _ H0 Hr HTu) as Hps. simpl in Hps.
      assert (Hid : forall x y, h2 = x ++ y -> upto u x -> tak q x <= acc q a /\ nth_error (map fst (accepted q x)) (acc q a) = Some p1).
      { intros x y Hxy [z Hz]. split.
        - unfold tak, acc. rewrite Hxy, tak_split, app_length in Hw. lia.
        - subst x. rewrite Hb1, <- app_assoc. rewrite acc_split, map_app. unfold acc. rewrite <- (map_length fst (accepted q a)).
          rewrite nth_error_app2 by lia. rewrite Nat.sub_diag. unfold accepted. simpl. rewrite Nat.eqb_refl. reflexivity. }
      assert (Huv' : h2 = (u ++ [(t2, ORd (RdIter q cc))]) ++ v) by (rewrite Huv; lst).
      destruct (scan_in t2 q nm (snd cc) (fst cc) scan (acc q a) p1 h2 _ HT2 Hm _ v [ORd (RdName e2 nm)] (ORd (RdLook q ct) :: ORd (RdSize q ct n) :: mid) Huv')
        as (l1 & e & m & nm' & l2 & Hscan & Hne).
      { rewrite Hps. apply (Hid u _ Huv). exists []. rewrite app_nil_r. reflexivity. }
      { exact Hv. }
      { intros x y Hxy [z Hz]. apply (Hid x y Hxy). exists ((t2, ORd (RdIter q cc)) :: z). rewrite Hz. lst. }
      (* the pair was read and held event 1 *)
      assert (Hv3 : thread_obs t2 v = (ORd (RdName e2 nm) :: l1) ++ ORd (RdPair p1 (Some (e, m))) :: ORd (RdName e nm') :: l2 ++ ORd (RdLook q ct) :: ORd (RdSize q ct n) :: mid).
      { rewrite Hv. unfold tail. rewrite Hscan. rewrite <- app_assoc. reflexivity. }
      destruct (obs_entry _ _ _ _ _ Hv3) as (v1 & v2 & Ev & _ & Hv2).
      set (h3 := u ++ (t2, ORd (RdIter q cc)) :: v1).
      assert (E3 : h2 = h3 ++ (t2, ORd (RdPair p1 (Some (e, m)))) :: v2) by (rewrite Huv, Ev; unfold h3; rewrite <- app_assoc; reflexivity).
      assert (Hw3 : In (p1, Some (e1', m1')) (waiting q h3)) by (apply (Hin _ _ E3); exists ((t2, ORd (RdIter q cc)) :: v1); reflexivity).
      assert (HT3 : T = h3 ++ (t2, ORd (RdPair p1 (Some (e, m)))) :: v2 ++ (t2, o2) :: c ++ r) by (rewrite HT2, E3, <- app_assoc; reflexivity).
      pose proof (q_read_true E w0 w t2 h3 _ _ H0 Hr HT3) as Hpr. simpl in Hpr.
      destruct (reach_prefix E w0 w (im_tr _ _ H0) Hr h3 _ HT3) as (w3 & Hr3 & Ew3). rewrite <- Ew3 in Hw3, Hpr.
      destruct (waiting_pair E w0 w3 q p1 _ H0 Hr3 Hw3) as [Hc _]. rewrite Hc in Hpr.
      assert (He : Some (e, m) = Some (e1', m1')) by (apply Hpr; left; eauto). injection He as -> ->.
      (* its name *)
      destruct (obs_entry _ _ [] _ _ Hv2) as (v3 & v4 & Ev2 & _ & Hv4).
      assert (HT4 : T = (h3 ++ (t2, ORd (RdPair p1 (Some (e1', m1')))) :: v3) ++ (t2, ORd (RdName e1' nm')) :: v4 ++ (t2, o2) :: c ++ r).
      { rewrite HT3, Ev2. lst. }
      assert (N1 : name_at E w0 e1' h = nm').
      { eapply name_read; [exact Hob|exact HT4|exact HTh|]. exists (v4 ++ (t2, o2) :: c). rewrite Hh, E3, Ev2. lst. }
      (* the name of the fired event *)
      assert (N2 : forall nm0, In (ORd (RdName e2 nm0)) tail -> name_at E w0 e2 h = nm0).
      { intros nm0 Hi. apply in_split in Hi. destruct Hi as (k1 & k2 & Hk). rewrite Hk in Hv.
        destruct (obs_entry _ _ _ _ _ Hv) as (x1 & x2 & Ex & _ & _).
        assert (HT5 : T = (u ++ (t2, ORd (RdIter q cc)) :: x1) ++ (t2, ORd (RdName e2 nm0)) :: x2 ++ (t2, o2) :: c ++ r).
        { rewrite HTu, Ex. lst. }
        eapply name_read; [exact Hob|exact HT5|exact HTh|]. exists (x2 ++ (t2, o2) :: c). rewrite Hh, Huv, Ex. lst. }
      assert (N3 : name_at E w0 e2 h = nm) by (apply N2; left; reflexivity).
      assert (N4 : name_at E w0 e2' h = nm).
      { destruct Hcopy as [->|(nm2 & y & Hc1 & Hc2)]; [exact N3|].
        assert (Hsub : forall o, In o mid -> In o tail) by (intros o Ho; right; apply in_or_app; right; right; right; exact Ho).
        rewrite <- N3, (N2 nm2 (Hsub _ Hc1)).
        apply Hsub in Hc2. apply in_split in Hc2. destruct Hc2 as (k1 & k2 & Hk). rewrite Hk in Hv.
        destruct (obs_entry _ _ _ _ _ Hv) as (x1 & x2 & Ex & _ & _).
        assert (HT5 : T = (u ++ (t2, ORd (RdIter q cc)) :: x1) ++ (t2, OWr (WrCopy e2' nm2 y)) :: x2 ++ (t2, o2) :: c ++ r).
        { rewrite HTu, Ex. lst. }
        eapply name_copy; [exact HT5|exact HTh|]. exists (x2 ++ (t2, o2) :: c). rewrite Hh, Huv, Ex. lst. }
      congruence.
  Qed.

  Section Named.
  Context (q : qid) (nm : string) (h r : trace) (HT : T = h ++ r) (Hob : objects_exist T)
    (Hdrop : forall m, queue_of E m = q -> drops_duplicates E m = true).
  Definition same (x : tid * (pid * option (eid * mid))) : bool :=
    match snd (snd x) with Some (e, _) => String.eqb (name_at E w0 e h) nm | None => false end.

  (** the thread of a later duplicate inspected the queue before the earlier one was queued *)
  Lemma named_pair D x W1 y W2 : accepted_by q h = D ++ x :: W1 ++ y :: W2 -> List.length (taken q h) <= List.length D ->
    same x = true -> same y = true ->
    exists a p e m e' m' b, h = a ++ (fst x, OOffer q p e m e' m') :: b /\ accepted_by q a = D /\
      fst y <> fst x /\ inspecting q (fst y) a.
  Proof.
    intros Ha Ht Hx Hy. destruct (by_entry _ _ _ _ _ Ha) as (a & t1 & p1 & e1 & m1 & e1' & m1' & b & Eh & -> & Ea & Eb).
    destruct (by_entry _ _ _ _ _ Eb) as (b1 & t2 & p2 & e2 & m2 & e2' & m2' & c & Eh2 & -> & Eb1 & _). subst b.
    exists a, p1, e1, m1, e1', m1', (b1 ++ (t2, OOffer q p2 e2 m2 e2' m2') :: c). split; [exact Eh|]. split; [exact Ea|]. simpl.
    assert (HT' : T = (a ++ (t1, OOffer q p1 e1 m1 e1' m1') :: b1) ++ (t2, OOffer q p2 e2 m2 e2' m2') :: c ++ r).
    { rewrite HT, Eh. lst. }
    destruct (offer_past E w0 w H0 Hr _ _ _ _ _ _ _ _ _ HT') as (Hq & _).
    eapply (no_two a t1 q p1 e1 m1 e1' m1' b1 t2 p2 e2 m2 e2' m2' c r Hob).
    - rewrite HT', <- app_assoc. reflexivity.
    - apply Hdrop. auto.
    - rewrite <- (by_snd q a), map_length, Ea.
      assert (Hle : List.length (taken q (a ++ (t1, OOffer q p1 e1 m1 e1' m1') :: b1)) <= List.length (taken q h)).
      { replace h with ((a ++ (t1, OOffer q p1 e1 m1 e1' m1') :: b1) ++ (t2, OOffer q p2 e2 m2 e2' m2') :: c) by (rewrite Eh, <- app_assoc; reflexivity).
        rewrite (tak_split q (a ++ (t1, OOffer q p1 e1 m1 e1' m1') :: b1)), app_length. lia. }
      lia.
    - simpl. rewrite <- Eh. unfold same in Hx, Hy. simpl in Hx, Hy. apply String.eqb_eq in Hx, Hy. congruence.
  Qed.
  Lemma filter_same W : map snd (filter same W) = filter (fun pc => match snd pc with Some (e, _) => String.eqb (name_at E w0 e h) nm | None => false end) (map snd W).
  Proof.
    induction W as [|[t [p c]] W IH]; [reflexivity|]. simpl. unfold same at 1. simpl. destruct c as [[e m]|]; [|exact IH].
    destruct (String.eqb _ _); simpl; rewrite IH; reflexivity.
  Qed.

  Lemma named_self a t p e m e' m' b : h = a ++ (t, OOffer q p e m e' m') :: b -> inspecting q t a.
  Proof.
    intro Eh. assert (HT' : T = a ++ (t, OOffer q p e m e' m') :: b ++ r) by (rewrite HT, Eh, <- app_assoc; reflexivity).
    destruct (offer_past E w0 w H0 Hr _ _ _ _ _ _ _ _ _ HT') as (Hq & _).
    eapply offer_inspecting; [exact HT'|]. apply Hdrop. auto.
  Qed.
  Lemma duplicates_bound k : (forall a b, h = a ++ b -> at_most k (fun t => inspecting q t a)) ->
    List.length (waiting_named E w0 q nm h) <= k.
  Proof.
    intro Hk. destruct (waiting_by q h r HT) as (D & W & Ha & Ht & Hw).
    unfold waiting_named. rewrite <- Hw, <- filter_same, map_length.
    eapply (pairs_bound q h (List.length (taken q h)) same (inspecting q) named_pair named_self k D W Ha); [lia|exact Hk].
  Qed.
  Lemma duplicates_feeders ts : (forall t, feeds q t h -> In t ts) -> List.length (waiting_named E w0 q nm h) <= List.length ts.
  Proof.
    intro Hts. destruct (waiting_by q h r HT) as (D & W & Ha & Ht & Hw).
    unfold waiting_named. rewrite <- Hw, <- filter_same, map_length.
    eapply (pairs_feeders q h (List.length (taken q h)) same (inspecting q) named_pair ts D W Ha); [lia|exact Hts].
  Qed.
  End Named.
End Bound.
