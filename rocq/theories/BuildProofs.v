(** * BuildProofs.v: proofs about building strategies and machines (C28, C29, C47) *)
From Verif Require Import Spec BuildSpec.

(** ** Small lemmas *)
Lemma cid_eqb_spec a b : reflect (a = b) (cid_eqb a b).
Proof. destruct a, b; simpl; try (constructor; congruence). destruct (Nat.eqb_spec n n0); constructor; congruence. Qed.
Lemma field_eqb_spec a b : reflect (a = b) (field_eqb a b).
Proof. destruct a, b; simpl; constructor; congruence. Qed.
Lemma bput_same {A : Set} (f : nat -> A) k v : bput f k v k = v. Proof. unfold bput. rewrite Nat.eqb_refl. reflexivity. Qed.
Lemma bput_other {A : Set} (f : nat -> A) k v k' : k' <> k -> bput f k v k' = f k'.
Proof. intro H. unfold bput. destruct (Nat.eqb_spec k' k); [contradiction|reflexivity]. Qed.
Lemma cput_same f k v : cput f k v k = v. Proof. unfold cput. destruct (cid_eqb_spec k k); congruence. Qed.
Lemma cput_other f k v k' : k' <> k -> cput f k v k' = f k'.
Proof. intro H. unfold cput. destruct (cid_eqb_spec k' k); [contradiction|reflexivity]. Qed.
Lemma fput_same f k v : fput f k v k = v. Proof. unfold fput. destruct (field_eqb_spec k k); congruence. Qed.
Lemma fput_other f k v k' : k' <> k -> fput f k v k' = f k'.
Proof. intro H. unfold fput. destruct (field_eqb_spec k' k); [contradiction|reflexivity]. Qed.
Lemma nth_snoc {A} (l : list A) x n y : nth_error (l ++ [x]) n = Some y -> nth_error l n = Some y \/ (n = List.length l /\ y = x).
Proof.
  intro H. destruct (Nat.lt_ge_cases n (List.length l)) as [Hl|Hl]; [rewrite nth_error_app1 in H by exact Hl; auto|].
  rewrite nth_error_app2 in H by exact Hl. destruct (n - List.length l) as [|k] eqn:E; simpl in H.
  - right. split; [lia|congruence].
  - destruct k; discriminate.
Qed.
Lemma nth_lt {A} (l : list A) n x : nth_error l n = Some x -> n < List.length l.
Proof. intro H. apply nth_error_Some. congruence. Qed.

(** the strategy list after setStates *)
Definition restate (x : dstrat) (m : mid) : dstrat :=
  {| d_from := d_from x; d_obj := d_obj x; d_max := d_max x; d_pool := d_pool x; d_states := Some m |}.
Lemma set_states_nth s d m k :
  nth_error (set_states s d m) k = if Nat.eqb k d then option_map (fun x => restate x m) (nth_error (dstrats s) k) else nth_error (dstrats s) k.
Proof.
  unfold set_states. destruct (nth_error (dstrats s) d) as [x|] eqn:Ed.
  2:{ destruct (Nat.eqb_spec k d) as [->|]; [rewrite Ed; reflexivity|reflexivity]. }
  assert (Hd := nth_lt _ _ _ Ed). assert (Hf : List.length (firstn d (dstrats s)) = d) by (apply firstn_length_le; lia).
  destruct (Nat.eqb_spec k d) as [->|Hne].
  - rewrite nth_error_app2, Hf, Nat.sub_diag by lia. rewrite Ed. reflexivity.
  - rewrite <- (firstn_skipn d (dstrats s)) at 3. destruct (Nat.lt_ge_cases k d) as [Hl|Hl].
    + rewrite !nth_error_app1 by lia. reflexivity.
    + rewrite !nth_error_app2, Hf by lia. destruct (k - d) as [|j] eqn:E; [lia|]. simpl.
      assert (Hs : skipn d (dstrats s) = x :: skipn (S d) (dstrats s)).
      { clear - Ed. revert Ed. generalize (dstrats s). induction d; intros [|y l] H; try discriminate; [injection H as ->; reflexivity|]. apply IHd. exact H. }
      rewrite Hs. reflexivity.
Qed.
Lemma set_states_length s d m : List.length (set_states s d m) = List.length (dstrats s).
Proof.
  unfold set_states. destruct (nth_error (dstrats s) d) as [x|] eqn:Ed; [|reflexivity].
  assert (Hd := nth_lt _ _ _ Ed). rewrite app_length. cbn [List.length]. rewrite firstn_length_le, skipn_length by lia. lia.
Qed.

(** fields already evaluated *)
Definition evaluated (p : phase) : list field :=
  match p with
  | PGet _ FExec _ => [FHandler]
  | PGet _ FFlow _ => [FHandler; FExec]
  | PMax _ | PGet _ FQueue _ => [FHandler; FExec; FFlow]
  | PNewS _ => [FHandler; FExec; FFlow; FQueue]
  | _ => []
  end.
Definition frame_of (p : phase) : option frame := match p with PGet fr _ _ | PMax fr | PNewS fr => Some fr | _ => None end.
Lemma eval_after f fr f' : In f' (evaluated (after_get f fr)) -> f' = f \/ exists g, In f' (evaluated (PGet fr f g)).
Proof. destruct f; simpl; intuition. 
  all: try (right; exists GTest; simpl; tauto).
Qed.
Lemma frame_after f fr : frame_of (after_get f fr) = Some fr. Proof. destruct f; reflexivity. Qed.
Lemma all_evaluated fr f : In f (evaluated (PNewS fr)). Proof. destruct f; simpl; auto. Qed.

Section Builds.
  Context (progs : nat -> list bop).

  (** ** Calls come from the programs *)
  Lemma todo_in sched : forall i op, In op (b_todo (threads (brun progs sched) i)) -> In op (progs i).
  Proof.
    unfold brun. induction sched as [|j sched IH] using rev_ind; [auto|]. rewrite fold_left_app. cbn [fold_left].
    set (s := fold_left _ sched _) in *. intros i op. 
    assert (Hs : threads (bstep j s) = threads s \/ (exists p, threads (bstep j s) = stay j s p) \/ threads (bstep j s) = fin j s).
    { unfold bstep. destruct (b_ph (threads s j)) as [|fr f []|fr|fr|b k|b|k], (b_todo (threads s j)) as [|o r]; auto; simpl; eauto.
      - destruct o; simpl; eauto. + destruct (handles s h') as [[[] ?]|]; simpl; eauto. + destruct (builders s b); simpl; eauto.
      - destruct (fr_into fr); simpl; eauto.
      - destruct (builders s b); simpl; eauto. }
    destruct Hs as [->|[[p ->]| ->]]; [apply IH|..]; unfold stay, fin, bput; destruct (Nat.eqb_spec i j) as [->|]; try apply IH; simpl; intro H; apply IH.
    destruct (b_todo (threads s j)); [destruct H|right; exact H].
  Qed.

  (** ** Where objects come from *)
  Definition source (s : bsys) (c : cid) (f : field) (o : obj) : Prop :=
    match o with OLib n => exists tn, nth_error (origin s) n = Some (c, f, tn) | OUser n => given progs c f n end.
  Definition dsource (s : bsys) (x : dstrat) (f : field) (o : obj) : Prop :=
    match d_from x with Some c => source s c f o | None => exists n, o = OUser n end.
  Record src (s : bsys) : Prop := {
    s_conf : forall c f o, c_obj (confs s c) f = Some o -> source s c f o;
    s_loc : forall i fr f o, frame_of (b_ph (threads s i)) = Some fr -> fr_loc fr f = Some o -> source s (fr_conf fr) f o;
    s_str : forall d x f o, nth_error (dstrats s) d = Some x -> d_obj x f = Some o -> dsource s x f o }.
  Lemma source_app s s' c f o l : origin s' = origin s ++ l -> source s c f o -> source s' c f o.
  Proof. intros Ho. destruct o as [n|n]; simpl; [auto|]. intros [tn H]. exists tn. rewrite Ho, nth_error_app1; [exact H|eapply nth_lt; eauto]. Qed.

  Lemma src_threads s i t : src s -> (forall fr f o, frame_of (b_ph t) = Some fr -> fr_loc fr f = Some o -> source s (fr_conf fr) f o) ->
    forall i' fr f o, frame_of (b_ph (bput (threads s) i t i')) = Some fr -> fr_loc fr f = Some o -> source s (fr_conf fr) f o.
  Proof. intros H Ht i'. unfold bput. destruct (Nat.eqb_spec i' i) as [->|]; [exact Ht|apply (s_loc _ H)]. Qed.

  Lemma src_step s i : (forall op, In op (b_todo (threads s i)) -> In op (progs i)) -> src s -> src (bstep i s).
  Proof.
    intros Hp H.
    assert (Hstay : forall p, (forall fr f o, frame_of p = Some fr -> fr_loc fr f = Some o -> source s (fr_conf fr) f o) -> src (upd_threads s (stay i s p))).
    { intros p Hpp. constructor; simpl; [apply (s_conf _ H)|apply src_threads; auto|apply (s_str _ H)]. }
    assert (Hfin : src (upd_threads s (fin i s))) by (constructor; simpl; [apply (s_conf _ H)|apply src_threads; [exact H|discriminate]|apply (s_str _ H)]).
    assert (Hvars : forall h b p td, frame_of p = None -> src (upd_vars s h b (bput (threads s) i {| b_ph := p; b_todo := td |}))).
    { intros h b p td Hn. constructor; simpl; [apply (s_conf _ H)| |apply (s_str _ H)]. apply src_threads; [exact H|]. simpl. congruence. }
    assert (Hconf : forall c cf l p, (forall f o, c_obj cf f = Some o -> source (upd_conf s c cf l (threads s)) c f o) ->
              (forall fr f o, frame_of p = Some fr -> fr_loc fr f = Some o -> source s (fr_conf fr) f o) -> forall td,
              src (upd_conf s c cf l (bput (threads s) i {| b_ph := p; b_todo := td |}))).
    { intros c cf l p Hc Hpp td. constructor; simpl.
      - intros c' f o. unfold cput. destruct (cid_eqb_spec c' c) as [->|]; intro Ho; [apply (Hc f o Ho)|].
        apply (source_app s _ _ _ _ l); [reflexivity|]. apply (s_conf _ H). exact Ho.
      - intros i' fr f o Hf Hl. apply (source_app s _ _ _ _ l); [reflexivity|]. revert Hf Hl. apply src_threads; [exact H|]. simpl. exact (Hpp).
      - intros d x f o Hx Ho. pose proof (s_str _ H _ _ _ _ Hx Ho) as Hd. unfold dsource in *. destruct (d_from x); [|exact Hd].
        apply (source_app s _ _ _ _ l); [reflexivity|exact Hd]. }
    assert (Hstr : forall c o z h p td, (forall f v, o f = Some v -> match c with Some c => source s c f v | None => exists n, v = OUser n end) -> frame_of p = None ->
              src (new_strat s c o z h (bput (threads s) i {| b_ph := p; b_todo := td |}))).
    { intros c o z h p td Ho Hpn. constructor; simpl.
      - apply (s_conf _ H).
      - apply src_threads; [exact H|]. simpl. congruence.
      - intros d x f v Hx Hv. apply nth_snoc in Hx. destruct Hx as [Hx|[_ ->]]; [apply (s_str _ H _ _ _ _ Hx Hv)|]. exact (Ho f v Hv). }
    unfold bstep. destruct (b_ph (threads s i)) as [|fr f g|fr|fr|b k|b|k] eqn:Ep, (b_todo (threads s i)) as [|op r] eqn:Et; auto;
      try (destruct g; exact H).
    - destruct op.
      + apply Hconf; [|discriminate]. intros f' o. unfold set_obj. simpl. unfold fput. destruct (field_eqb_spec f' f) as [->|].
        * destruct v as [n|]; [|discriminate]. intros [= <-]. exists i, u. split; [reflexivity|]. apply Hp. left. reflexivity.
        * intro Ho. eapply (source_app s); [reflexivity|]. apply (s_conf _ H). exact Ho.
      + apply Hconf; [|discriminate]. intros f' o Ho. eapply (source_app s); [reflexivity|]. apply (s_conf _ H). exact Ho.
      + apply Hconf; [|discriminate]. intros f' o Ho. eapply (source_app s); [reflexivity|]. apply (s_conf _ H). exact Ho.
      + apply Hstay. simpl. intros fr f o [= <-]. discriminate.
      + apply Hstr; [|reflexivity]. intros f v [= <-]. eauto.
      + destruct (handles s h') as [[[] d]|]; auto. apply Hvars. reflexivity.
      + apply Hvars. reflexivity.
      + destruct (builders s b); apply Hstay; simpl; [discriminate|]. intros fr f o [= <-]. discriminate.
    - assert (Hl := s_loc _ H i fr). rewrite Ep in Hl. simpl in Hl. destruct g.
      + apply Hstay. simpl. intros fr' f' o [= <-]. auto.
      + apply Hconf; simpl; [|intros fr' f' o [= <-]; auto]. intros f' o. unfold fput. destruct (field_eqb_spec f' f) as [->|].
        * intros [= <-]. simpl. exists (prefix_of (confs s (fr_conf fr))). rewrite nth_error_app2, Nat.sub_diag by lia. reflexivity.
        * intro Ho. eapply (source_app s); [reflexivity|]. apply (s_conf _ H). exact Ho.
      + apply Hstay. rewrite frame_after. intros fr' f' o [= <-]. simpl. unfold fput. destruct (field_eqb_spec f' f) as [->|]; [apply (s_conf _ H)|apply Hl; reflexivity].
    - assert (Hl := s_loc _ H i fr). rewrite Ep in Hl. simpl in Hl. apply Hstay. simpl. intros fr' f' o [= <-]. simpl. auto.
    - assert (Hl := s_loc _ H i fr). rewrite Ep in Hl. simpl in Hl. destruct (fr_into fr); apply Hstr; auto.
    - apply Hvars. reflexivity.
    - destruct (builders s b); [|exact Hfin]. apply Hstay. discriminate.
    - constructor; simpl; [apply (s_conf _ H)|apply src_threads; [exact H|discriminate]|].
      intros d x f o Hx. rewrite set_states_nth in Hx. destruct (Nat.eqb_spec d (snd k)); [|intro; eapply (s_str _ H); eauto].
      destruct (nth_error (dstrats s) d) as [y|] eqn:Ey; [|discriminate]. injection Hx as <-. intro Ho. exact (s_str _ H _ _ _ _ Ey Ho).
  Qed.
  Lemma src_run sched : src (brun progs sched).
  Proof.
    unfold brun. induction sched as [|i sched IH] using rev_ind.
    - constructor; simpl; [discriminate|discriminate|]. intros [|d]; discriminate.
    - rewrite fold_left_app. apply src_step; [|exact IH]. intro op. apply todo_in.
  Qed.

  (** two strategies from different Configs share only what the user gave to both *)
  Lemma separate sched d1 d2 c1 c2 f o : let s := brun progs sched in made_from s d1 c1 -> made_from s d2 c2 -> c1 <> c2 ->
    holds s d1 f (Some o) -> holds s d2 f (Some o) -> exists n, o = OUser n /\ given progs c1 f n /\ given progs c2 f n.
  Proof.
    intros s (x & Hx & Hc1) (y & Hy & Hc2) Hne (x' & Hx' & Ho1) (y' & Hy' & Ho2).
    rewrite Hx in Hx'. injection Hx' as <-. rewrite Hy in Hy'. injection Hy' as <-.
    pose proof (s_str _ (src_run sched) _ _ _ _ Hx Ho1) as H1. pose proof (s_str _ (src_run sched) _ _ _ _ Hy Ho2) as H2.
    unfold dsource in H1, H2. rewrite Hc1 in H1. rewrite Hc2 in H2. destruct o as [n|n]; simpl in *; [eauto|].
    destruct H1 as [t1 H1]. destruct H2 as [t2 H2]. congruence.
  Qed.

  (** ** References and pools *)
  Record refs (s : bsys) : Prop := {
    r_h : forall h k, handles s h = Some k -> snd k < List.length (dstrats s);
    r_b : forall b k, builders s b = Some k -> snd k < List.length (dstrats s);
    r_m : forall m k, nth_error (machines s) m = Some k -> snd k < List.length (dstrats s);
    r_t : forall i, match b_ph (threads s i) with PStore _ k | PMach k => snd k < List.length (dstrats s) | _ => True end;
    r_p : n_pools s = List.length (dstrats s) /\ forall d x, nth_error (dstrats s) d = Some x -> d_pool x = d;
    r_s : forall d x m, nth_error (dstrats s) d = Some x -> d_states x = Some m -> exists b, nth_error (machines s) m = Some (b, d);
    r_n : forall m b d x, nth_error (machines s) m = Some (b, d) -> nth_error (dstrats s) d = Some x -> d_states x <> None }.
  Lemma refs_step s i : refs s -> refs (bstep i s).
  Proof.
    intro H.
    assert (Hth : forall p td, match p with PStore _ k | PMach k => snd k < List.length (dstrats s) | _ => True end ->
      forall i', match b_ph (bput (threads s) i {| b_ph := p; b_todo := td |} i') with PStore _ k | PMach k => snd k < List.length (dstrats s) | _ => True end).
    { intros p td Hp i'. unfold bput. destruct (Nat.eqb_spec i' i) as [->|]; [exact Hp|apply (r_t _ H)]. }
    assert (Hstay : forall p, match p with PStore _ k | PMach k => snd k < List.length (dstrats s) | _ => True end -> refs (upd_threads s (stay i s p))).
    { intros p Hp. destruct H. constructor; simpl; auto. apply Hth. exact Hp. }
    assert (Hfin : refs (upd_threads s (fin i s))) by (destruct H; constructor; simpl; auto; apply (Hth Idle); exact I).
    assert (Hconf : forall c cf l p td, match p with PStore _ k | PMach k => snd k < List.length (dstrats s) | _ => True end ->
              refs (upd_conf s c cf l (bput (threads s) i {| b_ph := p; b_todo := td |}))).
    { intros c cf l p td Hp. destruct H. constructor; simpl; auto. apply Hth. exact Hp. }
    assert (Hstr : forall c o z h p td, (forall h' k, h h' = Some k -> snd k < S (List.length (dstrats s))) ->
              match p with PStore _ k | PMach k => snd k < S (List.length (dstrats s)) | _ => True end ->
              refs (new_strat s c o z h (bput (threads s) i {| b_ph := p; b_todo := td |}))).
    { intros c o z h p td Hh Hp. constructor; simpl; rewrite ?app_length, ?Nat.add_1_r; simpl.
      - exact Hh.
      - intros b k Hk. apply (r_b _ H) in Hk. lia.
      - intros b k Hk. apply (r_m _ H) in Hk. lia.
      - intro i'. unfold bput. destruct (Nat.eqb_spec i' i) as [->|]; [exact Hp|]. pose proof (r_t _ H i') as Ht. destruct (b_ph (threads s i')); auto.
      - destruct (r_p _ H) as [Hn Hd]. split; [lia|]. intros d x Hx. apply nth_snoc in Hx. destruct Hx as [Hx|[-> ->]]; [auto|exact Hn].
      - intros d x m Hx Hs. apply nth_snoc in Hx. destruct Hx as [Hx|[-> ->]]; [eapply (r_s _ H); eauto|discriminate].
      - intros m b d x Hm Hx. pose proof (r_m _ H _ _ Hm) as Hl. simpl in Hl. apply nth_snoc in Hx. destruct Hx as [Hx|[-> _]]; [eapply (r_n _ H); eauto|lia]. }
    unfold bstep. destruct (b_ph (threads s i)) as [|fr f g|fr|fr|b k|b|k] eqn:Ep, (b_todo (threads s i)) as [|op r] eqn:Et; auto;
      try (destruct g; exact H).
    - destruct op; try (apply Hconf; exact I); try (apply Hstay; exact I).
      + apply Hstr; [|exact I]. intros h' k. unfold bput. destruct (Nat.eqb_spec h' h) as [->|]; [intros [= <-]; simpl; lia|].
        intro Hk. apply (r_h _ H) in Hk. lia.
      + destruct (handles s h') as [[[] d]|] eqn:Eh; auto. apply (r_h _ H) in Eh as Hd. destruct Hfin. constructor; simpl in *; auto.
        intros h'' k. unfold bput. destruct (Nat.eqb_spec h'' h); [intros [= <-]; exact Hd|apply r_h0].
      + destruct Hfin. constructor; simpl in *; auto. intros b' k. unfold bput. destruct (Nat.eqb_spec b' b); [|apply r_b0].
        destruct h as [h|]; [apply r_h0|discriminate].
      + destruct (builders s b); apply Hstay; exact I.
    - destruct g; [apply Hstay; exact I|apply Hconf; exact I|]. apply Hstay. destruct f; exact I.
    - destruct (fr_into fr); apply Hstr; try exact I.
      + intros h' k. unfold bput. destruct (Nat.eqb_spec h' h) as [->|]; [intros [= <-]; simpl; lia|]. intro Hk. apply (r_h _ H) in Hk. lia.
      + intros h' k Hk. apply (r_h _ H) in Hk. lia.
      + simpl. lia.
    - pose proof (r_t _ H i) as Hk. rewrite Ep in Hk. destruct (Hstay (PRead b) I). constructor; simpl in *; auto.
      intros b' k'. unfold bput. destruct (Nat.eqb_spec b' b); [intros [= <-]; exact Hk|apply r_b0].
    - destruct (builders s b) as [k|] eqn:Eb; [|exact Hfin]. apply Hstay. apply (r_b _ H) in Eb. exact Eb.
    - pose proof (r_t _ H i) as Hk. rewrite Ep in Hk. destruct Hfin. constructor; simpl in *; rewrite ?set_states_length; auto.
      + intros m k' Hm. apply nth_snoc in Hm. destruct Hm as [Hm|[_ ->]]; [eapply r_m0; eauto|exact Hk].
      + destruct r_p0 as [Hn Hd]. split; [exact Hn|]. intros d x. rewrite set_states_nth. destruct (Nat.eqb_spec d (snd k)); [|apply Hd].
        destruct (nth_error (dstrats s) d) eqn:E; [|discriminate]. intros [= <-]. simpl. apply Hd. exact E.
      + intros d x m. rewrite set_states_nth. destruct (Nat.eqb_spec d (snd k)) as [->|].
        * destruct (nth_error (dstrats s) (snd k)) eqn:E; [|discriminate]. intros [= <-]. simpl. intros [= <-]. exists (fst k).
          rewrite nth_error_app2, Nat.sub_diag by lia. destruct k; reflexivity.
        * intros Hx Hs. destruct (r_s0 _ _ _ Hx Hs) as [b Hm]. exists b. rewrite nth_error_app1; [exact Hm|eapply nth_lt; eauto].
      + intros m b d x Hm. rewrite set_states_nth. destruct (Nat.eqb_spec d (snd k)) as [->|Hne].
        * destruct (nth_error (dstrats s) (snd k)) eqn:E; [|discriminate]. intros [= <-]. discriminate.
        * apply nth_snoc in Hm. destruct Hm as [Hm|[_ Hm]]; [eapply r_n0; eauto|]. subst k. simpl in Hne. congruence.
  Qed.
  Lemma refs_run sched : refs (brun progs sched).
  Proof.
    unfold brun. induction sched as [|i sched IH] using rev_ind.
    - constructor; simpl; try discriminate; auto; try (intros [|?]; discriminate).
      + split; [reflexivity|]. intros [|d]; discriminate.
    - rewrite fold_left_app. apply refs_step. exact IH.
  Qed.

  (** ** A field that nobody sets is never null when it is read *)
  Section Unset.
    Context (c : cid) (f : field) (Hns : never_set progs c f).
    Record full (s : bsys) : Prop := {
      f_get : forall i fr, b_ph (threads s i) = PGet fr f GRead -> fr_conf fr = c -> c_obj (confs s c) f <> None;
      f_loc : forall i fr, frame_of (b_ph (threads s i)) = Some fr -> fr_conf fr = c -> In f (evaluated (b_ph (threads s i))) -> fr_loc fr f <> None;
      f_str : forall d x, nth_error (dstrats s) d = Some x -> d_from x = Some c -> d_obj x f <> None }.
    Lemma full_step s i : (forall op, In op (b_todo (threads s i)) -> In op (progs i)) -> full s -> full (bstep i s).
    Proof.
      intros Hp H.
      (** other threads: the field of c never becomes null *)
      assert (Hgen : forall s' p td, threads s' = bput (threads s) i {| b_ph := p; b_todo := td |} ->
        (c_obj (confs s c) f <> None -> c_obj (confs s' c) f <> None) ->
        (forall fr, p = PGet fr f GRead -> fr_conf fr = c -> c_obj (confs s' c) f <> None) ->
        (forall fr, frame_of p = Some fr -> fr_conf fr = c -> In f (evaluated p) -> fr_loc fr f <> None) ->
        (forall d x, nth_error (dstrats s') d = Some x -> d_from x = Some c -> d_obj x f <> None) -> full s').
      { intros s' p td Ht Hc H1 H2 H3. constructor; [| |exact H3]; rewrite Ht; intros i' fr; unfold bput; destruct (Nat.eqb_spec i' i) as [->|].
        - apply H1.
        - intros Hi Hf. apply Hc. eapply (f_get _ H); eauto.
        - apply H2.
        - apply (f_loc _ H). }
      assert (Hid : c_obj (confs s c) f <> None -> c_obj (confs s c) f <> None) by auto.
      unfold bstep. destruct (b_ph (threads s i)) as [|fr g0 g|fr|fr|b k|b|k] eqn:Ep, (b_todo (threads s i)) as [|op r] eqn:Et; auto;
        try (destruct g; exact H).
      - destruct op.
        + eapply Hgen; [reflexivity| |discriminate|discriminate|apply (f_str _ H)]. simpl. unfold cput. destruct (cid_eqb_spec c (CUser u)) as [->|]; [|auto].
          simpl. unfold fput. destruct (field_eqb_spec f f0) as [->|]; [|auto]. exfalso. eapply (Hns i u v); [reflexivity|]. apply Hp. left. reflexivity.
        + eapply Hgen; [reflexivity| |discriminate|discriminate|apply (f_str _ H)]. simpl. unfold cput. destruct (cid_eqb_spec c (CUser u)) as [->|]; auto.
        + eapply Hgen; [reflexivity| |discriminate|discriminate|apply (f_str _ H)]. simpl. unfold cput. destruct (cid_eqb_spec c (CUser u)) as [->|]; auto.
        + eapply Hgen; [reflexivity|exact Hid|discriminate| |apply (f_str _ H)]. simpl. intros fr _ _ [].
        + eapply Hgen; [reflexivity|exact Hid|discriminate|discriminate|]. simpl. intros d x Hx. apply nth_snoc in Hx. destruct Hx as [Hx|[_ ->]]; [eapply (f_str _ H); eauto|discriminate].
        + destruct (handles s h') as [[[] d]|]; (eapply Hgen; [reflexivity|exact Hid|discriminate|discriminate|apply (f_str _ H)]).
        + eapply Hgen; [reflexivity|exact Hid|discriminate|discriminate|apply (f_str _ H)].
        + destruct (builders s b); (eapply Hgen; [reflexivity|exact Hid|discriminate|simpl; try discriminate; intros fr _ _ []|apply (f_str _ H)]).
      - assert (Hl := f_loc _ H i fr). rewrite Ep in Hl. simpl in Hl. destruct g.
        + eapply Hgen; [reflexivity|exact Hid| |simpl; intros fr' [= <-]; apply Hl; reflexivity|apply (f_str _ H)].
          intros fr' Hf Hc. injection Hf as <- -> Hg. rewrite Hc in Hg. change (c_obj (confs s c) f <> None). destruct (c_obj (confs s c) f); [discriminate|discriminate Hg].
        + eapply Hgen; [reflexivity| | |simpl; intros fr' [= <-]; apply Hl; reflexivity|apply (f_str _ H)].
          * simpl. unfold cput. destruct (cid_eqb_spec c (fr_conf fr)) as [->|]; [|auto]. simpl. unfold fput. destruct (field_eqb_spec f g0); [discriminate|auto].
          * intros fr' Hf Hc. injection Hf as <- ->. simpl. rewrite <- Hc, cput_same. simpl. rewrite fput_same. discriminate.
        + eapply Hgen; [reflexivity|exact Hid| | |apply (f_str _ H)].
          * destruct g0; discriminate.
          * rewrite frame_after. intros fr' [= <-] Hc Hin. simpl in Hc. simpl. unfold fput. destruct (field_eqb_spec f g0) as [Heq|Hne].
            -- rewrite Hc, <- Heq. apply (f_get _ H i fr); [rewrite Ep, Heq; reflexivity|exact Hc].
            -- apply Hl; [reflexivity|exact Hc|]. destruct (eval_after _ _ _ Hin) as [?|[g Hg]]; [congruence|]. destruct g0, g; exact Hg.
      - assert (Hl := f_loc _ H i fr). rewrite Ep in Hl. simpl in Hl. eapply Hgen; [reflexivity|exact Hid|discriminate| |apply (f_str _ H)].
        simpl. intros fr' [= <-]. simpl. apply Hl. reflexivity.
      - assert (Hl := f_loc _ H i fr). rewrite Ep in Hl. simpl in Hl.
        assert (Hd : forall x, d_from x = Some (fr_conf fr) -> d_obj x = fr_loc fr -> d_from x = Some c -> d_obj x f <> None).
        { intros x H1 -> H2. apply Hl; [reflexivity|congruence|apply (all_evaluated fr)]. }
        destruct (fr_into fr); (eapply Hgen; [reflexivity|exact Hid|discriminate|discriminate|]);
          simpl; intros d x Hx; apply nth_snoc in Hx; (destruct Hx as [Hx|[_ ->]]; [eapply (f_str _ H); eauto|apply Hd; reflexivity]).
      - eapply Hgen; [reflexivity|exact Hid|discriminate|discriminate|apply (f_str _ H)].
      - destruct (builders s b); (eapply Hgen; [reflexivity|exact Hid|discriminate|discriminate|apply (f_str _ H)]).
      - eapply Hgen; [reflexivity|exact Hid|discriminate|discriminate|]. simpl. intros d x. rewrite set_states_nth. destruct (Nat.eqb_spec d (snd k)); [|apply (f_str _ H)].
        destruct (nth_error (dstrats s) d) eqn:E; [|discriminate]. intros [= <-]. simpl. eapply (f_str _ H); eauto.
    Qed.
    Lemma full_run sched : full (brun progs sched).
    Proof.
      unfold brun. induction sched as [|i sched IH] using rev_ind.
      - constructor; simpl; try discriminate. intros [|d]; discriminate.
      - rewrite fold_left_app. apply full_step; [|exact IH]. intro op. apply todo_in.
    Qed.
    Lemma unset_lib sched d x : let s := brun progs sched in nth_error (dstrats s) d = Some x -> d_from x = Some c ->
      exists n tn, d_obj x f = Some (OLib n) /\ nth_error (origin s) n = Some (c, f, tn).
    Proof.
      intros s Hx Hc. pose proof (f_str _ (full_run sched) _ _ Hx Hc) as Hn. destruct (d_obj x f) as [[n|n]|] eqn:Eo; [| |contradiction].
      - exfalso. pose proof (s_str _ (src_run sched) _ _ _ _ Hx Eo) as Hs. unfold dsource in Hs. rewrite Hc in Hs. destruct Hs as (i & u & Hcu & Hin). eapply Hns; eauto.
      - pose proof (s_str _ (src_run sched) _ _ _ _ Hx Eo) as Hs. unfold dsource in Hs. rewrite Hc in Hs. destruct Hs as [tn Ht]. eauto.
    Qed.
  End Unset.

  (** ** A machine built from a Config of its own *)
  Lemma env_strat s rest b d x : nth_error (dstrats s) d = Some x -> strat (env_of s rest) (strat_num (b, d)) = strat_rec b d x.
  Proof.
    intro Hx. cbn [strat env_of]. set (n := strat_num (b, d)).
    assert (Hn : n = d * 4 + (if b then 1 else 0)) by (unfold n, strat_num; cbn [fst snd]; lia).
    assert (Hb : (if b then 1 else 0) < 4) by (destruct b; lia).
    assert (Hd : n / 4 = d) by (rewrite Hn, Nat.div_add_l, (Nat.div_small _ _ Hb) by lia; lia).
    assert (Hm : n mod 4 = if b then 1 else 0) by (rewrite Hn, Nat.add_comm, Nat.mod_add by lia; apply Nat.mod_small; exact Hb).
    rewrite Hd, Hm, Hx. destruct b; reflexivity.
  Qed.
  Lemma env_absent s rest m : strat (env_of s rest) (4 * m + 2) = strat_absent m.
  Proof.
    cbn [strat env_of]. assert (Hd : (4 * m + 2) / 4 = m) by (rewrite (Nat.mul_comm 4 m), Nat.div_add_l by lia; change (2 / 4) with 0; lia).
    assert (Hm : (4 * m + 2) mod 4 = 2) by (rewrite Nat.add_comm, (Nat.mul_comm 4 m), Nat.mod_add by lia; reflexivity).
    rewrite Hd, Hm. reflexivity.
  Qed.
  Lemma own_config sched rest m d c : let s := brun progs sched in let E := env_of s rest in
    built_with s m d -> made_from s d c -> never_set progs c FQueue -> (forall m' d', built_with s m' d' -> made_from s d' c -> m' = m) ->
    private_queue E m /\ table_of E m = m /\ (never_set progs c FExec -> n_workers E (exec_of E m) = 1).
  Proof.
    intros s E (b & Hm) (x & Hx & Hc) Hq Hun.
    destruct (unset_lib c FQueue Hq sched d x Hx Hc) as (n & tn & Hn & Ho). fold s in Ho.
    assert (Hs : forall b0, strat E (strat_num (b0, d)) = strat_rec b0 d x) by (intro; apply env_strat; exact Hx).
    assert (Hsm : strat_of E m = strat_num (b, d)) by (cbn [strat_of E env_of]; rewrite Hm; reflexivity).
    split; [|split].
    - intros m' He. unfold queue_of in He. rewrite Hsm, Hs in He.
      assert (Hsm' : strat_of E m' = match nth_error (machines s) m' with Some k => strat_num k | None => 4 * m' + 2 end) by reflexivity. rewrite Hsm' in He.
      destruct (nth_error (machines s) m') as [[b' d']|] eqn:Em'.
      + pose proof (r_m _ (refs_run sched) _ _ Em') as Hd'. simpl in Hd'. fold s in Hd'. apply nth_error_Some in Hd'. destruct (nth_error (dstrats s) d') as [y|] eqn:Ey; [|congruence].
        assert (Hs' : strat E (strat_num (b', d')) = strat_rec b' d' y) by (apply env_strat; exact Ey). rewrite Hs' in He. cbn [s_queue strat_rec] in He. rewrite Hn in He.
        destruct (d_obj y FQueue) as [[k|k]|] eqn:Eq; cbn [obj_num] in He; try lia. assert (k = n) by lia. subst k.
        pose proof (s_str _ (src_run sched) _ _ _ _ Ey Eq) as Hsrc. unfold dsource in Hsrc. destruct (d_from y) as [c'|] eqn:Ec'.
        * destruct Hsrc as [tn' Hsrc]. fold s in Hsrc. assert (c' = c) by congruence. subst c'. apply (Hun m' d'); [exists b'; exact Em'|exists y; auto].
        * destruct Hsrc; discriminate.
      + assert (Hs' : strat E (4 * m' + 2) = strat_absent m') by apply env_absent. rewrite Hs' in He. cbn [s_queue strat_absent strat_rec] in He. rewrite Hn in He. cbn [obj_num] in He. lia.
    - unfold table_of. rewrite Hsm, Hs. simpl. destruct (d_states x) as [m'|] eqn:Es.
      + destruct (r_s _ (refs_run sched) _ _ _ Hx Es) as [b' Hb']. apply (Hun m' d); [exists b'; exact Hb'|exists x; auto].
      + exfalso. eapply (r_n _ (refs_run sched)); eauto.
    - intro Hex. unfold exec_of. rewrite Hsm, Hs. cbn [strat_rec s_exec]. destruct (unset_lib c FExec Hex sched d x Hx Hc) as (k & tn' & Hk & _).
      rewrite Hk. cbn [obj_num E env_of n_workers]. rewrite Nat.add_comm, (Nat.mul_comm 4 k), Nat.mod_add by lia. reflexivity.
  Qed.

  (** ** Strategies from one Config share its objects if their creations do not
      overlap *)
  Section Shared.
    Context (c : cid) (Hns : forall f, never_set progs c f).
    Definition alone (s : bsys) : Prop := forall i j, creating s i c -> creating s j c -> i = j.
    Record shared (s : bsys) : Prop := {
      h_loc : forall i fr f, frame_of (b_ph (threads s i)) = Some fr -> fr_conf fr = c -> In f (evaluated (b_ph (threads s i))) ->
                fr_loc fr f = c_obj (confs s c) f /\ c_obj (confs s c) f <> None;
      h_test : forall i fr f, b_ph (threads s i) = PGet fr f GWrite -> fr_conf fr = c -> c_obj (confs s c) f = None;
      h_read : forall i fr f, b_ph (threads s i) = PGet fr f GRead -> fr_conf fr = c -> c_obj (confs s c) f <> None;
      h_str : forall d x f, nth_error (dstrats s) d = Some x -> d_from x = Some c -> d_obj x f = c_obj (confs s c) f /\ c_obj (confs s c) f <> None }.
    Lemma creating_frame s i : creating s i c <-> exists fr, frame_of (b_ph (threads s i)) = Some fr /\ fr_conf fr = c.
    Proof. unfold creating. destruct (b_ph (threads s i)); simpl; split; try contradiction; try (intros (fr' & H & Hc); congruence); eauto. Qed.
    Lemma shared_step s i : (forall op, In op (b_todo (threads s i)) -> In op (progs i)) -> alone s -> shared s -> shared (bstep i s).
    Proof.
      intros Hp Ha H.
      assert (Hgen : forall s' p td, threads s' = bput (threads s) i {| b_ph := p; b_todo := td |} ->
        c_obj (confs s' c) = c_obj (confs s c) ->
        (forall fr f, frame_of p = Some fr -> fr_conf fr = c -> In f (evaluated p) -> fr_loc fr f = c_obj (confs s c) f /\ c_obj (confs s c) f <> None) ->
        (forall fr f, p = PGet fr f GWrite -> fr_conf fr = c -> c_obj (confs s c) f = None) ->
        (forall fr f, p = PGet fr f GRead -> fr_conf fr = c -> c_obj (confs s c) f <> None) ->
        (forall d x f, nth_error (dstrats s') d = Some x -> d_from x = Some c -> d_obj x f = c_obj (confs s c) f /\ c_obj (confs s c) f <> None) -> shared s').
      { intros s' p td Ht Hc H1 H2 H3 H4. constructor; rewrite ?Ht, ?Hc; [| | |exact H4]; intros i' fr f; unfold bput; destruct (Nat.eqb_spec i' i) as [->|].
        - apply H1. - apply (h_loc _ H). - apply H2. - apply (h_test _ H). - apply H3. - apply (h_read _ H). }
      unfold bstep. destruct (b_ph (threads s i)) as [|fr g0 g|fr|fr|b k|b|k] eqn:Ep, (b_todo (threads s i)) as [|op r] eqn:Et; auto;
        try (destruct g; exact H).
      - destruct op.
        + eapply Hgen; [reflexivity| |discriminate|discriminate|discriminate|apply (h_str _ H)]. simpl. unfold cput. destruct (cid_eqb_spec c (CUser u)) as [->|]; [|auto].
          exfalso. eapply (Hns f i u v); [reflexivity|]. apply Hp. left. reflexivity.
        + eapply Hgen; [reflexivity| |discriminate|discriminate|discriminate|apply (h_str _ H)]. simpl. unfold cput. destruct (cid_eqb_spec c (CUser u)) as [->|]; auto.
        + eapply Hgen; [reflexivity| |discriminate|discriminate|discriminate|apply (h_str _ H)]. simpl. unfold cput. destruct (cid_eqb_spec c (CUser u)) as [->|]; auto.
        + eapply Hgen; [reflexivity|reflexivity| |discriminate|discriminate|apply (h_str _ H)]. simpl. intros fr f _ _ [].
        + eapply Hgen; [reflexivity|reflexivity|discriminate|discriminate|discriminate|]. simpl. intros d x f Hx. apply nth_snoc in Hx.
          destruct Hx as [Hx|[_ ->]]; [eapply (h_str _ H); eauto|discriminate].
        + destruct (handles s h') as [[[] d]|]; (eapply Hgen; [reflexivity|reflexivity|discriminate|discriminate|discriminate|apply (h_str _ H)]).
        + eapply Hgen; [reflexivity|reflexivity|discriminate|discriminate|discriminate|apply (h_str _ H)].
        + destruct (builders s b); (eapply Hgen; [reflexivity|reflexivity|simpl; try discriminate; intros fr f _ _ []|discriminate|discriminate|apply (h_str _ H)]).
      - assert (Hl := h_loc _ H i fr). rewrite Ep in Hl. cbn [frame_of] in Hl. destruct g.
        + eapply Hgen; [reflexivity|reflexivity| | | |apply (h_str _ H)].
          * intros fr' f [= <-] Hc Hin. apply Hl; [reflexivity|exact Hc|]. destruct g0; exact Hin.
          * intros fr' f Hf Hc. injection Hf as <- -> Hg. rewrite Hc in Hg. destruct (c_obj (confs s c) f); [discriminate|reflexivity].
          * intros fr' f Hf Hc. injection Hf as <- -> Hg. rewrite Hc in Hg. destruct (c_obj (confs s c) f); discriminate.
        + destruct (cid_eqb_spec (fr_conf fr) c) as [Hc|Hne].
          * assert (Hnull := h_test _ H _ _ _ Ep Hc).
            assert (Hme : creating s i c) by (apply creating_frame; exists fr; rewrite Ep; auto).
            assert (Hoth : forall i' fr', i' <> i -> frame_of (b_ph (threads s i')) = Some fr' -> fr_conf fr' = c -> False).
            { intros i' fr' Hi Hf Hc'. apply Hi. apply Ha; [|exact Hme]. apply creating_frame. eauto. }
            assert (Hobj : forall f, f <> g0 -> c_obj (cput (confs s) (fr_conf fr) (set_obj (confs s (fr_conf fr)) g0 (Some (OLib (List.length (origin s))))) c) f = c_obj (confs s c) f).
            { intros f Hf. rewrite Hc, cput_same. simpl. apply fput_other. exact Hf. }
            constructor; simpl; [intros i' fr' f|intros i' fr' f|intros i' fr' f|intros d x f]; unfold stay, bput; try destruct (Nat.eqb_spec i' i) as [->|Hi]; simpl.
            -- intros [= <-] _ Hin. assert (Hfne : f <> g0) by (intros ->; destruct g0; simpl in Hin; intuition discriminate).
               rewrite Hobj by exact Hfne. apply Hl; [reflexivity|exact Hc|]. destruct g0; exact Hin.
            -- intros Hf Hc'. exfalso. eapply Hoth; eauto.
            -- discriminate.
            -- intros Hf Hc'. exfalso. eapply (Hoth i' fr' Hi); [rewrite Hf; reflexivity|exact Hc'].
            -- intros [= <- <-] _. rewrite Hc, cput_same. simpl. rewrite fput_same. discriminate.
            -- intros Hf Hc'. exfalso. eapply (Hoth i' fr' Hi); [rewrite Hf; reflexivity|exact Hc'].
            -- intros Hx Hd. destruct (h_str _ H _ _ g0 Hx Hd) as [_ Hn]. contradiction.
          * eapply Hgen; [reflexivity| | |discriminate| |apply (h_str _ H)].
            -- simpl. rewrite cput_other by congruence. reflexivity.
            -- intros fr' f [= <-] Hc. contradiction.
            -- intros fr' f [= <- _] Hc. contradiction.
        + eapply Hgen; [reflexivity|reflexivity| | | |apply (h_str _ H)].
          * rewrite frame_after. intros fr' f [= <-] Hc Hin. simpl in Hc. simpl. unfold fput. destruct (field_eqb_spec f g0) as [->|Hne].
            -- rewrite Hc. split; [reflexivity|]. eapply (h_read _ H); eauto.
            -- apply Hl; [reflexivity|exact Hc|]. destruct (eval_after _ _ _ Hin) as [?|[g Hg]]; [congruence|]. destruct g0, g; exact Hg.
          * destruct g0; discriminate.
          * destruct g0; discriminate.
      - assert (Hl := h_loc _ H i fr). rewrite Ep in Hl. cbn [frame_of] in Hl. eapply Hgen; [reflexivity|reflexivity| |discriminate|discriminate|apply (h_str _ H)].
        simpl. intros fr' f [= <-]. simpl. apply Hl. reflexivity.
      - assert (Hl := h_loc _ H i fr). rewrite Ep in Hl. cbn [frame_of] in Hl.
        assert (Hd : forall x f, d_from x = Some (fr_conf fr) -> d_obj x = fr_loc fr -> d_from x = Some c -> d_obj x f = c_obj (confs s c) f /\ c_obj (confs s c) f <> None).
        { intros x f H1 -> H2. apply Hl; [reflexivity|congruence|apply all_evaluated]. }
        destruct (fr_into fr); (eapply Hgen; [reflexivity|reflexivity|discriminate|discriminate|discriminate|]);
          simpl; intros d x f Hx; apply nth_snoc in Hx; (destruct Hx as [Hx|[_ ->]]; [eapply (h_str _ H); eauto|apply Hd; reflexivity]).
      - eapply Hgen; [reflexivity|reflexivity|discriminate|discriminate|discriminate|apply (h_str _ H)].
      - destruct (builders s b); (eapply Hgen; [reflexivity|reflexivity|discriminate|discriminate|discriminate|apply (h_str _ H)]).
      - eapply Hgen; [reflexivity|reflexivity|discriminate|discriminate|discriminate|]. simpl. intros d x f. rewrite set_states_nth. destruct (Nat.eqb_spec d (snd k)); [|apply (h_str _ H)].
        destruct (nth_error (dstrats s) d) eqn:E; [|discriminate]. intros [= <-]. simpl. eapply (h_str _ H); eauto.
    Qed.
    Lemma shared_run sched : (forall s1 s2, sched = s1 ++ s2 -> alone (brun progs s1)) -> shared (brun progs sched).
    Proof.
      unfold brun. induction sched as [|i sched IH] using rev_ind; intro Ha.
      - constructor; simpl; try discriminate. intros [|d]; discriminate.
      - rewrite fold_left_app. apply shared_step; [intro op; apply todo_in| |].
        + apply (Ha sched [i]). reflexivity.
        + apply IH. intros s1 s2 ->. apply (Ha s1 (s2 ++ [i])). rewrite app_assoc. reflexivity.
    Qed.
    Lemma all_share sched d1 d2 f : (forall s1 s2, sched = s1 ++ s2 -> alone (brun progs s1)) ->
      let s := brun progs sched in made_from s d1 c -> made_from s d2 c -> exists o, holds s d1 f (Some o) /\ holds s d2 f (Some o).
    Proof.
      intros Ha s (x & Hx & Hc1) (y & Hy & Hc2). pose proof (shared_run sched Ha) as H.
      destruct (h_str _ H _ _ f Hx Hc1) as [H1 Hn]. destruct (h_str _ H _ _ f Hy Hc2) as [H2 _].
      destruct (c_obj (confs (brun progs sched) c) f) as [o|] eqn:E; [|contradiction]. exists o. split; [exists x|exists y]; auto.
    Qed.

    (** *** or after the first one has been created and nobody is creating one *)
    Definition settled (s : bsys) : Prop := forall f, c_obj (confs s c) f <> None.
    Lemma shared_settled s i : (forall op, In op (b_todo (threads s i)) -> In op (progs i)) -> settled s -> 
      (forall j fr f, b_ph (threads s j) = PGet fr f GWrite -> fr_conf fr <> c) ->
      c_obj (confs (bstep i s) c) = c_obj (confs s c) /\ (forall j fr f, b_ph (threads (bstep i s) j) = PGet fr f GWrite -> fr_conf fr <> c).
    Proof.
      intros Hp Hs Hw.
      assert (Hgen : forall s' p td, threads s' = bput (threads s) i {| b_ph := p; b_todo := td |} ->
        c_obj (confs s' c) = c_obj (confs s c) -> (forall fr f, p = PGet fr f GWrite -> fr_conf fr <> c) ->
        c_obj (confs s' c) = c_obj (confs s c) /\ (forall j fr f, b_ph (threads s' j) = PGet fr f GWrite -> fr_conf fr <> c)).
      { intros s' p td Ht Hc Hpp. split; [exact Hc|]. rewrite Ht. intros j fr f. unfold bput. destruct (Nat.eqb_spec j i) as [->|]; [apply Hpp|apply Hw]. }
      unfold bstep. destruct (b_ph (threads s i)) as [|fr g0 g|fr|fr|b k|b|k] eqn:Ep, (b_todo (threads s i)) as [|op r] eqn:Et; auto;
        try (destruct g; auto).
      - destruct op; try (eapply Hgen; [reflexivity|reflexivity|discriminate]).
        + eapply Hgen; [reflexivity| |discriminate]. simpl. unfold cput. destruct (cid_eqb_spec c (CUser u)) as [->|]; [|auto].
          exfalso. eapply (Hns f i u v); [reflexivity|]. apply Hp. left. reflexivity.
        + eapply Hgen; [reflexivity| |discriminate]. simpl. unfold cput. destruct (cid_eqb_spec c (CUser u)) as [->|]; auto.
        + eapply Hgen; [reflexivity| |discriminate]. simpl. unfold cput. destruct (cid_eqb_spec c (CUser u)) as [->|]; auto.
        + destruct (handles s h') as [[[] d]|]; (eapply Hgen; [reflexivity|reflexivity|discriminate]).
        + destruct (builders s b); (eapply Hgen; [reflexivity|reflexivity|discriminate]).
      - eapply Hgen; [reflexivity|reflexivity|]. intros fr' f Hf Hc. injection Hf as <- -> Hg. rewrite Hc in Hg. specialize (Hs f). destruct (c_obj (confs s c) f); [discriminate|congruence].
      - eapply Hgen; [reflexivity| |discriminate]. simpl. rewrite cput_other; [reflexivity|]. intro Hc. eapply Hw; eauto.
      - eapply Hgen; [reflexivity|reflexivity|]. destruct g0; discriminate.
      - eapply Hgen; [reflexivity|reflexivity|discriminate].
      - destruct (fr_into fr); (eapply Hgen; [reflexivity|reflexivity|discriminate]).
      - eapply Hgen; [reflexivity|reflexivity|discriminate].
      - destruct (builders s b); (eapply Hgen; [reflexivity|reflexivity|discriminate]).
      - eapply Hgen; [reflexivity|reflexivity|discriminate].
    Qed.
    (** a strategy from c exists: all fields of c are set *)
    Record stick (s : bsys) : Prop := {
      k_get : forall i fr f, b_ph (threads s i) = PGet fr f GRead -> fr_conf fr = c -> c_obj (confs s c) f <> None;
      k_loc : forall i fr f, frame_of (b_ph (threads s i)) = Some fr -> fr_conf fr = c -> In f (evaluated (b_ph (threads s i))) -> c_obj (confs s c) f <> None;
      k_str : forall d x f, nth_error (dstrats s) d = Some x -> d_from x = Some c -> c_obj (confs s c) f <> None }.
    Lemma stick_step s i : (forall op, In op (b_todo (threads s i)) -> In op (progs i)) -> stick s -> stick (bstep i s).
    Proof.
      intros Hp H.
      assert (Hgen : forall s' p td, threads s' = bput (threads s) i {| b_ph := p; b_todo := td |} ->
        (forall f, c_obj (confs s c) f <> None -> c_obj (confs s' c) f <> None) ->
        (forall fr f, p = PGet fr f GRead -> fr_conf fr = c -> c_obj (confs s' c) f <> None) ->
        (forall fr f, frame_of p = Some fr -> fr_conf fr = c -> In f (evaluated p) -> c_obj (confs s c) f <> None) ->
        (forall d x f, nth_error (dstrats s') d = Some x -> d_from x = Some c -> c_obj (confs s c) f <> None) -> stick s').
      { intros s' p td Ht Hc H1 H2 H3. constructor.
        - rewrite Ht. intros i' fr f. unfold bput. destruct (Nat.eqb_spec i' i) as [->|]; [apply H1|]. intros Hi Hf. apply Hc. eapply (k_get _ H); eauto.
        - rewrite Ht. intros i' fr f. unfold bput. destruct (Nat.eqb_spec i' i) as [->|]; intros Hi Hf He; apply Hc; [eapply H2|eapply (k_loc _ H)]; eauto.
        - intros d x f Hx Hd. apply Hc. eapply H3; eauto. }
      assert (Hid : forall f, c_obj (confs s c) f <> None -> c_obj (confs s c) f <> None) by auto.
      unfold bstep. destruct (b_ph (threads s i)) as [|fr g0 g|fr|fr|b k|b|k] eqn:Ep, (b_todo (threads s i)) as [|op r] eqn:Et; auto;
        try (destruct g; exact H).
      - destruct op; try (eapply Hgen; [reflexivity|exact Hid|discriminate|discriminate|apply (k_str _ H)]).
        + eapply Hgen; [reflexivity| |discriminate|discriminate|apply (k_str _ H)]. simpl. unfold cput. destruct (cid_eqb_spec c (CUser u)) as [->|]; [|auto].
          exfalso. eapply (Hns f i u v); [reflexivity|]. apply Hp. left. reflexivity.
        + eapply Hgen; [reflexivity| |discriminate|discriminate|apply (k_str _ H)]. simpl. unfold cput. destruct (cid_eqb_spec c (CUser u)) as [->|]; auto.
        + eapply Hgen; [reflexivity| |discriminate|discriminate|apply (k_str _ H)]. simpl. unfold cput. destruct (cid_eqb_spec c (CUser u)) as [->|]; auto.
        + eapply Hgen; [reflexivity|exact Hid|discriminate| |apply (k_str _ H)]. simpl. intros fr f _ _ [].
        + eapply Hgen; [reflexivity|exact Hid|discriminate|discriminate|]. simpl. intros d x f Hx. apply nth_snoc in Hx. destruct Hx as [Hx|[_ ->]]; [eapply (k_str _ H); eauto|discriminate].
        + destruct (handles s h') as [[[] d]|]; (eapply Hgen; [reflexivity|exact Hid|discriminate|discriminate|apply (k_str _ H)]).
        + destruct (builders s b); (eapply Hgen; [reflexivity|exact Hid|discriminate|simpl; try discriminate; intros fr f _ _ []|apply (k_str _ H)]).
      - assert (Hl := k_loc _ H i fr). rewrite Ep in Hl. cbn [frame_of] in Hl. destruct g.
        + eapply Hgen; [reflexivity|exact Hid| | |apply (k_str _ H)].
          * intros fr' f Hf Hc. injection Hf as <- -> Hg. rewrite Hc in Hg. change (c_obj (confs s c) f <> None). destruct (c_obj (confs s c) f); [discriminate|discriminate Hg].
          * intros fr' f [= <-] Hc Hin. apply Hl; [reflexivity|exact Hc|]. destruct g0; exact Hin.
        + eapply Hgen; [reflexivity| | | |apply (k_str _ H)].
          * simpl. unfold cput. destruct (cid_eqb_spec c (fr_conf fr)) as [->|]; [|auto]. simpl. unfold fput. intro f. destruct (field_eqb_spec f g0); [discriminate|auto].
          * intros fr' f Hf Hc. injection Hf as <- ->. simpl. rewrite <- Hc, cput_same. simpl. rewrite fput_same. discriminate.
          * intros fr' f [= <-] Hc Hin. apply Hl; [reflexivity|exact Hc|]. destruct g0; exact Hin.
        + eapply Hgen; [reflexivity|exact Hid| | |apply (k_str _ H)].
          * destruct g0; discriminate.
          * rewrite frame_after. intros fr' f [= <-] Hc Hin. simpl in Hc. destruct (eval_after _ _ _ Hin) as [->|[g Hg]].
            -- eapply (k_get _ H); eauto.
            -- apply Hl; [reflexivity|exact Hc|]. destruct g0, g; exact Hg.
      - assert (Hl := k_loc _ H i fr). rewrite Ep in Hl. cbn [frame_of] in Hl. eapply Hgen; [reflexivity|exact Hid|discriminate| |apply (k_str _ H)].
        simpl. intros fr' f [= <-]. simpl. apply Hl. reflexivity.
      - assert (Hl := k_loc _ H i fr). rewrite Ep in Hl. cbn [frame_of] in Hl.
        assert (Hd : forall f, Some (fr_conf fr) = Some c -> c_obj (confs s c) f <> None).
        { intros f H1. apply Hl; [reflexivity|congruence|apply all_evaluated]. }
        destruct (fr_into fr); (eapply Hgen; [reflexivity|exact Hid|discriminate|discriminate|]);
          simpl; intros d x f Hx; apply nth_snoc in Hx; (destruct Hx as [Hx|[_ ->]]; [eapply (k_str _ H); eauto|apply Hd]).
      - eapply Hgen; [reflexivity|exact Hid|discriminate|discriminate|apply (k_str _ H)].
      - destruct (builders s b); (eapply Hgen; [reflexivity|exact Hid|discriminate|discriminate|apply (k_str _ H)]).
      - eapply Hgen; [reflexivity|exact Hid|discriminate|discriminate|]. simpl. intros d x f. rewrite set_states_nth. destruct (Nat.eqb_spec d (snd k)); [|apply (k_str _ H)].
        destruct (nth_error (dstrats s) d) eqn:E; [|discriminate]. intros [= <-]. simpl. eapply (k_str _ H); eauto.
    Qed.
    Lemma stick_run sched : stick (brun progs sched).
    Proof.
      unfold brun. induction sched as [|i sched IH] using rev_ind.
      - constructor; simpl; try discriminate. intros [|d]; discriminate.
      - rewrite fold_left_app. apply stick_step; [|exact IH]. intro op. apply todo_in.
    Qed.

    (** from then on: the fields of c keep their values v *)
    Section Later.
      Context (v : field -> option obj) (n0 : nat) (Hv : forall f, v f <> None).
      Record later (s : bsys) : Prop := {
        l_conf : forall f, c_obj (confs s c) f = v f;
        l_write : forall i fr f, b_ph (threads s i) = PGet fr f GWrite -> fr_conf fr <> c;
        l_loc : forall i fr f, frame_of (b_ph (threads s i)) = Some fr -> fr_conf fr = c -> In f (evaluated (b_ph (threads s i))) -> fr_loc fr f = v f;
        l_len : n0 <= List.length (dstrats s);
        l_str : forall d x f, n0 <= d -> nth_error (dstrats s) d = Some x -> d_from x = Some c -> d_obj x f = v f }.
      Lemma later_step s i : (forall op, In op (b_todo (threads s i)) -> In op (progs i)) -> later s -> later (bstep i s).
      Proof.
        intros Hp H.
        destruct (shared_settled s i Hp ltac:(intro f; rewrite (l_conf _ H); apply Hv) (l_write _ H)) as [Hc Hw].
        assert (Hgen : forall p td, threads (bstep i s) = bput (threads s) i {| b_ph := p; b_todo := td |} ->
          (forall fr f, frame_of p = Some fr -> fr_conf fr = c -> In f (evaluated p) -> fr_loc fr f = v f) ->
          n0 <= List.length (dstrats (bstep i s)) ->
          (forall d x f, n0 <= d -> nth_error (dstrats (bstep i s)) d = Some x -> d_from x = Some c -> d_obj x f = v f) -> later (bstep i s)).
        { intros p td Ht H2 H3 H4. constructor; [intro f; rewrite Hc; apply (l_conf _ H)|exact Hw| |exact H3|exact H4].
          rewrite Ht. intros i' fr f. unfold bput. destruct (Nat.eqb_spec i' i) as [->|]; [apply H2|apply (l_loc _ H)]. }
        pose proof (l_len _ H) as Hlen. clear Hc Hw. unfold bstep in *.
        destruct (b_ph (threads s i)) as [|fr g0 g|fr|fr|b k|b|k] eqn:Ep, (b_todo (threads s i)) as [|op r] eqn:Et; auto;
          try (destruct g; exact H).
        - destruct op; try (eapply Hgen; [reflexivity|discriminate|exact Hlen|apply (l_str _ H)]).
          + eapply Hgen; [reflexivity| |exact Hlen|apply (l_str _ H)]. simpl. intros fr f _ _ [].
          + eapply Hgen; [reflexivity|discriminate|simpl; rewrite app_length; lia|]. simpl. intros d x f Hd Hx. apply nth_snoc in Hx. destruct Hx as [Hx|[_ ->]]; [eapply (l_str _ H); eauto|discriminate].
          + destruct (handles s h') as [[[] d]|]; (eapply Hgen; [reflexivity|discriminate|exact Hlen|apply (l_str _ H)]).
          + destruct (builders s b); (eapply Hgen; [reflexivity|simpl; try discriminate; intros fr f _ _ []|exact Hlen|apply (l_str _ H)]).
        - assert (Hl := l_loc _ H i fr). rewrite Ep in Hl. cbn [frame_of] in Hl. destruct g.
          + eapply Hgen; [reflexivity| |exact Hlen|apply (l_str _ H)]. intros fr' f [= <-] Hc Hin. apply Hl; [reflexivity|exact Hc|]. destruct g0; exact Hin.
          + eapply Hgen; [reflexivity| |exact Hlen|apply (l_str _ H)]. intros fr' f [= <-] Hc Hin. apply Hl; [reflexivity|exact Hc|]. destruct g0; exact Hin.
          + eapply Hgen; [reflexivity| |exact Hlen|apply (l_str _ H)].
            rewrite frame_after. intros fr' f [= <-] Hc Hin. simpl in Hc. simpl. unfold fput. destruct (field_eqb_spec f g0) as [->|Hne].
            * rewrite Hc. apply (l_conf _ H).
            * apply Hl; [reflexivity|exact Hc|]. destruct (eval_after _ _ _ Hin) as [?|[g Hg]]; [congruence|]. destruct g0, g; exact Hg.
        - assert (Hl := l_loc _ H i fr). rewrite Ep in Hl. cbn [frame_of] in Hl. eapply Hgen; [reflexivity| |exact Hlen|apply (l_str _ H)].
          simpl. intros fr' f [= <-]. simpl. apply Hl. reflexivity.
        - assert (Hl := l_loc _ H i fr). rewrite Ep in Hl. cbn [frame_of] in Hl.
          assert (Hd : forall f, Some (fr_conf fr) = Some c -> fr_loc fr f = v f).
          { intros f H1. apply Hl; [reflexivity|congruence|apply all_evaluated]. }
          destruct (fr_into fr); (eapply Hgen; [reflexivity|discriminate|simpl; rewrite app_length; lia|]);
            simpl; intros d x f Hnd Hx; apply nth_snoc in Hx; (destruct Hx as [Hx|[_ ->]]; [eapply (l_str _ H); eauto|apply Hd]).
        - eapply Hgen; [reflexivity|discriminate|exact Hlen|apply (l_str _ H)].
        - destruct (builders s b); (eapply Hgen; [reflexivity|discriminate|exact Hlen|apply (l_str _ H)]).
        - eapply Hgen; [reflexivity|discriminate|simpl; rewrite set_states_length; exact Hlen|]. simpl. intros d x f Hd. rewrite set_states_nth. destruct (Nat.eqb_spec d (snd k)); [|apply (l_str _ H); exact Hd].
          destruct (nth_error (dstrats s) d) eqn:E; [|discriminate]. intros [= <-]. simpl. eapply (l_str _ H); eauto.
      Qed.
    End Later.
    Lemma share_later s1 s2 d0 d f : (forall i, ~ creating (brun progs s1) i c) -> made_from (brun progs s1) d0 c ->
      let s := brun progs (s1 ++ s2) in List.length (dstrats (brun progs s1)) <= d -> made_from s d c ->
      holds s d f (c_obj (confs (brun progs s1) c) f) /\ c_obj (confs (brun progs s1) c) f <> None.
    Proof.
      intros Hq (x0 & Hx0 & Hc0) s Hd (x & Hx & Hc).
      assert (Hv : forall f, c_obj (confs (brun progs s1) c) f <> None) by (intro g; eapply (k_str _ (stick_run s1)); eauto).
      assert (Hnf : forall i fr, frame_of (b_ph (threads (brun progs s1) i)) = Some fr -> fr_conf fr = c -> False).
      { intros i fr Hf Hfc. apply (Hq i). apply creating_frame. eauto. }
      assert (HL : later (c_obj (confs (brun progs s1) c)) (List.length (dstrats (brun progs s1))) s).
      { unfold s. clear - Hns Hv Hnf. induction s2 as [|i s2 IH] using rev_ind.
        - rewrite app_nil_r. constructor; auto.
          + intros i fr f Hp Hfc. eapply Hnf; [rewrite Hp; reflexivity|exact Hfc].
          + intros i fr f Hf Hfc. exfalso. eauto.
          + intros d x f Hd Hx. apply nth_lt in Hx. lia.
        - rewrite app_assoc. unfold brun at 3. rewrite fold_left_app. apply later_step; [exact Hv|intro op; apply (todo_in (s1 ++ s2))|exact IH]. }
      split; [|apply Hv]. exists x. split; [exact Hx|]. eapply (l_str _ _ _ HL); eauto.
    Qed.
  End Shared.
End Builds.
