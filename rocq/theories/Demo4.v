(** * Demo4.v: executions for the Examples of PropsBound.v *)
From Verif Require Export Demo Demo2 Demo3.
From Verif Require Import MemInv.

(** C10: an Error in an entry action kills the first task, the unexpected flow
    listener (asked about the exception of the second action) kills the second;
    five events in all, fired by two clients *)
Definition E17 : env :=
  demo own_strat (fun m => m) demo_app
    (fun c _ => match c with
                | KAct true (AUser 11) _ _ _ => UThrow (XError 1)
                | KAct true (AUser 12) _ _ _ => UThrow (XUser 2)
                | KUflExn _ _ _ _ => UThrow (XUser 3)
                | _ => URet end)
    [[AStart 0; AFire 0 (EUser 0); AFire 0 (EUser 1)]; [AFire 0 (EUser 0); AFire 0 (EUser 1); AFire 0 (EUser 2)]] (fun _ => 1).
Definition w17 : mem := demo_mem E17 (fun _ => abc) (fun _ => None) one_act (fun _ => None).
Definition run17 : world := after E17 w17 [(c0, 200); (c1, 200); (wk 0, 400)].

Section Idle.
  Context (E : env).
  (** a worker that is never scheduled stays idle *)
  Lemma never_ran sched x i : ~ In (TWorker x i) sched -> forall w, ww (run E w sched) x i = ww w x i.
  Proof.
    induction sched as [|t l IH]; intros Hn w; [reflexivity|]. simpl.
    rewrite IH by (intro; apply Hn; right; assumption).
    unfold step_or_stay. destruct (step E w t) as [w'|] eqn:Hs; [|reflexivity].
    assert (Ht : t <> TWorker x i) by (intro; apply Hn; left; assumption).
    destruct t as [n|x' i']; simpl in Hs.
    - destruct (pstep E (wm w) (TClient n) (wc w n)) as [[m' p']|]; [|discriminate]. injection Hs as <-. reflexivity.
    - assert (Hset : forall k, set_worker (ww w) x' i' k x i = ww w x i).
      { intro k. unfold set_worker. destruct (Nat.eqb_spec x x') as [->|]; [|reflexivity]. destruct (Nat.eqb_spec i i') as [->|]; [congruence|reflexivity]. }
      destruct (negb (Nat.ltb i' (n_workers E x'))); [discriminate|].
      destruct (ww w x' i') as [|tk [[|]|e|j k]]; [destruct (tasks (wm w) x'); [discriminate|]| | | |destruct (pstep E (wm w) (TWorker x' i') (Vis j k)) as [[? ?]|]; [|discriminate]];
        injection Hs as <-; simpl; apply Hset.
  Qed.
  (** a pending task was submitted *)
  Lemma pending_submitted w0 w : init_mem E w0 -> reach E w0 w ->
    forall x tk, In tk (tasks (wm w) x) -> exists t, In (t, OSubmit x tk) (tr (wm w)).
  Proof.
    intros H0 Hr. pattern w. revert w Hr. apply reach_ind.
    - intros x tk. simpl. rewrite (im_tasks _ _ H0). intros [].
    - intros w t w' Hr IH Hs x tk.
      destruct (step_mem E w0 _ _ _ Hr Hs) as [_ [He|[(i & v & Hp & Hx)|[(x' & tk' & r & Et & He)|(tk' & y & He)]]]].
      + rewrite He. apply IH.
      + assert (Hin : forall l, (exists t0, In (t0, OSubmit x tk) (tr (wm w))) -> exists t0, In (t0, OSubmit x tk) (tr (wm w) ++ l)).
        { intros l [t0 Ht]. exists t0. apply in_or_app. auto. }
        destruct i; simpl in Hx;
          repeat match type of Hx with
             | (if ?b then _ else _) = _ => destruct b eqn:?
             | match ?b with _ => _ end = _ => destruct b eqn:?
             end; try discriminate; injection Hx as <- Hx; rewrite <- Hx; simpl;
          try (match goal with |- context [match pairs ?w ?p with _ => _ end] => destruct (pairs w p) as [[? ?]|]; simpl end);
          try (intro H; solve [apply Hin, IH, H|apply IH, H]).
        unfold upd. destruct (Nat.eqb_spec x x0) as [->|]; [|intro H; apply Hin, IH, H].
        intro H. apply in_app_or in H. destruct H as [H|[->|[]]]; [apply Hin, IH, H|].
        exists t. apply in_or_app. right. left. reflexivity.
      + rewrite He. simpl. unfold upd. destruct (Nat.eqb_spec x x') as [->|]; [|apply IH].
        intro H. apply IH. rewrite Et. right. exact H.
      + rewrite He. simpl. intro H. destruct (IH _ _ H) as [t0 Ht]. exists t0. apply in_or_app. auto.
  Qed.
End Idle.

(** the clients of E16 one after the other *)
Definition run18 : world := after E16 w16 [(c0, 100); (c1, 100); (TClient 2, 100); (TClient 3, 100); (TClient 4, 100)].

(** ** Deciding the hypotheses on a concrete execution *)
From Verif Require Import BoundSpec RaceSpec Own.
Definition by_threads (ts : list tid) (T : trace) : bool := forallb (fun to => if in_dec tid_eq_dec (fst to) ts then true else false) T.
Lemma by_threads_none ts T t h r : by_threads ts T = true -> T = h ++ r -> ~ In t ts -> thread_obs t h = [].
Proof.
  unfold by_threads. intros Hb -> Hn. rewrite forallb_app in Hb. apply andb_prop in Hb. destruct Hb as [Hb _].
  induction h as [|[t' o] h IH]; [reflexivity|]. simpl in Hb. apply andb_prop in Hb. destruct Hb as [Ht Hb].
  unfold thread_obs. simpl. unfold tid_eqb. destruct (tid_eq_dec t' t) as [->|N]; [|apply IH; exact Hb].
  destruct (in_dec tid_eq_dec t ts); [contradiction|discriminate].
Qed.
(** f holds of at most k threads at every moment of T; f does not hold initially *)
Definition few (f : list obs -> bool) (k : nat) (ts : list tid) (T : trace) : bool :=
  forallb (fun i => Nat.leb (List.length (filter (fun t => f (thread_obs t (firstn i T))) ts)) k) (List.seq 0 (S (List.length T))).
Lemma few_ok (f : list obs -> bool) k ts T : f [] = false -> by_threads ts T = true -> few f k ts T = true ->
  forall h r, T = h ++ r -> at_most k (fun t => f (thread_obs t h) = true).
Proof.
  intros H0 Hb Hf h r HT L Hd HL. unfold few in Hf. rewrite forallb_forall in Hf.
  specialize (Hf (List.length h)). rewrite Nat.leb_le in Hf.
  assert (Hh : firstn (List.length h) T = h) by (rewrite HT, firstn_app, Nat.sub_diag, firstn_all; simpl; apply app_nil_r).
  rewrite Hh in Hf. etransitivity; [|apply Hf; apply List.in_seq; rewrite HT, app_length; lia].
  apply NoDup_incl_length; [exact Hd|]. intros t Ht. apply filter_In. specialize (HL t Ht). split; [|exact HL].
  destruct (in_dec tid_eq_dec t ts) as [|N]; [assumption|]. rewrite (by_threads_none ts T t h r Hb HT N) in HL. congruence.
Qed.
Definition fed_by (q : qid) (ts : list tid) (T : trace) : bool :=
  forallb (fun to => match snd to with OOffer q' _ _ _ _ _ => if Nat.eqb q' q then (if in_dec tid_eq_dec (fst to) ts then true else false) else true | _ => true end) T.
Lemma fed_by_ok q ts T : fed_by q ts T = true -> forall t, feeds q t T -> In t ts.
Proof.
  intros H t (p & e & m & e' & m' & Hin). unfold fed_by in H. rewrite forallb_forall in H. specialize (H _ Hin). simpl in H.
  rewrite Nat.eqb_refl in H. destruct (in_dec tid_eq_dec t ts); [assumption|discriminate].
Qed.
(** only user event objects are read by name *)
Definition user_names (T : trace) : bool := forallb (fun to => match snd to with ORd (RdName (ECopy _) _) => false | _ => true end) T.
Lemma user_names_ok T : user_names T = true -> objects_exist T.
Proof.
  intros H h t e nm r ->. unfold user_names in H. rewrite forallb_forall in H.
  specialize (H (t, ORd (RdName e nm)) ltac:(apply in_or_app; right; left; reflexivity)). simpl in H.
  destruct e; try exact I. discriminate.
Qed.
Lemma not_just_queued q ts T : by_threads ts T = true ->
  forallb (fun t => match rev (thread_obs t T) with OOffer q' _ _ _ _ _ :: _ => negb (Nat.eqb q' q) | _ => true end) ts = true ->
  forall t, ~ just_queued q t T.
Proof.
  intros Hb Hl t (l & p & e & m & e' & m' & Hj).
  destruct (in_dec tid_eq_dec t ts) as [Hin|N].
  - rewrite forallb_forall in Hl. specialize (Hl t Hin). rewrite Hj, rev_app_distr in Hl. simpl in Hl. rewrite Nat.eqb_refl in Hl. discriminate.
  - rewrite (by_threads_none ts T t T [] Hb (eq_sym (app_nil_r T)) N) in Hj. destruct l; discriminate.
Qed.
