(** * OrderProofs2.v: exceptions are reported once, whatever the order of tasks (C72) and whatever is rejected (C71) *)
From Coq Require Import Permutation.
From Verif Require Import Demo4 OrderSpec FlowSpec Logic Neutral OwnSpec Own Tree Lang Moments QueueProofs RejectProofs OrderProofs Nodes Marks FlowProofs.

(** what a completed processing of an event shows *)
Section Node.
  Context (E : env).
  Lemma reported_node t q p e m its z : node_ok E t (FTake q p (Some (e, m)), its, z) ->
    exists tm P Rep y x, taker E q t tm /\ z = ODone q p x /\ shown its = P ++ Rep /\
      (forall u e' m' x', ~ In (OCall (KUflExn u e' m' x')) P) /\
      (forall c v, In (OBack c (Some v)) P -> y = Some v /\ exists P', P = P' ++ [OBack c (Some v)]) /\
      (forall v, y = Some v -> (exists c P', P = P' ++ [OBack c (Some v)]) \/ v = XNullPointer \/ v = XConcurrentMod) /\
      match y with
      | Some v => if is_exception v then Rep = called (KUflExn (flow_of E tm) e m v) x else Rep = [] /\ x = Some v
      | None => Rep = [] /\ x = None
      end.
  Proof.
    intro Hn. simpl in Hn.
    destruct z; try contradiction. destruct Hn as (-> & -> & tm & i & Ht & Hq & bb & out1 & out2 & Hits & Hb).
    assert (Hd : exists y, tdy y out1 /\ Forall (mexec E (strat_of E tm) e m) out1 /\
      match y with
      | Some v => if is_exception v then out2 = called (KUflExn (flow_of E tm) e m v) x else out2 = [] /\ x = Some v
      | None => out2 = [] /\ x = None
      end).
    { destruct bb.
      - destruct Hb as (-> & -> & ->). exists None. split; [apply tdy_nil|]. split; [constructor|auto].
      - destruct Hb as (y & Hy & Hb). exists y. split; [eapply tidy_exec; exact Hy|]. split; [eapply exec_marks; exact Hy|exact Hb]. }
    destruct Hd as (y & [D1 D2] & D3 & Hy). exists tm, (shown out1), (shown out2), y, x.
    split; [split; [auto|eauto]|]. split; [reflexivity|]. split; [|split; [|split; [|split]]].
    - rewrite Hits. simpl. rewrite !shown_app. simpl. rewrite app_nil_r. reflexivity.
    - intros u e' m' x' Hx. apply filter_In in Hx. destruct Hx as [Hx _]. rewrite Forall_forall in D3.
      apply D3 in Hx. dmay; discriminate.
    - intros c v Hx. apply filter_In in Hx. destruct Hx as [Hx _]. destruct (D1 _ _ Hx) as (-> & o' & ->).
      split; [reflexivity|]. exists (shown o'). rewrite shown_app. reflexivity.
    - intros v Hv. destruct (D2 v Hv) as [(c & o' & ->)|Hx]; [|right; exact Hx].
      left. exists c, (shown o'). rewrite shown_app. reflexivity.
    - destruct y as [v|]; [|destruct Hy as [-> ->]; auto].
      destruct (is_exception v); [rewrite Hy; reflexivity|]. destruct Hy as [-> ->]. auto.
  Qed.
End Node.

Section Shapes.
  Context (P : xid -> world -> nat) (E : env).
  Lemma otree_all w0 w : init_mem E w0 -> oreach P E w0 w -> exists gs, tok E w gs.
  Proof.
    intros H0 [l ->]. induction l as [|t l [gs IH]] using rev_ind.
    - apply (tok_all (fun _ _ => false) E w0); [exact H0|exists []; reflexivity].
    - rewrite orun_snoc. unfold ostep_or_stay. destruct (ostep P E (orun P E (init_world E w0) l) t) as [w'|] eqn:Hs; [|eauto].
      apply ostep_inv in Hs. destruct Hs as [Hs|(x & i & tk & r & -> & Ew & Hlt & Hp & ->)]; [eapply tok_step; eauto|].
      set (w := orun P E (init_world E w0) l) in *. clearbody w. exists (gupd gs (TWorker x i) (gs (TWorker x i))).
      pose proof IH as ((Hi1 & Hi2 & Hl) & _ & Hw). specialize (Hw x i). rewrite Ew in Hw.
      assert (Htk : task_ok E x tk) by (apply (ti_tasks _ _ _ Hi2 x); eapply Permutation_in; [symmetry; exact Hp|left; reflexivity]).
      apply pick_ok; [exact IH| |].
      + apply inv2_upd; [| |exact Hl|apply Hl].
        * apply (inv_same E (wm w)); try reflexivity; auto. left. reflexivity.
        * apply (tinv_same E (wm w)); auto. simpl. intros x' tk'. unfold upd.
          destruct (Nat.eqb_spec x' x) as [->|]; [|apply (ti_tasks _ _ _ Hi2)].
          intro Hin. apply (ti_tasks _ _ _ Hi2). eapply Permutation_in; [symmetry; exact Hp|right; exact Hin].
      + eapply wp_mono; [|apply wp_drain2; eauto]. simpl. auto.
  Qed.
  Lemma onode w0 w t a op b its z d k : init_mem E w0 -> oreach P E w0 w ->
    span t (tr (wm w)) a op b its z d -> opens op = Some k -> node_ok E t (k, its, z).
  Proof.
    intros H0 Hr Hs Ho. destruct (otree_all w0 w H0 Hr) as (gs & (_ & Hi & _) & _).
    pose proof (ti_nodes _ _ _ Hi t) as Hn. rewrite Forall_forall in Hn. apply Hn. eapply span_closed; eauto.
  Qed.
  (** a way to see that nothing runs or is pending for a queue *)
  Lemma oidle w0 w x i : oreach P E w0 w -> n_workers E x <= i -> ww w x i = WIdle.
  Proof.
    intros [l ->] Hi. induction l as [|t l IH] using rev_ind; [reflexivity|].
    rewrite orun_snoc. unfold ostep_or_stay. destruct (ostep P E _ t) as [w'|] eqn:Hs; [|exact IH]. rewrite <- IH.
    set (w := orun P E (init_world E w0) l) in *. clearbody w.
    assert (Hset : forall y j k, j < n_workers E y -> set_worker (ww w) y j k x i = ww w x i).
    { intros y j k Hj. unfold set_worker. destruct (Nat.eqb_spec x y) as [->|]; [|reflexivity].
      destruct (Nat.eqb_spec i j) as [->|]; [|reflexivity]. lia. }
    apply ostep_inv in Hs. destruct Hs as [Hs|(y & j & tk & r & -> & Ew & Hlt & Hp & ->)]; [|apply Hset; exact Hlt].
    destruct t as [n|y j]; simpl in Hs.
    - destruct (pstep E (wm w) (TClient n) (wc w n)) as [[? ?]|]; [|discriminate]. injection Hs as <-. reflexivity.
    - destruct (Nat.ltb_spec j (n_workers E y)) as [Hj|]; [|discriminate]. simpl in Hs.
      destruct (ww w y j) as [|tk [[|]|e|jj k]]; [destruct (tasks (wm w) y); [discriminate|]| | | |destruct (pstep E (wm w) (TWorker y j) (Vis jj k)) as [[? ?]|]; [|discriminate]];
        injection Hs as <-; simpl; apply Hset; exact Hj.
  Qed.
  Lemma at_rest_o w0 w q X ts : init_mem E w0 -> oreach P E w0 w ->
    (forall m, queue_of E m = q -> exec_of E m = X) -> n_workers E X = 1 -> ww w X 0 = WIdle -> tasks (wm w) X = [] ->
    by_threads ts (tr (wm w)) = true ->
    forallb (fun t => match rev (thread_obs t (tr (wm w))) with OOffer q' _ _ _ _ _ :: _ => negb (Nat.eqb q' q) | _ => true end) ts = true ->
    forallb (fun to => match snd to with OWr (WrShut _) => false | _ => true end) (tr (wm w)) = true ->
    at_rest E q w.
  Proof.
    intros H0 Hr HX Hn Hw Ht Hb Hj Hs. split; [|split; [|split]].
    - intros m i Hm. rewrite (HX m Hm). destruct i as [|i]; [exact Hw|]. apply (oidle w0); [exact Hr|lia].
    - intros x tk Hin Hq. destruct (otree_all w0 w H0 Hr) as (gs & (_ & Hl & _) & _). destruct (ti_tasks _ _ _ Hl x tk Hin) as [Ha Hx].
      assert (x = X) as ->; [|rewrite Ht in Hin; destruct Hin].
      rewrite <- (HX _ Hq). unfold exec_of. rewrite <- Ha. exact Hx.
    - apply not_just_queued with (ts := ts); assumption.
    - intros m _ [t Hin]. rewrite forallb_forall in Hs. specialize (Hs _ Hin). discriminate.
  Qed.
  Lemma p_C72_reported_once w0 w : init_mem E w0 -> oreach P E w0 w ->
    forall t a q p e m b its z d, span t (tr (wm w)) a (OTake q p (Some (e, m))) b its z d ->
    exists tm P Rep y x, taker E q t tm /\ z = ODone q p x /\ shown its = P ++ Rep /\
      (forall u e' m' x', ~ In (OCall (KUflExn u e' m' x')) P) /\
      (forall c v, In (OBack c (Some v)) P -> y = Some v /\ exists P', P = P' ++ [OBack c (Some v)]) /\
      (forall v, y = Some v -> (exists c P', P = P' ++ [OBack c (Some v)]) \/ v = XNullPointer \/ v = XConcurrentMod) /\
      match y with
      | Some v => if is_exception v then Rep = called (KUflExn (flow_of E tm) e m v) x else Rep = [] /\ x = Some v
      | None => Rep = [] /\ x = None
      end.
  Proof. intros H0 Hr t a q p e m b its z d Hs. apply reported_node. exact (onode w0 w _ _ _ _ _ _ _ _ H0 Hr Hs eq_refl). Qed.
End Shapes.

(** the same when tasks are rejected *)
Lemma p_C71_reported_once R E w0 w : init_mem E w0 -> jreach R E w0 w ->
  forall t a q p e m b its z d, span t (tr (wm w)) a (OTake q p (Some (e, m))) b its z d ->
    exists tm P Rep y x, taker E q t tm /\ z = ODone q p x /\ shown its = P ++ Rep /\
      (forall u e' m' x', ~ In (OCall (KUflExn u e' m' x')) P) /\
      (forall c v, In (OBack c (Some v)) P -> y = Some v /\ exists P', P = P' ++ [OBack c (Some v)]) /\
      (forall v, y = Some v -> (exists c P', P = P' ++ [OBack c (Some v)]) \/ v = XNullPointer \/ v = XConcurrentMod) /\
      match y with
      | Some v => if is_exception v then Rep = called (KUflExn (flow_of E tm) e m v) x else Rep = [] /\ x = Some v
      | None => Rep = [] /\ x = None
      end.
Proof. intros H0 Hr t a q p e m b its z d Hs. apply reported_node. exact (jnode R E w0 w _ _ _ _ _ _ _ _ H0 Hr Hs eq_refl). Qed.
