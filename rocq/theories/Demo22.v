(** * Demo22.v: executions for the Examples of PropsDet.v *)
From Verif Require Export Demo Demo2 Demo3 DetSpec.
From Verif Require Import Witness.

(** an Error in the entry action of B kills the worker's task, the entry action
    of C throws an exception, which the unexpected flow listener throws again *)
Definition throwing (c : call) (_ : trace) : uprog :=
  match c with
  | KAct true (AUser 11) _ _ _ => UThrow (XError 1)
  | KUnmapped _ _ _ => UThrow (XUser 2)
  | KUflExn _ _ _ _ => UThrow (XUser 3)
  | _ => URet
  end.
(** the same, as a function of the callback *)
Definition thrown (c : call) : option exn :=
  match c with
  | KAct true (AUser 11) _ _ _ => Some (XError 1)
  | KUnmapped _ _ _ => Some (XUser 2)
  | KUflExn _ _ _ _ => Some (XUser 3)
  | _ => None
  end.
(** one client fires four events, then the worker runs *)
Definition E50 : env :=
  demo own_strat (fun m => m) demo_app throwing
    [[AStart 0; AFire 0 (EUser 1); AFire 0 (EUser 0); AFire 0 (EUser 2); AFire 0 (EUser 1)]] (fun _ => 1).
Definition w50 : mem := demo_mem E50 (fun _ => abc) a_listener one_act (fun _ => None).
Definition run_one : world := after E50 w50 [(c0, 300); (wk 0, 500)].
(** two clients and another machine; events with payloads, of which copies are
    made; the worker runs in between *)
Definition E51 : env :=
  demo own_strat (fun m => m) demo_app throwing
    [[AStart 0; AFire 0 (EUser 1); AFire 0 (EUser 0)]; [AStart 1; AFire 1 (EUser 0); AFire 0 (EUser 2); AFire 0 (EUser 1)]] (fun _ => 1).
Definition w51 : mem := demo_mem E51 (fun _ => abc) a_listener one_act (fun e => match e with EUser 1 => Some 7 | _ => None end).
Definition run_two : world := after E51 w51 [(c0, 60); (wk 0, 30); (c1, 60); (c0, 300); (wk 0, 40); (c1, 300); (wk 1, 100); (wk 0, 500)].

(** all copies taken were made before *)
Fixpoint copies_ok (q : qid) (m : mid) (made : list nat) (T : trace) : bool :=
  match T with
  | [] => true
  | (_, o) :: r =>
      match o with
      | OWr (WrCopy (ECopy k) _ _) => copies_ok q m (k :: made) r
      | OTake q' _ (Some (ECopy k, m')) => ((negb (Nat.eqb q' q && Nat.eqb m' m) || existsb (Nat.eqb k) made) && copies_ok q m made r)%bool
      | _ => copies_ok q m made r
      end
  end.
Lemma copies_ok_made q m T : forall h, copies_ok q m h T = true -> forall a t p e r,
  T = a ++ (t, OTake q p (Some (e, m))) :: r ->
  match e with ECopy k => In k h \/ exists t nm y, In (t, OWr (WrCopy (ECopy k) nm y)) a | _ => True end.
Proof.
  induction T as [|[t0 o] T IH]; intros h H a t p e r HT; [destruct a; discriminate|].
  destruct a as [|x a]; simpl in HT.
  - injection HT as -> -> ->. destruct e; auto. left. simpl in H. rewrite !Nat.eqb_refl in H. simpl in H.
    apply andb_prop in H. destruct H as [H _]. apply existsb_exists in H. destruct H as (k & Hk & He).
    apply Nat.eqb_eq in He. subst k. exact Hk.
  - injection HT as <- HT.
    assert (Hnext : exists h', copies_ok q m h' T = true /\ forall k, In k h' -> In k h \/ exists nm y, o = OWr (WrCopy (ECopy k) nm y)).
    { simpl in H. destruct o; try (exists h; split; [exact H|auto]; fail).
      - destruct c as [[[] ?]|]; try (exists h; split; [exact H|auto]; fail).
        apply andb_prop in H. exists h. split; [apply H|auto].
      - destruct w; try (exists h; split; [exact H|auto]; fail).
        destruct e0; try (exists h; split; [exact H|auto]; fail).
        eexists (_ :: h). split; [exact H|]. intros k' [<-|Hk]; [right; eauto|auto]. }
    destruct Hnext as (h' & H' & Hin). specialize (IH h' H' a t p e r HT). destruct e; auto.
    destruct IH as [Hk|(t1 & nm & y & Hi)]; [|right; exists t1, nm, y; right; exact Hi].
    destruct (Hin _ Hk) as [Hh|(nm & y & ->)]; [left; exact Hh|right; exists t0, nm, y; left; reflexivity].
Qed.
Lemma taken_exist_ok E m T : copies_ok (queue_of E m) m [] T = true -> taken_exist E m T.
Proof.
  intros H a t p e r HT. pose proof (copies_ok_made _ _ _ _ H _ _ _ _ _ HT) as Hm. destruct e; simpl; auto.
  destruct Hm as [[]|Hm]; exact Hm.
Qed.

Lemma answers_ok f vs : Forall (fun v : view => Forall (fun o => match o with OBack c x => x = f c | _ => True end) (snd (fst v))) vs ->
  answers (fun _ _ _ => f) vs.
Proof.
  intros H vs1 n os z vs2 -> a c x b ->. apply Forall_app in H. destruct H as [_ H]. inversion H as [|v vs Hv _]; subst.
  simpl in Hv. apply Forall_app in Hv. destruct Hv as [_ Hv]. apply Forall_inv in Hv. exact Hv.
Qed.

(** a machine that is not reconfigured *)
Definition no_config (h : trace) : bool := forallb (fun to => match snd to with OWr (WrCfg _ _ _) => false | _ => true end) h.
Lemma conf_same sn m en s0 h : no_config h = true -> conf_of sn m en s0 h = s0.
Proof.
  unfold conf_of, confs_of. change s0 with (snd (en, s0)) at 2. generalize (en, s0) as ns.
  induction h as [|[t o] h IH]; intros ns H; [reflexivity|]. simpl in H. apply andb_prop in H. destruct H as [H1 H2].
  unfold replay in *. simpl. rewrite (IH _ H2). destruct o; try reflexivity. destruct w; try reflexivity. discriminate.
Qed.
Lemma demo_conf_same E os lis ac py m h : no_config h = true ->
  conf_at E (demo_mem E os lis ac py) m h (spec_of (sname E) (ename0 E) m (os m)).
Proof. intro H. rewrite <- (conf_same (sname E) m (ename E (demo_mem E os lis ac py)) _ h H) at 1. apply demo_conf_at. Qed.
(** no action is added *)
Definition no_append (h : trace) : bool := forallb (fun to => match snd to with OWr (WrActs _ _ _) => false | _ => true end) h.
Lemma acts_same w0 en s h : no_append h = true -> acts_at w0 en s h = acts w0 en s.
Proof.
  unfold acts_at, acts_of. generalize (acts w0 en s) as l.
  induction h as [|[t o] h IH]; intros l H; [reflexivity|]. simpl in H. apply andb_prop in H. destruct H as [H1 H2].
  unfold replay in *. simpl. rewrite (IH _ H2). destruct o; try reflexivity. destruct w; try reflexivity. discriminate.
Qed.
