(** * Witness.v: checking hypotheses of theorems on concrete executions by
    computation (used by the Examples) *)
From Verif Require Import ExactSpec Demo Config ConfigObs ConfigProofs2 Tree Place.

(** ** Configuration *)
Definition spec_of (sn : sid -> string) (en : eid -> string) (m : mid) (os : list cop) : sstate :=
  snd (fold_left (fun (cs : cfg * sstate) o =>
    let (c', r) := cfg_step sn en m o (fst cs) in
    (c', match r with Ok _ => effect sn en m o (snd cs) | Err _ => snd cs end)) os (cfg0, nothing_yet)).
Lemma spec_of_history sn en m os : history sn en m os (spec_of sn en m os).
Proof.
  unfold spec_of. set (f := fun (cs : cfg * sstate) o => _).
  assert (H : fst (fold_left f os (cfg0, nothing_yet)) = cfg_run sn en m os /\
              history sn en m os (snd (fold_left f os (cfg0, nothing_yet)))); [|apply H].
  induction os as [|o os [IH1 IH2]] using rev_ind; [split; [reflexivity|constructor]|].
  rewrite fold_left_app. simpl. set (cs := fold_left f os (cfg0, nothing_yet)) in *. unfold f at 1 2.
  assert (Hrun : cfg_run sn en m (os ++ [o]) = fst (cfg_step sn en m o (fst cs))).
  { unfold cfg_run. rewrite fold_left_app. simpl. unfold cfg_exec at 1. rewrite IH1. reflexivity. }
  pose proof (accepts_iff sn en m os (snd cs) o IH2) as Ha. unfold accepts in Ha. rewrite <- IH1 in Ha.
  destruct (cfg_step sn en m o (fst cs)) as [c' r] eqn:Es. simpl in *. split; [symmetry; exact Hrun|].
  destruct r as [[]|x].
  - apply h_accept; [exact IH2|]. apply Ha. reflexivity.
  - apply h_reject; [exact IH2|]. intro Hal. apply Ha in Hal. discriminate.
Qed.
(** every reachable moment has a configuration *)
Lemma conf_exists E w0 m h : init_mem E w0 -> exists s, conf_at E w0 m h s.
Proof.
  intro H0. destruct (im_cfg _ _ H0 m) as [os Hos]. exists (conf_of (sname E) m (ename E w0) (spec_of (sname E) (ename0 E) m os) h).
  exists os, (spec_of (sname E) (ename0 E) m os). split; [exact Hos|]. split; [apply spec_of_history|reflexivity].
Qed.
Definition demo_conf (E : env) (w0 : mem) (m : mid) (os : list cop) (h : trace) : sstate :=
  conf_of (sname E) m (ename E w0) (spec_of (sname E) (ename0 E) m os) h.
Lemma demo_conf_at E os lis ac py m h : conf_at E (demo_mem E os lis ac py) m h (demo_conf E (demo_mem E os lis ac py) m (os m) h).
Proof. exists (os m), (spec_of (sname E) (ename0 E) m (os m)). split; [reflexivity|]. split; [apply spec_of_history|reflexivity]. Qed.

(** ** Interference *)
Definition startsb (E : env) (m : mid) (x : api) : bool :=
  match x with
  | AStart m' | AStartIn m' _ => Nat.eqb m' m
  | AAppStart p => Nat.eqb (ap_mach (apps E p)) m
  | _ => false
  end.
(** the machine has been started *)
Definition going (m : mid) (h : trace) : bool :=
  existsb (fun to => match snd to with OUnended m' => Nat.eqb m' m | _ => false end) h.
Definition disturbsb (E : env) (m : mid) (h : trace) (x : api) : bool :=
  match x with
  | AStop m' | ASetListener m' _ => Nat.eqb m' m
  | ACfg m' _ => Nat.eqb m' (table_of E m)
  | AAppend _ _ _ => true
  | _ => startsb E m x && negb (going m h)
  end.
Lemma going_ok m h : going m h = true -> start_over m h.
Proof.
  intro H. left. apply existsb_exists in H. destruct H as ([t o] & Hi & Ho). destruct o; try discriminate.
  apply Nat.eqb_eq in Ho. subst. eauto.
Qed.
Lemma disturbsb_ok E m h x : disturbs E m h x -> disturbsb E m h x = true.
Proof.
  assert (Hg : ~ start_over m h -> negb (going m h) = true).
  { intro Hn. destruct (going m h) eqn:Eg; [|reflexivity]. destruct (Hn (going_ok _ _ Eg)). }
  destruct x; simpl; auto; try (intros [[] _]; fail); try (intros ->; apply Nat.eqb_refl);
    intros [-> Hn]; rewrite (Hg Hn), Nat.eqb_refl; reflexivity.
Qed.
Definition calm_check (E : env) (m : mid) (h r : trace) : bool :=
  forallb (fun to => match snd to with OInv x => negb (disturbsb E m h x) | _ => true end) r &&
  forallb (fun to => forallb (fun f => match fst f with FApi x => negb (disturbsb E m h x) | _ => true end) (fst (scan (fst to) h))) h.
Lemma calm_ok E m h r : calm_check E m h r = true -> calm E m h r.
Proof.
  intro H. apply andb_prop in H. destruct H as [H1 H2]. rewrite forallb_forall in H1, H2. intros t x Hx.
  pose proof (disturbsb_ok _ _ _ _ Hx) as Hb. split.
  - intro Hi. specialize (H1 _ Hi). simpl in H1. rewrite Hb in H1. discriminate.
  - intros its Ho. destruct (opened_earlier t [] h (FApi x) its Ho ltac:(discriminate)) as [[i [Hi|[]]]|(op & _ & Hin)]; [discriminate|].
    specialize (H2 _ Hin). rewrite forallb_forall in H2. specialize (H2 _ Ho). simpl in H2. rewrite Hb in H2. discriminate.
Qed.
Definition rests_check (q : qid) (t : tid) (h : trace) : bool :=
  forallb (fun f => match fst f with FTake q' _ _ => negb (Nat.eqb q' q) | _ => true end) (fst (scan t h)).
Lemma rests_ok q t h : rests_check q t h = true -> rests q t h.
Proof.
  intro H. unfold rests_check in H. rewrite forallb_forall in H. intros p c its Ho. specialize (H _ Ho). simpl in H.
  rewrite Nat.eqb_refl in H. discriminate.
Qed.

(** the part of a trace from position i to position j *)
Definition part {A} (i j : nat) (l : list A) : list A := firstn (j - i) (skipn i l).
(** the bracket of thread t from position i to position j *)
Definition items (t : tid) (b : trace) : list obs := match fst (scan t b) with [(_, its)] => its | _ => [] end.
Ltac undist := split; [intros m' H; exact H|split; [vm_compute; repeat constructor|split;
  [split; [vm_compute; reflexivity|split; vm_compute; reflexivity]|apply calm_ok; vm_compute; reflexivity]]].

(** the bracket of thread t from position i to position j of trace T *)
Definition spans (t : tid) (T : trace) (i j : nat) (op z : obs) : Prop :=
  span t T (part 0 i T) op (part (S i) j T) (items t (part (S i) j T)) z (part (S j) 1000 T).
Ltac sp := split; [vm_compute; reflexivity|split; vm_compute; reflexivity].
