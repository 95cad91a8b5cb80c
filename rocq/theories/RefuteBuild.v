(** * RefuteBuild.v: refutations about built machines, by execution (C28, C47) *)
From Verif Require Import RefuteProofs Demo6 BuildProofs BuildProofs2 QueueProofs.
From Verif Require Import ApiSpec ExactSpec RaceSpec Witness StuckProofs ConfigSpec.

(** machines built by default do not influence each other *)
Lemma p_default_interfere :
  ~ forall progs sched rest, only_builds progs ->
    let E := env_of (brun progs sched) rest in
    forall w0 w, init_mem E w0 -> reach E w0 w ->
    forall t a q p e m b its z d conf s, span t (tr (wm w)) a (OTake q p (Some (e, m))) b its z d -> one_thread E m ->
      calm E m a ((t, OTake q p (Some (e, m))) :: b) -> nothing_threw (tr (wm w)) -> start_finished m a -> ended_at m a = false ->
      table_of E m = m -> conf_at E w0 m a conf ->
      reacts (sname E) conf (cur_at m a) (name_at E w0 e a) = Target s -> sname E s <> "_NOOP_"%string ->
      In (OState m s) its.
Proof.
  intro H. pose (T := tr (wm run20)).
  assert (Hi : In (OState 1 (SUser 0)) (items (wk 5) (part 70 80 T))).
  { assert (Ho : only_builds two_builds) by (intros [|i] op; simpl; [|contradiction]; intros [<-|[<-|[]]]; eauto).
    specialize (H two_builds (repeat 0 60) E10 Ho). cbv zeta in H.
    assert (HE : env_of (brun two_builds (repeat 0 60)) E10 = E20) by (unfold E20, built2; reflexivity). rewrite HE in H. clear HE.
    apply H with (w0 := w20) (w := run20) (t := wk 5) (a := part 0 69 T) (q := 13) (p := 1) (e := EUser 0) (m := 1) (b := part 70 80 T)
      (z := ODone 13 1 None) (d := part 81 1000 T) (conf := demo_conf E20 w20 1 [CInit (SUser 3); CReceives (EUser 0); CTo (SUser 0)] (part 0 69 T)).
    - exact (demo_init E20 _ _ _ _).
    - exact (after_reach E20 _ _).
    - sp.
    - vm_compute. repeat constructor.
    - apply calm_ok. vm_compute. reflexivity.
    - apply quiet_ok. vm_compute. reflexivity.
    - exists c0, (FApi (AStart 1)), (items c0 (part 13 23 T)), (ORet (AStart 1) RvUnit). vm_compute. split; auto 10.
    - vm_compute. reflexivity.
    - vm_compute. reflexivity.
    - exact (demo_conf_at E20 _ _ _ _ 1 _).
    - vm_compute. reflexivity.
    - vm_compute. discriminate. }
  vm_compute in Hi. intuition discriminate.
Qed.

(** all machines built by default share the queue, whoever builds them *)
Lemma p_race_queue :
  ~ forall progs sched rest m1 m2 d1 d2, only_builds progs -> let s := brun progs sched in let E := env_of s rest in
    built_with s m1 d1 -> built_with s m2 d2 -> queue_of E m1 = queue_of E m2.
Proof.
  intro H. assert (Hq : queue_of (env_of raced E10) 0 = queue_of (env_of raced E10) 1).
  { apply (H racing _ E10 0 1 0 1).
    - intros [|[|i]] op; simpl; [intros [<-|[]]; eauto..|contradiction].
    - exists false. vm_compute. reflexivity.
    - exists false. vm_compute. reflexivity. }
  vm_compute in Hq. discriminate.
Qed.
(** machines that share a queue share the executor *)
Lemma p_race_exec :
  ~ forall progs sched rest m1 m2 d1 d2, only_builds progs -> let s := brun progs sched in let E := env_of s rest in
    built_with s m1 d1 -> built_with s m2 d2 -> queue_of E m1 = queue_of E m2 -> exec_of E m1 = exec_of E m2.
Proof.
  intro H. assert (Hq : exec_of (env_of raced_exec E10) 0 = exec_of (env_of raced_exec E10) 1).
  { apply (H racing _ E10 0 1 0 1).
    - intros [|[|i]] op; simpl; [intros [<-|[]]; eauto..|contradiction].
    - exists false. vm_compute. reflexivity.
    - exists false. vm_compute. reflexivity.
    - vm_compute. reflexivity. }
  vm_compute in Hq. discriminate.
Qed.

(** every machine works with its own configuration *)
Lemma p_own_table : ~ forall progs sched rest m d, let s := brun progs sched in built_with s m d -> table_of (env_of s rest) m = m.
Proof.
  intro H. assert (Hq : table_of (env_of built21 E10) 0 = 0).
  { apply (H reused (repeat 0 60) E10 0 0). exists false. vm_compute. reflexivity. }
  vm_compute in Hq. discriminate.
Qed.
Lemma p_reused_runs :
  ~ forall progs sched rest, only_builds progs ->
    let E := env_of (brun progs sched) rest in
    forall w0 w, init_mem E w0 -> reach E w0 w ->
    forall t a q p e m b its z d conf s, span t (tr (wm w)) a (OTake q p (Some (e, m))) b its z d -> one_thread E m ->
      calm E m a ((t, OTake q p (Some (e, m))) :: b) -> nothing_threw (tr (wm w)) -> start_finished m a -> ended_at m a = false ->
      (forall q' p' e' m', In (t, OTake q' p' (Some (e', m'))) (tr (wm w)) -> m' = m) -> conf_at E w0 m a conf ->
      reacts (sname E) conf (cur_at m a) (name_at E w0 e a) = Target s -> sname E s <> "_NOOP_"%string ->
      In (OState m s) its.
Proof.
  intro H. pose (T := tr (wm run21)).
  assert (Hi : In (OState 0 (SUser 1)) (items (wk 5) (part 26 36 T))).
  { assert (Ho : only_builds reused) by (intros [|i] op; simpl; [|contradiction]; intros [<-|[<-|[]]]; eauto).
    specialize (H reused (repeat 0 60) (demo own_strat (fun m => m) demo_app quiet [[AStart 0; AFire 0 (EUser 0)]] (fun _ => 1)) Ho).
    cbv zeta in H.
    assert (HE : env_of (brun reused (repeat 0 60)) (demo own_strat (fun m => m) demo_app quiet [[AStart 0; AFire 0 (EUser 0)]] (fun _ => 1)) = E21) by (unfold E21, built21; reflexivity).
    rewrite HE in H. clear HE.
    apply H with (w0 := w21) (w := run21) (t := wk 5) (a := part 0 25 T) (q := 13) (p := 0) (e := EUser 0) (m := 0) (b := part 26 36 T)
      (z := ODone 13 0 None) (d := part 37 1000 T) (conf := demo_conf E21 w21 0 abc (part 0 25 T)).
    - exact (demo_init E21 _ _ _ _).
    - exact (after_reach E21 _ _).
    - sp.
    - vm_compute. repeat constructor.
    - apply calm_ok. vm_compute. reflexivity.
    - apply quiet_ok. vm_compute. reflexivity.
    - exists c0, (FApi (AStart 0)), (items c0 (part 1 11 T)), (ORet (AStart 0) RvUnit). vm_compute. split; auto 10.
    - vm_compute. reflexivity.
    - intros q' p' e' m' Hin. 
      assert (Hb : forallb (fun to => match snd to with OTake _ _ (Some (_, 0)) => true | OTake _ _ _ => false | _ => true end) T = true) by (vm_compute; reflexivity).
      rewrite forallb_forall in Hb. specialize (Hb _ Hin). simpl in Hb. destruct m'; [reflexivity|]. clear - Hb. discriminate Hb.
    - exact (demo_conf_at E21 _ _ _ _ 0 _).
    - vm_compute. reflexivity.
    - vm_compute. discriminate. }
  vm_compute in Hi. intuition discriminate.
Qed.

Lemma p_last_name :
  ~ forall progs i sched u h drop pre r n d x k p, let s := brun progs sched in
    own_conf progs i u -> own_var progs i h -> progs i = pre ++ OCreate h drop (CUser u) :: r -> finished s i r ->
    last_name pre u = Some n -> handles s h = Some (drop, d) -> nth_error (dstrats s) d = Some x ->
    d_obj x FExec = Some (OLib k) -> nth_error (origin s) k = Some (CUser u, FExec, p) -> p = n.
Proof.
  intro H. assert (Hp : "state-machine"%string = "n"%string); [|discriminate Hp].
  eapply (H renamed_calls 0 (repeat 0 40) 0 1 false [OCreate 0 false (CUser 0); OName 0 (Some "n"%string)] [] "n"%string 1 _ 1).
  - intros [|j] op Hj; simpl; [congruence|contradiction].
  - intros [|j] op Hj; simpl; [congruence|contradiction].
  - reflexivity.
  - vm_compute. reflexivity.
  - reflexivity.
  - vm_compute. reflexivity.
  - vm_compute. reflexivity.
  - vm_compute. reflexivity.
  - vm_compute. reflexivity.
Qed.
