(** * PropsBuild.v: building strategies and machines (C28, C29, C47, C48, C49) *)
From Verif Require Import Spec FlowSpec ApiSpec ExactSpec RaceSpec BuildSpec BuildProofs BuildProofs2 BuildProofs3 BuildRun RefuteBuild Demo6 Witness StuckProofs ConfigSpec.

(** ** C28: default builds share *)
(** A machine built without giving a strategy gets a new strategy made from the
    shared private configuration. *)
Theorem C28_default_configuration :
  forall progs sched m d, let s := brun progs sched in
    only_builds progs -> built_with s m d -> made_from s d CBasic.
Proof. exact default_basic. Qed.
Print Assumptions C28_default_configuration.

(** Machines whose strategies come from one configuration nobody sets anything
    on, in particular the default one, share queue and executor (of one thread)
    if the strategies are not created at the same time. *)
Theorem C28_defaults_share :
  forall progs sched rest c m1 m2 d1 d2, let s := brun progs sched in let E := env_of s rest in
    (forall f, never_set progs c f) -> one_by_one progs sched c ->
    built_with s m1 d1 -> built_with s m2 d2 -> made_from s d1 c -> made_from s d2 c ->
    queue_of E m1 = queue_of E m2 /\ exec_of E m1 = exec_of E m2 /\ n_workers E (exec_of E m1) = 1.
Proof. exact share_env. Qed.
Print Assumptions C28_defaults_share.

(** Whatever happened before: once such a strategy exists and none is being
    created, all later ones hold the same objects, even if created at the same
    time. *)
Theorem C28_later_defaults_share :
  forall progs c, (forall f, never_set progs c f) ->
  forall s1 s2 d0 d f, (forall i, ~ creating (brun progs s1) i c) -> made_from (brun progs s1) d0 c ->
    let s := brun progs (s1 ++ s2) in List.length (dstrats (brun progs s1)) <= d -> made_from s d c ->
    holds s d f (c_obj (confs (brun progs s1) c) f) /\ c_obj (confs (brun progs s1) c) f <> None.
Proof. exact share_later. Qed.
Print Assumptions C28_later_defaults_share.

(** Without these provisos sharing is a matter of luck: threads building at the
    same time can get machines with different queues ... *)
Theorem C28_defaults_always_share_queue_refuted :
  ~ forall progs sched rest m1 m2 d1 d2, only_builds progs -> let s := brun progs sched in let E := env_of s rest in
    built_with s m1 d1 -> built_with s m2 d2 -> queue_of E m1 = queue_of E m2.
Proof. exact p_race_queue. Qed.
Print Assumptions C28_defaults_always_share_queue_refuted.
(** ... or with the same queue, drained by different executors. *)
Theorem C28_shared_queue_shared_executor_refuted :
  ~ forall progs sched rest m1 m2 d1 d2, only_builds progs -> let s := brun progs sched in let E := env_of s rest in
    built_with s m1 d1 -> built_with s m2 d2 -> queue_of E m1 = queue_of E m2 -> exec_of E m1 = exec_of E m2.
Proof. exact p_race_exec. Qed.
Print Assumptions C28_shared_queue_shared_executor_refuted.

(** Default machines, though each has its own table, are not isolated: an event
    with a target in the machine's own configuration need not move it. *)
Theorem C28_default_machines_isolated_refuted :
  ~ forall progs sched rest, only_builds progs ->
    let E := env_of (brun progs sched) rest in
    forall w0 w, init_mem E w0 -> reach E w0 w ->
    forall t a q p e m b its z d conf s, span t (tr (wm w)) a (OTake q p (Some (e, m))) b its z d -> one_thread E m ->
      calm E m a ((t, OTake q p (Some (e, m))) :: b) -> nothing_threw (tr (wm w)) -> start_finished m a -> ended_at m a = false ->
      table_of E m = m -> conf_at E w0 m a conf ->
      reacts (sname E) conf (cur_at m a) (name_at E w0 e a) = Target s -> sname E s <> "_NOOP_"%string ->
      In (OState m s) its.
Proof. exact p_default_interfere. Qed.
Print Assumptions C28_default_machines_isolated_refuted.

Example C28_build_example :
  only_builds two_builds /\ built_with built2 0 0 /\ built_with built2 1 1 /\ made_from built2 0 CBasic /\ made_from built2 1 CBasic /\
  (forall f, never_set two_builds CBasic f) /\ one_by_one two_builds (repeat 0 60) CBasic /\
  (forall i, ~ creating (brun two_builds (repeat 0 18)) i CBasic) /\ made_from (brun two_builds (repeat 0 18)) 0 CBasic /\
  List.length (dstrats (brun two_builds (repeat 0 18))) = 1.
Proof.
  split; [intros [|i] op; simpl; [|contradiction]; intros [<-|[<-|[]]]; eauto|].
  split; [exists false; vm_compute; reflexivity|]. split; [exists false; vm_compute; reflexivity|].
  split; [eexists; vm_compute; split; reflexivity|]. split; [eexists; vm_compute; split; reflexivity|].
  split; [intros f i u v H; discriminate|].
  assert (Hj : forall s1 i, (exists s2, repeat 0 60 = s1 ++ s2) -> creating (brun two_builds s1) i CBasic -> i = 0).
  { intros s1 i (s2 & Hs) Hc. destruct i as [|i]; [reflexivity|]. exfalso. revert Hc.
    assert (Ha : forall x, In x s1 -> x = 0) by (intros x Hx; apply (repeat_spec 60 0); rewrite Hs; apply in_or_app; auto).
    assert (Ht : threads (brun two_builds s1) (S i) = {| b_ph := Idle; b_todo := [] |}).
    { unfold brun. clear Hs. induction s1 as [|x s1 IH] using rev_ind; [reflexivity|]. rewrite fold_left_app. cbn [fold_left].
      rewrite (Ha x) by (apply in_or_app; right; left; reflexivity). rewrite bstep_other by discriminate. apply IH. intros y Hy. apply Ha. apply in_or_app. auto. }
    unfold creating. rewrite Ht. auto. }
  split; [intros s1 s2 Hs i j Hi Hj'; rewrite (Hj s1 i), (Hj s1 j); eauto|].
  split; [|split; [eexists; vm_compute; split; reflexivity|vm_compute; reflexivity]].
  intros i Hc. assert (i = 0) as -> by (apply (Hj (repeat 0 18)); [exists (repeat 0 42); reflexivity|exact Hc]). vm_compute in Hc. exact Hc.
Qed.

(** ** C29: strategies from separate Config objects *)
(** They share only objects the user gave to both. *)
Theorem C29_separate_objects :
  forall progs sched d1 d2 c1 c2 f o, let s := brun progs sched in
    made_from s d1 c1 -> made_from s d2 c2 -> c1 <> c2 -> holds s d1 f (Some o) -> holds s d2 f (Some o) ->
    exists n, o = OUser n /\ given progs c1 f n /\ given progs c2 f n.
Proof. exact separate. Qed.
Print Assumptions C29_separate_objects.

(** The pool is never shared, whatever the configuration. *)
Theorem C29_own_pool :
  forall progs sched d1 d2 x y, let s := brun progs sched in
    nth_error (dstrats s) d1 = Some x -> nth_error (dstrats s) d2 = Some y -> d1 <> d2 -> d_pool x <> d_pool y.
Proof. exact own_pool. Qed.
Print Assumptions C29_own_pool.

(** A machine that is the only one built from a Config without a given queue has
    its own queue and its own table; if no executor was given either, its
    executor has one thread. *)
Theorem C29_own_config :
  forall progs sched rest m d c, let s := brun progs sched in let E := env_of s rest in
    built_with s m d -> made_from s d c -> never_set progs c FQueue -> (forall m' d', built_with s m' d' -> made_from s d' c -> m' = m) ->
    private_queue E m /\ table_of E m = m /\ (never_set progs c FExec -> n_workers E (exec_of E m) = 1).
Proof. exact own_config. Qed.
Print Assumptions C29_own_config.

(** Its events are processed for it, with its table, and nothing else is. *)
Theorem C29_built_isolated :
  forall progs sched rest m d c, let s := brun progs sched in let E := env_of s rest in
  built_with s m d -> made_from s d c -> never_set progs c FQueue -> (forall m' d', built_with s m' d' -> made_from s d' c -> m' = m) ->
  forall w0 w t p x its, init_mem E w0 -> reach E w0 w ->
    bracket t (tr (wm w)) (FTake (queue_of E m) p x) its ->
    exists e, x = Some (e, m) /\
      (exists i, t = TWorker (exec_of E m) i) /\
      forall o, In o its ->
        match o with
        | ORd (RdMap tb _ e' _) => tb = m /\ e' = e
        | ORd (RdFinal tb _ _) => tb = m
        | OState m' _ | OEnded m' => m' = m
        | OCall (KListen _ _ m' _ e' _) | OCall (KAct _ _ _ e' m')
        | OCall (KUnmapped _ e' m') | OCall (KUflExn _ e' m' _) => m' = m /\ e' = e
        | OCall _ | OOffer _ _ _ _ _ _ | OUnended _ | OStarted _ => False
        | _ => True
        end.
Proof. exact built_isolated. Qed.
Print Assumptions C29_built_isolated.

Example C29_build_example :
  let s := built_mixed in
  built_with s 1 1 /\ made_from s 1 (CUser 0) /\ made_from s 0 (CUser 1) /\ made_from s 2 CBasic /\
  never_set mixed (CUser 0) FQueue /\ (forall m' d', built_with s m' d' -> made_from s d' (CUser 0) -> m' = 1) /\
  holds s 1 FExec (Some (OUser 3)) /\ given mixed (CUser 0) FExec 3 /\ never_set mixed (CUser 1) FExec /\
  holds s 0 FQueue (Some (OLib 5)) /\ holds s 1 FQueue (Some (OLib 6)) /\ holds s 2 FQueue (Some (OLib 10)).
Proof.
  cbv zeta. split; [exists true; vm_compute; reflexivity|]. do 3 (split; [eexists; vm_compute; split; reflexivity|]).
  split; [intros [|[|i]] u v H; simpl; intuition congruence|].
  split. { intros m' d' (b & Hb) (x & Hx & Hf). assert (Hm : machines built_mixed = [(false, 0); (true, 1); (false, 2)]) by (vm_compute; reflexivity).
    assert (Hd : map d_from (dstrats built_mixed) = [Some (CUser 1); Some (CUser 0); Some CBasic]) by (vm_compute; reflexivity).
    apply (map_nth_error d_from) in Hx. rewrite Hd, Hf in Hx. rewrite Hm in Hb. clear Hf Hd Hm x.
    destruct m' as [|[|[|m']]]; [| reflexivity | |destruct m'; discriminate Hb]; injection Hb as <- <-; discriminate Hx. }
  split; [eexists; vm_compute; split; reflexivity|].
  split; [exists 0, 0; split; [reflexivity|simpl; auto]|].
  split; [intros [|[|i]] u v H; simpl; intuition congruence|].
  repeat (split; [eexists; vm_compute; split; reflexivity|]). eexists; vm_compute; split; reflexivity.
Qed.

(** ** C47: one strategy given to several machines, one Builder used twice *)
(** All machines built with a strategy, events of earlier ones included, work
    with the table of the last one built. *)
Theorem C47_last_built_table :
  forall progs sched rest m d, let s := brun progs sched in let E := env_of s rest in
    built_with s m d -> built_with s (table_of E m) d /\ forall m', built_with s m' d -> m' <= table_of E m.
Proof. exact last_table. Qed.
Print Assumptions C47_last_built_table.

(** expectation: every machine works with its own table *)
Theorem C47_own_table_refuted :
  ~ forall progs sched rest m d, let s := brun progs sched in built_with s m d -> table_of (env_of s rest) m = m.
Proof. exact p_own_table. Qed.
Print Assumptions C47_own_table_refuted.

(** expectation: the only active machine reacts to an event as configured *)
Theorem C47_builder_reuse_refuted :
  ~ forall progs sched rest, only_builds progs ->
    let E := env_of (brun progs sched) rest in
    forall w0 w, init_mem E w0 -> reach E w0 w ->
    forall t a q p e m b its z d conf s, span t (tr (wm w)) a (OTake q p (Some (e, m))) b its z d -> one_thread E m ->
      calm E m a ((t, OTake q p (Some (e, m))) :: b) -> nothing_threw (tr (wm w)) -> start_finished m a -> ended_at m a = false ->
      (forall q' p' e' m', In (t, OTake q' p' (Some (e', m'))) (tr (wm w)) -> m' = m) -> conf_at E w0 m a conf ->
      reacts (sname E) conf (cur_at m a) (name_at E w0 e a) = Target s -> sname E s <> "_NOOP_"%string ->
      In (OState m s) its.
Proof. exact p_reused_runs. Qed.
Print Assumptions C47_builder_reuse_refuted.

Example C47_example : built_with built21 0 0 /\ built_with built21 1 0 /\ table_of E21 0 = 1 /\ table_of E21 1 = 1.
Proof. split; [exists false; vm_compute; reflexivity|]. split; [exists false; vm_compute; reflexivity|]. vm_compute. auto. Qed.

(** ** C48: a strategy is a snapshot of its Config *)
(** Nothing done later, to its Config or otherwise, changes what it holds. *)
Theorem C48_snapshot :
  forall progs s1 s2 d x, nth_error (dstrats (brun progs s1)) d = Some x ->
    exists y, nth_error (dstrats (brun progs (s1 ++ s2))) d = Some y /\
      d_from y = d_from x /\ d_obj y = d_obj x /\ d_max y = d_max x /\ d_pool y = d_pool x.
Proof. exact snapshot. Qed.
Print Assumptions C48_snapshot.

Example C48_example :
  let s1 := flat_map (fun _ => [0; 1]) (repeat tt 20) in let s2 := flat_map (fun _ => [0; 1]) (repeat tt 40) in
  exists x, nth_error (dstrats (brun mixed s1)) 1 = Some x /\ d_max x = 5%Z /\
    c_max (confs (brun mixed s1) (CUser 0)) = 5%Z /\ c_max (confs (brun mixed (s1 ++ s2)) (CUser 0)) = 7%Z.
Proof. eexists. vm_compute. repeat split. Qed.

(** And it holds what it was told: a thread that keeps a Config and a variable to
    itself finds in the variable, however the other threads interfere, a strategy
    of the kind asked for with the last queue limit and, for each field, the object
    last given; or, if none was, one made by the factory, with the thread name of
    the first creation that found it unset.  If the field is not set again, the
    Config keeps that object for the next strategy. *)
Theorem C48_created_as_told :
  forall progs i u sched pre h drop mid r, let s := brun progs sched in
    own_conf progs i u -> own_var progs i h ->
    progs i = pre ++ OCreate h drop (CUser u) :: mid ++ r -> keeps_var mid h -> finished s i r ->
    exists d x, handles s h = Some (drop, d) /\ nth_error (dstrats s) d = Some x /\ d_from x = Some (CUser u) /\ d_max x = last_max pre u /\
      forall f, as_said s u f (field_after (pre ++ [OCreate h drop (CUser u)]) u f) (d_obj x f) /\
                (keeps_field mid u f -> c_obj (confs s (CUser u)) f = d_obj x f).
Proof. intros progs i u sched pre h drop mid r s H. exact (created progs i u H sched pre h drop mid r). Qed.
Print Assumptions C48_created_as_told.

(** Strategies it creates from the Config one after the other share the objects of
    the fields it did not set in between. *)
Theorem C48_created_share :
  forall progs i sched u h1 h2 drop1 drop2 pre mid mid2 r d1 d2 x1 x2 f, let s := brun progs sched in
    own_conf progs i u -> own_var progs i h1 -> own_var progs i h2 -> h1 <> h2 ->
    progs i = pre ++ OCreate h1 drop1 (CUser u) :: mid ++ OCreate h2 drop2 (CUser u) :: mid2 ++ r ->
    keeps_var (mid ++ mid2) h1 -> keeps_var mid2 h2 -> keeps_field (mid ++ mid2) u f -> finished s i r ->
    handles s h1 = Some (drop1, d1) -> handles s h2 = Some (drop2, d2) ->
    nth_error (dstrats s) d1 = Some x1 -> nth_error (dstrats s) d2 = Some x2 ->
    d_obj x1 f = d_obj x2 f.
Proof. exact created_share. Qed.
Print Assumptions C48_created_share.

(** A machine built by a Builder it keeps to itself, given that strategy, runs with
    exactly that. *)
Theorem C48_built_as_told :
  forall progs i sched rest u b h drop pre mid1 mid2 mid3 r, let s := brun progs sched in let E := env_of s rest in
    own_conf progs i u -> own_var progs i h -> own_builder progs i b ->
    progs i = pre ++ OCreate h drop (CUser u) :: mid1 ++ OSetStrategy b (Some h) :: mid2 ++ OBuild b :: mid3 ++ r ->
    keeps_var (mid1 ++ mid2 ++ mid3) h -> keeps_builder (mid2 ++ mid3) b -> finished s i r ->
    exists m d, built_with s m d /\ made_from s d (CUser u) /\
      runs_as_said s E u m drop (last_max pre u) (field_after (pre ++ [OCreate h drop (CUser u)]) u).
Proof. exact built_runs. Qed.
Print Assumptions C48_built_as_told.

Example C48_own_example :
  let pre := [OWith 0 FExec (Some 3); OMax 0 5; OName 0 (Some "n"%string)] in
  own_conf mixed 0 0 /\ own_var mixed 0 0 /\ own_builder mixed 0 0 /\
  mixed 0 = pre ++ OCreate 0 true (CUser 0) :: [] ++ OSetStrategy 0 (Some 0) :: [] ++ OBuild 0 :: [OMax 0 7] ++ [] /\
  finished built_mixed 0 [] /\ last_max pre 0 = 5%Z /\
  field_after (pre ++ [OCreate 0 true (CUser 0)]) 0 FExec = FGiven 3 /\
  field_after (pre ++ [OCreate 0 true (CUser 0)]) 0 FQueue = FMade "n"%string /\
  handles named 0 = Some (false, 0) /\ handles named 1 = Some (true, 1) /\ finished named 0 [] /\
  named_calls 0 = [] ++ OCreate 0 false (CUser 0) :: [OName 0 (Some "n"%string); OWith 0 FExec (Some 4)] ++ OCreate 1 true (CUser 0) :: [] ++ [].
Proof.
  cbv zeta. split; [intros [|[|j]] op Hj; simpl; [congruence| |contradiction]; intros [<-|[<-|[<-|[<-|[<-|[]]]]]]; simpl; try exact I; congruence|].
  split; [intros [|[|j]] op Hj; simpl; [congruence| |contradiction]; intros [<-|[<-|[<-|[<-|[<-|[]]]]]]; simpl; try exact I; congruence|].
  split; [intros [|[|j]] op Hj; simpl; [congruence| |contradiction]; intros [<-|[<-|[<-|[<-|[<-|[]]]]]]; simpl; try exact I; congruence|].
  repeat (split; [vm_compute; reflexivity|]). vm_compute. reflexivity.
Qed.

(** ** C49: thread name prefixes of the executors made by the factory *)
Theorem C49_prefix :
  forall progs sched c f p, In (c, f, p) (origin (brun progs sched)) ->
    p = "state-machine"%string \/ exists i u, c = CUser u /\ In (OName u (Some p)) (progs i).
Proof. exact prefixes. Qed.
Print Assumptions C49_prefix.

(** expectation: the executor of a strategy, if made by the factory, has the thread
    name last given to the Config (it has the one of the first strategy) *)
Theorem C49_last_name_refuted :
  ~ forall progs i sched u h drop pre r n d x k p, let s := brun progs sched in
    own_conf progs i u -> own_var progs i h -> progs i = pre ++ OCreate h drop (CUser u) :: r -> finished s i r ->
    last_name pre u = Some n -> handles s h = Some (drop, d) -> nth_error (dstrats s) d = Some x ->
    d_obj x FExec = Some (OLib k) -> nth_error (origin s) k = Some (CUser u, FExec, p) -> p = n.
Proof. exact p_last_name. Qed.
Print Assumptions C49_last_name_refuted.

Example C49_example :
  In (CUser 1, FExec, "k"%string) (origin built_mixed) /\ In (CBasic, FExec, "state-machine"%string) (origin built_mixed).
Proof. vm_compute. auto 20. Qed.
