(** * PropsRefuted.v: expectations the code does not meet, each refuted by a
    reachable execution, and what holds instead (C19, C22, C23, C26, C27, C28, C30,
    C38, C39, C41, C44) *)
From Verif Require Import ApiSpec RaceSpec CallSpec ExactSpec Demo Demo2 Demo3 Demo10 Demo11 Witness StuckProofs RefuteProofs.

(** ** C19: an initial state configured to end does not end the machine *)
(** expectation: a machine started into a final state has ended *)
Theorem C19_starting_in_a_final_state_ends_refuted :
  ~ forall E w0 w, init_mem E w0 -> reach E w0 w ->
    forall m x t a b its d conf s, starting m x -> span t (tr (wm w)) a (OInv x) b its (ORet x RvUnit) d ->
      let h := a ++ (t, OInv x) :: b ++ [(t, ORet x RvUnit)] in
      conf_at E w0 (table_of E m) h conf -> cur_at m h = Some s -> final_state (sname E) (table_of E m) conf s ->
      ended_at m h = true.
Proof. exact p_C19_starting_in_a_final_state_ends_refuted. Qed.
Print Assumptions C19_starting_in_a_final_state_ends_refuted.

(** nor does any later event, unless it is named _immediate_ *)
Theorem C19_no_other_event_ends_it :
  forall E w0 w, init_mem E w0 -> reach E w0 w ->
  forall m h r conf s, private_queue E m -> one_thread E m -> tr (wm w) = h ++ r -> calm E m h r ->
    conf_at E w0 (table_of E m) h conf ->
    rests (queue_of E m) (worker_of E m) h -> rests (queue_of E m) (worker_of E m) (h ++ r) ->
    cur_at m h = Some s ->
    (forall n t, reacts (sname E) conf (Some s) n = Target t -> n = "_immediate_"%string) ->
    (forall p e h', In (p, Some (e, m)) (taken (queue_of E m) r) -> upto h' (h ++ r) -> name_at E w0 e h' <> "_immediate_"%string) ->
    mstate_at m (h ++ r) = mstate_at m h.
Proof. exact final_start_stuck. Qed.
Print Assumptions C19_no_other_event_ends_it.

(** start() and startInState() into a final state; an ordinary event does not
    end machine 0, the event named _immediate_ does *)
Example C19_example :
  let T := tr (wm run7') in let conf := demo_conf E7 w7 0 ends_cfg (part 0 30 T) in
  (spans c0 T 0 11 (OInv (AStart 0)) (ORet (AStart 0) RvUnit) /\ mstate_at 0 (part 0 12 T) = (Some (SUser 0), false)) /\
  (spans c0 T 12 17 (OInv (AStartIn 1 (SUser 0))) (ORet (AStartIn 1 (SUser 0)) RvUnit) /\ mstate_at 1 (part 0 18 T) = (Some (SUser 0), false)) /\
  (private_queue E7 0 /\ one_thread E7 0 /\ calm E7 0 (part 0 30 T) (part 30 41 T) /\ conf_at E7 w7 (table_of E7 0) (part 0 30 T) conf /\
   rests 0 (wk 0) (part 0 30 T) /\ rests 0 (wk 0) (part 0 41 T) /\ taken 0 (part 30 41 T) = [(0, Some (EUser 0, 0))] /\
   ename E7 w7 (EUser 0) = "e0"%string /\ (forall n t, reacts (sname E7) conf (Some (SUser 0)) n = Target t -> n = "_immediate_"%string) /\
   mstate_at 0 (part 0 41 T) = (Some (SUser 0), false)) /\
  (spans c1 T 41 52 (OInv (AFire 0 (EUser 4))) (ORet (AFire 0 (EUser 4)) RvUnit) /\ ename E7 w7 (EUser 4) = "_immediate_"%string /\
   mstate_at 0 T = (Some (SEnd 0), true)).
Proof.
  cbv zeta. split; [split; [sp|vm_compute; reflexivity]|]. split; [split; [sp|vm_compute; reflexivity]|]. split.
  - split; [intros m' H; exact H|]. split; [vm_compute; repeat constructor|]. split; [apply calm_ok; vm_compute; reflexivity|].
    split; [exact (demo_conf_at E7 _ _ _ _ 0 _)|]. split; [apply rests_ok; vm_compute; reflexivity|].
    split; [apply rests_ok; vm_compute; reflexivity|]. split; [vm_compute; reflexivity|]. split; [vm_compute; reflexivity|].
    split; [|vm_compute; reflexivity]. rewrite (same_conf E7). 2:{ vm_compute. reflexivity. }
    intros n t. unfold spec_of, ends_cfg. simpl. unfold set_entry. simpl. destruct (String.eqb n "_immediate_") eqn:En; [|discriminate].
    intros _. apply String.eqb_eq. exact En.
  - split; [sp|]. split; vm_compute; reflexivity.
Qed.

(** ** C22: stop() racing a transition *)
(** expectation: once isEnded() has returned true, getCurrentState() returns
    the end state *)
Theorem C22_ended_means_end_state_refuted :
  ~ forall E w0 w, init_mem E w0 -> reach E w0 w ->
    forall m t1 a1 b1 i1 d1 t2 a2 b2 i2 d2 s, start_finished m a1 ->
      span t1 (tr (wm w)) a1 (OInv (AIsEnded m)) b1 i1 (ORet (AIsEnded m) (RvBool true)) d1 ->
      span t2 (tr (wm w)) a2 (OInv (AGetCur m)) b2 i2 (ORet (AGetCur m) (RvState s)) d2 ->
      upto (a1 ++ (t1, OInv (AIsEnded m)) :: b1 ++ [(t1, ORet (AIsEnded m) (RvBool true))]) a2 ->
      exists c, s = Some c /\ sname E c = "_END_"%string.
Proof. exact p_C22_ended_means_end_state_refuted. Qed.
Print Assumptions C22_ended_means_end_state_refuted.

(** it holds as long as nobody interferes, and stop() establishes it unless
    another thread moves the machine at the same time *)
Theorem C22_without_interference :
  forall E w0 w, init_mem E w0 -> reach E w0 w ->
  forall m h r, private_queue E m -> one_thread E m -> tr (wm w) = h ++ r -> calm E m h r ->
    rests (queue_of E m) (worker_of E m) h -> rests (queue_of E m) (worker_of E m) (h ++ r) ->
    (ended_at m h = true -> exists c, cur_at m h = Some c /\ sname E c = "_END_"%string) ->
    (ended_at m (h ++ r) = true -> exists c, cur_at m (h ++ r) = Some c /\ sname E c = "_END_"%string).
Proof. exact calm_end. Qed.
Print Assumptions C22_without_interference.

Theorem C22_stop_alone :
  forall E w0 w, init_mem E w0 -> reach E w0 w ->
  forall m t a b its v d, span t (tr (wm w)) a (OInv (AStop m)) b its (ORet (AStop m) v) d -> alone m t b ->
    v = RvUnit /\ mstate_at m (a ++ (t, OInv (AStop m)) :: b ++ [(t, ORet (AStop m) v)]) =
      if ended_at m a then mstate_at m a else (Some (SEnd m), true).
Proof. exact stop_alone. Qed.
Print Assumptions C22_stop_alone.

Example C22_example :
  (let T := tr (wm run10') in spans c1 T 48 51 (OInv (AStop 0)) (ORet (AStop 0) RvUnit) /\ alone 0 c1 (part 49 51 T) /\
   ended_at 0 (part 0 48 T) = false /\ mstate_at 0 (part 0 52 T) = (Some (SEnd 0), true)) /\
  (let T := tr (wm run1) in private_queue E1 0 /\ one_thread E1 0 /\ calm E1 0 (part 0 21 T) (part 21 1000 T) /\
   rests 0 (wk 0) (part 0 21 T) /\ rests 0 (wk 0) T /\ ended_at 0 (part 0 21 T) = false /\ mstate_at 0 T = (Some (SEnd 0), true)).
Proof.
  cbv zeta. split.
  - split; [sp|]. split; [|split; vm_compute; reflexivity]. intros t' o Hi Hn. vm_compute in Hi. intuition congruence.
  - split; [intros m' H; exact H|]. split; [vm_compute; repeat constructor|]. split; [apply calm_ok; vm_compute; reflexivity|].
    split; [apply rests_ok; vm_compute; reflexivity|]. split; [apply rests_ok; vm_compute; reflexivity|]. split; vm_compute; reflexivity.
Qed.

(** ** C23: start() can resurrect an ended machine *)
(** expectation: an ended machine stays ended (compare C20) *)
Theorem C23_ended_during_start_stays_ended_refuted :
  ~ forall E w0 w, init_mem E w0 -> reach E w0 w ->
    forall m h1 h2 r, tr (wm w) = (h1 ++ h2) ++ r -> ended_at m h1 = true -> ended_at m (h1 ++ h2) = true.
Proof. exact p_C23_ended_during_start_stays_ended_refuted. Qed.
Print Assumptions C23_ended_during_start_stays_ended_refuted.

(** expectation: once start() and getCurrentState() have returned, the latter
    the end state, isEnded() returns true *)
Theorem C23_end_state_means_ended_refuted :
  ~ forall E w0 w, init_mem E w0 -> reach E w0 w ->
    forall m t1 a1 b1 i1 d1 t2 a2 b2 i2 d2 s v, start_finished m a1 ->
      span t1 (tr (wm w)) a1 (OInv (AGetCur m)) b1 i1 (ORet (AGetCur m) (RvState (Some s))) d1 -> sname E s = "_END_"%string ->
      span t2 (tr (wm w)) a2 (OInv (AIsEnded m)) b2 i2 (ORet (AIsEnded m) (RvBool v)) d2 ->
      upto (a1 ++ (t1, OInv (AGetCur m)) :: b1 ++ [(t1, ORet (AGetCur m) (RvState (Some s)))]) a2 -> v = true.
Proof. exact p_C23_end_state_means_ended_refuted. Qed.
Print Assumptions C23_end_state_means_ended_refuted.

(** whatever happened meanwhile, the machine is un-ended after the last step of
    a start() or startInState() that returns *)
Theorem C23_start_clears_ended :
  forall E w0 w, init_mem E w0 -> reach E w0 w ->
  forall m x t a b its d, starting m x -> span t (tr (wm w)) a (OInv x) b its (ORet x RvUnit) d ->
    exists b1 b2, b = b1 ++ b2 /\ (forall o, ~ In (t, o) b2) /\ ended_at m (a ++ (t, OInv x) :: b1) = false.
Proof. exact start_clears. Qed.
Print Assumptions C23_start_clears_ended.

(** and no event changes that, if no event leaves the current state *)
Theorem C23_nothing_ends_it_again :
  forall E w0 w, init_mem E w0 -> reach E w0 w ->
  forall m h r conf, private_queue E m -> one_thread E m -> tr (wm w) = h ++ r -> calm E m h r ->
    conf_at E w0 (table_of E m) h conf ->
    rests (queue_of E m) (worker_of E m) h -> rests (queue_of E m) (worker_of E m) (h ++ r) ->
    (forall n t, reacts (sname E) conf (cur_at m h) n <> Target t) ->
    mstate_at m (h ++ r) = mstate_at m h.
Proof. exact nowhere_stuck. Qed.
Print Assumptions C23_nothing_ends_it_again.

(** the quick start of the README *)
Example C23_example :
  let T := tr (wm run9) in let h := part 0 56 T in let conf := demo_conf E9 w9 0 quick_cfg h in
  spans c0 T 0 55 (OInv (AStart 0)) (ORet (AStart 0) RvUnit) /\ ended_at 0 (part 0 51 T) = true /\
  (private_queue E9 0 /\ one_thread E9 0 /\ T = h ++ part 56 1000 T /\ calm E9 0 h (part 56 1000 T) /\ conf_at E9 w9 (table_of E9 0) h conf /\
   rests 0 (wk 0) h /\ rests 0 (wk 0) T /\ taken 0 (part 56 1000 T) = [(0, Some (EUser 0, 0))] /\
   (forall n t, reacts (sname E9) conf (cur_at 0 h) n <> Target t) /\
   mstate_at 0 h = (Some (SEnd 0), false) /\ mstate_at 0 T = (Some (SEnd 0), false)).
Proof.
  cbv zeta. split; [sp|]. split; [vm_compute; reflexivity|].
  split; [intros m' H; exact H|]. split; [vm_compute; repeat constructor|]. split; [vm_compute; reflexivity|].
  split; [apply calm_ok; vm_compute; reflexivity|]. split; [exact (demo_conf_at E9 _ _ _ _ 0 _)|].
  split; [apply rests_ok; vm_compute; reflexivity|]. split; [apply rests_ok; vm_compute; reflexivity|]. split; [vm_compute; reflexivity|].
  split; [|split; vm_compute; reflexivity]. 
  assert (Hc : cur_at 0 (part 0 56 (tr (wm run9))) = Some (SEnd 0)) by (vm_compute; reflexivity). rewrite Hc.
  rewrite (same_conf E9). 2:{ vm_compute. reflexivity. }
  intros n t. unfold spec_of, quick_cfg. simpl. discriminate.
Qed.

(** ** C28: machines that share a queue are not isolated *)
(** expectation: whatever other machines do, an event with a target in the
    machine's own configuration makes the machine move *)
Theorem C28_other_machines_do_not_interfere_refuted :
  ~ forall E w0 w, init_mem E w0 -> reach E w0 w ->
    forall t a q p e m b its z d conf s, span t (tr (wm w)) a (OTake q p (Some (e, m))) b its z d -> one_thread E m ->
      calm E m a ((t, OTake q p (Some (e, m))) :: b) -> nothing_threw (tr (wm w)) -> start_finished m a -> ended_at m a = false ->
      conf_at E w0 (table_of E m) a conf ->
      reacts (sname E) conf (cur_at m a) (name_at E w0 e a) = Target s -> sname E s <> "_NOOP_"%string ->
      In (OState m s) its.
Proof. exact p_C28_other_machines_do_not_interfere_refuted. Qed.
Print Assumptions C28_other_machines_do_not_interfere_refuted.

(** expectation: an event is discarded without any effect only if its machine
    has ended *)
Theorem C28_discarded_only_after_own_end_refuted :
  ~ forall E w0 w, init_mem E w0 -> reach E w0 w ->
    forall t a q p e m b its z d, span t (tr (wm w)) a (OTake q p (Some (e, m))) b its z d -> shown its = [] ->
      sometime t a (OTake q p (Some (e, m))) b (fun h => ended_at m h = true).
Proof. exact p_C28_discarded_only_after_own_end_refuted. Qed.
Print Assumptions C28_discarded_only_after_own_end_refuted.

(** ** C38: a normal exit can make start() throw *)
(** expectation: in exit mode, a start() that starts the machine and during
    which no subsystem or other callback throws and nobody interrupts the
    waiting thread returns normally *)
Theorem C38_start_returns_normally_refuted :
  ~ forall E w0 w, init_mem E w0 -> reach E w0 w ->
    forall t p a b its v d, span t (tr (wm w)) a (OInv (AAppStart p)) b its (ORet (AAppStart p) v) d ->
      ap_exit (apps E p) = true -> In (OStarted (ap_mach (apps E p))) its -> nothing_threw (tr (wm w)) ->
      ~ In (OWr (WrAwait p true)) its -> v = RvUnit.
Proof. exact p_C38_start_returns_normally_refuted. Qed.
Print Assumptions C38_start_returns_normally_refuted.

(** ** C30: consumers added and removed during a notification *)
(** expectation: a notification goes to listeners that were registered at one and
    the same moment of it *)
Theorem C30_one_moment_refuted :
  ~ forall E w0 w, init_mem E w0 -> reach E w0 w ->
    forall t a b its d k fin m f e s x,
      span t (tr (wm w)) a (OCall (KListen fin (LMulti k) m f e s)) b its (OBack (KListen fin (LMulti k) m f e s) x) d ->
      exists h, during t a (OCall (KListen fin (LMulti k) m f e s)) b h /\
        forall l, In (OCall (KListen fin (LLeaf l) m f e s)) its -> registered w0 k l h = true.
Proof. exact p_C30_one_moment_refuted. Qed.
Print Assumptions C30_one_moment_refuted.

(** expectation: a listener is called only while it is registered *)
Theorem C30_only_while_registered_refuted :
  ~ forall E w0 w, init_mem E w0 -> reach E w0 w ->
    forall t a b its d k fin m f e s x,
      span t (tr (wm w)) a (OCall (KListen fin (LMulti k) m f e s)) b its (OBack (KListen fin (LMulti k) m f e s) x) d ->
      forall b1 b2 l, b = b1 ++ (t, OCall (KListen fin (LLeaf l) m f e s)) :: b2 ->
        registered w0 k l (a ++ (t, OCall (KListen fin (LMulti k) m f e s)) :: b1) = true.
Proof. exact p_C30_only_while_registered_refuted. Qed.
Print Assumptions C30_only_while_registered_refuted.

(** ** C39: getEventQueueSize() does not count the event being processed *)
(** expectation (javadoc): when the number of events that have not completed
    processing is 0, no action of an event is running *)
Theorem C39_zero_means_idle_refuted :
  ~ forall E w0 w, init_mem E w0 -> reach E w0 w ->
    forall t m a b its d, span t (tr (wm w)) a (OInv (AQSize m)) b its (ORet (AQSize m) (RvNat 0)) d ->
      exists h, during t a (OInv (AQSize m)) b h /\ forall t' en act s e i, ~ opened t' h (FCall (KAct en act s e m)) i.
Proof. exact p_C39_zero_means_idle_refuted. Qed.
Print Assumptions C39_zero_means_idle_refuted.

(** expectation: the size is the number of events that waited at some moment of
    the call *)
Theorem C39_size_of_a_moment_refuted :
  ~ forall E w0 w, init_mem E w0 -> reach E w0 w ->
    forall t m a b its n d, span t (tr (wm w)) a (OInv (AQSize m)) b its (ORet (AQSize m) (RvNat n)) d ->
      exists h, during t a (OInv (AQSize m)) b h /\ List.length (waiting (queue_of E m) h) = n.
Proof. exact p_C39_size_of_a_moment_refuted. Qed.
Print Assumptions C39_size_of_a_moment_refuted.

(** ** C41: an executor with several threads *)
(** expectation: events of a machine with its own queue are processed one after
    the other (compare C13) *)
Theorem C41_one_event_at_a_time_refuted :
  ~ forall E w0 w, init_mem E w0 -> reach E w0 w ->
    forall m h r t t' p p' c c' its its', tr (wm w) = h ++ r -> private_queue E m ->
      opened t h (FTake (queue_of E m) p c) its -> opened t' h (FTake (queue_of E m) p' c') its' -> t' = t.
Proof. exact p_C41_one_event_at_a_time_refuted. Qed.
Print Assumptions C41_one_event_at_a_time_refuted.

(** expectation: if no callback throws, no worker dies *)
Theorem C41_no_task_dies_refuted :
  ~ forall E w0 w, init_mem E w0 -> reach E w0 w -> nothing_threw (tr (wm w)) ->
    forall t tk x, ~ In (t, OUncaught tk x) (tr (wm w)).
Proof. exact p_C41_no_task_dies_refuted. Qed.
Print Assumptions C41_no_task_dies_refuted.

(** in the first run, two callbacks of the two events are running *)
Example C41_example :
  let T := tr (wm run13) in
  (exists i, opened (wk 0) T (FCall (KAct false (AUser 0) (SUser 0) (EUser 0) 0)) i) /\
  (exists i, opened (wk2 0) T (FCall (KUnmapped (UUser 0) (EUser 1) 0)) i).
Proof. split; exists []; vm_compute; left; reflexivity. Qed.

(** ** C44: start-up is not atomic with the first event *)
(** expectation: while start() runs, no other thread moves the machine, if
    neither stop() nor another start is called *)
Theorem C44_start_is_atomic_refuted :
  ~ forall E w0 w, init_mem E w0 -> reach E w0 w ->
    forall m t a b its v d, span t (tr (wm w)) a (OInv (AStart m)) b its (ORet (AStart m) v) d ->
      (forall t' x, In (t', OInv x) b -> ~ disturbs E m a x) -> alone m t b.
Proof. exact p_C44_start_is_atomic_refuted. Qed.
Print Assumptions C44_start_is_atomic_refuted.

(** expectation: the notification that ends the start-up comes before any
    notification of a later transition *)
Theorem C44_startup_notified_first_refuted :
  ~ forall E w0 w, init_mem E w0 -> reach E w0 w ->
    forall m t a b its v d l c1 e1 s1 t' f2 e2 s2, span t (tr (wm w)) a (OInv (AStart m)) b its (ORet (AStart m) v) d ->
      In (OCall (KListen true l m c1 e1 s1)) its ->
      ~ In (t', OCall (KListen true l m f2 e2 s2)) (a ++ filter (fun to => negb (tid_eqb (fst to) t)) b).
Proof. exact p_C44_startup_notified_first_refuted. Qed.
Print Assumptions C44_startup_notified_first_refuted.

(** ** C26, C27: check and insertion are not atomic *)
(** expectation: the queue never holds more events than its limit *)
Theorem C26_bound_refuted :
  ~ forall E w0 w, init_mem E w0 -> reach E w0 w ->
    forall m h r, tr (wm w) = h ++ r -> private_queue E m -> (0 < limit E m)%Z ->
      (Z.of_nat (List.length (waiting (queue_of E m) h)) <= limit E m)%Z.
Proof. exact p_C26_bound_refuted. Qed.
Print Assumptions C26_bound_refuted.

(** expectation: an event is refused only if the queue was full at some moment
    of the call *)
Theorem C26_refused_only_when_full_refuted :
  ~ forall E w0 w, init_mem E w0 -> reach E w0 w ->
    forall m e t a b its v d n, span t (tr (wm w)) a (OInv (AFire m e)) b its (ORet (AFire m e) v) d ->
      In (OCall (KUflExn (flow_of E m) e m (XIllegalState (RQueueFull n)))) (shown its) ->
      exists h, during t a (OInv (AFire m e)) b h /\ (limit E m <= Z.of_nat (List.length (waiting (queue_of E m) h)))%Z.
Proof. exact p_C26_refused_only_when_full_refuted. Qed.
Print Assumptions C26_refused_only_when_full_refuted.

(** expectation: with the drop-duplicates strategy, no two waiting events have
    the same name *)
Theorem C27_no_duplicates_refuted :
  ~ forall E w0 w, init_mem E w0 -> reach E w0 w ->
    forall m h r, tr (wm w) = h ++ r -> private_queue E m -> s_drop (strat E (strat_of E m)) = true ->
      NoDup (map (fun pc => option_map (fun em => name_at E w0 (fst em) h) (snd pc)) (waiting (queue_of E m) h)).
Proof. exact p_C27_no_duplicates_refuted. Qed.
Print Assumptions C27_no_duplicates_refuted.
