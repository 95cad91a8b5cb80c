(** * PropsHb.v: visibility between threads and data races (C62 - C65) *)
From Verif Require Import Sched LiveSpec AppLiveSpec HbSpec HbProofs UseProofs HbRefute AppLive11 ExactSpec Demo8 Demo17.

(** ** C62: the pair objects that carry events between threads are not raced *)
(** Two accesses of one pair object, each a write or the read by the thread that
    took the pair from its queue, are always ordered: pooling and reusing the
    objects never mixes up two events. *)
Theorem C62_pairs_ordered :
  forall E w0 w, init_mem E w0 -> reach E w0 w ->
  forall i j t t' p, i < j ->
    writes_pair (tr (wm w)) i t p \/ fetches_pair (tr (wm w)) i t p ->
    writes_pair (tr (wm w)) j t' p \/ fetches_pair (tr (wm w)) j t' p ->
    hb sw_min (tr (wm w)) i j.
Proof. exact pair_ordered. Qed.
Print Assumptions C62_pairs_ordered.

(** When no machine drops duplicates these are all the accesses there are. *)
Theorem C62_race_free :
  forall E w0 w, init_mem E w0 -> reach E w0 w ->
  forall i j t t' p, keeps_duplicates E -> i < j ->
    writes_pair (tr (wm w)) i t p \/ reads_pair (tr (wm w)) i t p ->
    writes_pair (tr (wm w)) j t' p \/ reads_pair (tr (wm w)) j t' p ->
    hb sw_min (tr (wm w)) i j.
Proof. exact pair_race_free. Qed.
Print Assumptions C62_race_free.

(** One might expect the same of a machine that drops duplicates.  It is false:
    its fire() looks into pair objects another thread may be filling. *)
Theorem C62_drop_duplicates_refuted :
  ~ forall E w0 w, init_mem E w0 -> reach E w0 w ->
    forall i j t t' p, i < j -> writes_pair (tr (wm w)) i t p -> reads_pair (tr (wm w)) j t' p -> hb sw_max (tr (wm w)) i j.
Proof. exact p_drop_duplicates_refuted. Qed.
Print Assumptions C62_drop_duplicates_refuted.

(** The certain edges are among the possible ones: an order refuted with
    [sw_max] is refuted with [sw_min] too. *)
Theorem C62_edges : forall h i j, hb sw_min h i j -> hb sw_max h i j.
Proof. exact hb_mono. Qed.
Print Assumptions C62_edges.

(** not vacuous: the pair filled by the client is read by the worker *)
Example ex_C62_race_free :
  init_mem E37 w37 /\ reach E37 w37 run37 /\ keeps_duplicates E37 /\
  writes_pair (tr (wm run37)) 23 c0 0 /\ reads_pair (tr (wm run37)) 41 (wk 0) 0.
Proof.
  split; [apply demo_init|]. split; [apply after_reach|]. split; [intro; reflexivity|].
  split; [exists (EUser 0), 0|exists (Some (EUser 0, 0))]; vm_compute; reflexivity.
Qed.
(** ... and, with a machine that drops duplicates, refilled by another client *)
Example ex_C62_pairs_ordered :
  init_mem E41 w41 /\ reach E41 w41 run41 /\ fetches_pair (tr (wm run41)) 36 (wk 1) 0 /\
  writes_pair (tr (wm run41)) 66 (TClient 3) 0.
Proof.
  split; [apply demo_init|]. split; [apply after_reach|]. split.
  - split; [exists (Some (EUser 0, 1)); vm_compute; reflexivity|]. exists 35, 1, (Some (EUser 0, 1)).
    split; [lia|]. split; [vm_compute; reflexivity|]. intros; lia.
  - exists (EUser 1), 1. vm_compute. reflexivity.
Qed.

(** ** C63: what a thread did before firing is visible while the event is processed *)
(** A pair taken from a queue holds the event and machine with which it was
    offered, by the last offer of that pair; whatever the offering thread did up
    to the offer happens-before whatever the taking thread does from then on:
    payloads and other data need no further synchronization. *)
Theorem C63_fire_before_processing :
  forall E w0 w, init_mem E w0 -> reach E w0 w ->
  forall j t' q p c, on (tr (wm w)) j t' (OTake q p c) ->
    exists k t e m e', k < j /\ c = Some (e', m) /\ on (tr (wm w)) k t (OOffer q p e m e' m) /\
      none_between (tr (wm w)) (moves_in_queue q p) k j /\
      forall i o i' o', i <= k -> on (tr (wm w)) i t o -> j <= i' -> on (tr (wm w)) i' t' o' -> hb sw_min (tr (wm w)) i i'.
Proof. exact handover. Qed.
Print Assumptions C63_fire_before_processing.

Example ex_C63_fire_before_processing :
  init_mem E37 w37 /\ reach E37 w37 run37 /\ on (tr (wm run37)) 40 (wk 0) (OTake 0 0 (Some (EUser 0, 0))).
Proof. split; [apply demo_init|]. split; [apply after_reach|]. vm_compute. reflexivity. Qed.

(** What the thread that started a machine did up to the end of start() - adding
    the configuration, say - happens-before the processing of every event fired
    after that, whoever fired it. *)
Theorem C63_start_before_processing :
  forall E w0 w, init_mem E w0 -> reach E w0 w ->
  forall i t0 t a op b kd its q p e m e' m' r j t' c,
    on (tr (wm w)) i t0 (OUnended m) -> tr (wm w) = a ++ (t, op) :: b ++ (t, OOffer q p e m e' m') :: r -> opens op = Some kd ->
    fst (scan t b) = [(FRoot, its)] -> i < List.length a \/ (t = t0 /\ i < List.length (a ++ (t, op) :: b)) ->
    on (tr (wm w)) j t' (OTake q p c) -> List.length (a ++ (t, op) :: b) < j ->
    none_between (tr (wm w)) (moves_in_queue q p) (List.length (a ++ (t, op) :: b)) j ->
    forall i' o i1 o1, i' <= i -> on (tr (wm w)) i' t0 o -> j <= i1 -> on (tr (wm w)) i1 t' o1 -> hb sw_min (tr (wm w)) i' i1.
Proof. exact start_visible. Qed.
Print Assumptions C63_start_before_processing.

Example ex_C63_start_before_processing :
  let T := tr (wm run42) in
  init_mem E39 w39 /\ reach E39 w39 run42 /\ on T 13 c0 (OUnended 0) /\
  T = part 0 15 T ++ (c1, OInv (AFire 0 (EUser 0))) :: part 16 24 T ++ (c1, OOffer 0 0 (EUser 0) 0 (EUser 0) 0) :: part 25 1000 T /\
  fst (scan c1 (part 16 24 T)) = [(FRoot, items c1 (part 16 24 T))] /\ 13 < List.length (part 0 15 T) /\
  on T 28 (wk 0) (OTake 0 0 (Some (EUser 0, 0))) /\ none_between T (moves_in_queue 0 0) 24 28.
Proof.
  intro T. split; [apply demo_init|]. split; [apply after_reach|]. split; [vm_compute; reflexivity|].
  split; [vm_compute; reflexivity|]. split; [vm_compute; reflexivity|]. split; [vm_compute; lia|].
  split; [vm_compute; reflexivity|]. apply none_moves_ok. vm_compute. reflexivity.
Qed.

(** ** C64: the plain fields of a machine - current state, listener,
    configuration - are not raced when the machine is used like this: it has its
    own queue, table and executor of one thread; events are fired on it after
    start() has come to its end, by whatever thread; all calls on it but fire(),
    isStarted(), isEnded() and getEventQueueSize() are made by the thread that
    called start(), before start() came to its end, or while an event of the
    machine is processed; and a full queue is not reported to the default flow
    listener. *)
Theorem C64_used_race_free :
  forall E w0 w, init_mem E w0 -> reach E w0 w ->
  forall m t0 i0, on_its_own E m -> on (tr (wm w)) i0 t0 (OUnended m) -> fired_after E (tr (wm w)) m t0 i0 ->
    handled E (tr (wm w)) m t0 i0 ->
  forall i j t t' o o', i < j -> on (tr (wm w)) i t o -> on (tr (wm w)) j t' o' -> touches m o -> touches m o' ->
    hb sw_min (tr (wm w)) i j.
Proof. exact used_race_free. Qed.
Print Assumptions C64_used_race_free.

(** not vacuous: a listener set and an event fired by the client that started
    the machine, another one fired by a second client, an entry action that asks
    for the current state *)
Example ex_C64_used_race_free :
  init_mem E43 w43 /\ reach E43 w43 run43 /\ on_its_own E43 0 /\ on (tr (wm run43)) 22 c0 (OUnended 0) /\
  fired_after E43 (tr (wm run43)) 0 c0 22 /\ handled E43 (tr (wm run43)) 0 c0 22 /\
  on (tr (wm run43)) 1 c0 (OWr (WrListener 0 (Some (LLeaf (LfUser 0))))) /\
  on (tr (wm run43)) 62 (wk 0) (ORd (RdListener 0 (Some (LLeaf (LfUser 0))))) /\
  on (tr (wm run43)) 48 c1 (OOffer 0 1 (EUser 1) 0 (EUser 1) 0) /\
  on (tr (wm run43)) 79 (wk 0) (ORd (RdCur 0 (Some (SUser 1)))) /\ on (tr (wm run43)) 108 (wk 0) (OState 0 (SUser 2)).
Proof.
  split; [apply demo_init|]. split; [apply after_reach|].
  split; [split; [exact (fun m Hm => Hm)|exact (le_n 1)|exact (fun m' => iff_refl (m' = 0))|left; apply Z.le_refl]|].
  split; [vm_compute; reflexivity|]. split; [apply fired_after_ok; vm_compute; reflexivity|].
  split; [apply handled_ok; vm_compute; reflexivity|]. repeat split; vm_compute; reflexivity.
Qed.

(** More generally, for whatever data - marks of the library or of the
    application: what only the starting thread touches, until start() comes to
    its end, and after that whoever processes the events of the machine, is not
    raced. *)
Theorem C64_confined_race_free :
  forall E w0 w, init_mem E w0 -> reach E w0 w ->
  forall (P : obs -> Prop) m t0 i0, private_queue E m -> one_thread E m -> on (tr (wm w)) i0 t0 (OUnended m) ->
    fired_after E (tr (wm w)) m t0 i0 -> confined E P (tr (wm w)) m t0 i0 ->
  forall i j t t' o o', i < j -> on (tr (wm w)) i t o -> on (tr (wm w)) j t' o' -> P o -> P o' -> hb sw_min (tr (wm w)) i j.
Proof. exact confined_race_free. Qed.
Print Assumptions C64_confined_race_free.

Example ex_C64_confined_race_free :
  init_mem E37 w37 /\ reach E37 w37 run37 /\ private_queue E37 0 /\ one_thread E37 0 /\ on (tr (wm run37)) 13 c0 (OUnended 0) /\
  fired_after E37 (tr (wm run37)) 0 c0 13 /\ confined E37 (touches_state 0) (tr (wm run37)) 0 c0 13 /\
  on (tr (wm run37)) 5 c0 (OState 0 (SUser 0)) /\ on (tr (wm run37)) 54 (wk 0) (OState 0 (SUser 1)).
Proof.
  split; [apply demo_init|]. split; [apply after_reach|]. split; [exact (fun m Hm => Hm)|]. split; [exact (le_n 1)|].
  split; [vm_compute; reflexivity|]. split; [apply fired_after_ok; vm_compute; reflexivity|].
  split; [apply confined_ok; vm_compute; reflexivity|]. split; vm_compute; reflexivity.
Qed.

(** None of the conditions can be dropped.  getCurrentState() called by another
    thread races with the processing of events: it may return a state left long
    ago. *)
Theorem C64_current_state_query_refuted :
  ~ forall E w0 w, init_mem E w0 -> reach E w0 w ->
    forall m t0 i0, private_queue E m -> one_thread E m -> on (tr (wm w)) i0 t0 (OUnended m) -> fired_after E (tr (wm w)) m t0 i0 ->
    forall i j t t' s c its, i < j -> on (tr (wm w)) i t (OState m s) -> on (tr (wm w)) j t' (ORd (RdCur m c)) ->
      opened t' (firstn j (tr (wm w))) (FApi (AGetCur m)) its -> hb sw_max (tr (wm w)) i j.
Proof. exact p_current_state_query_refuted. Qed.
Print Assumptions C64_current_state_query_refuted.

(** The library does so itself: stop() of an app service. *)
Theorem C64_app_stop_refuted :
  ~ forall E w0 w, init_mem E w0 -> reach E w0 w ->
    forall p, let m := ap_mach (apps E p) in private_queue E m -> one_thread E m ->
    forall i j t t' s c its, i < j -> on (tr (wm w)) i t (OState m s) -> on (tr (wm w)) j t' (ORd (RdCur m c)) ->
      opened t' (firstn j (tr (wm w))) (FApi (AAppStop p)) its -> hb sw_max (tr (wm w)) i j.
Proof. exact p_app_stop_refuted. Qed.
Print Assumptions C64_app_stop_refuted.

(** An event fired while start() runs is accepted, and its processing races with
    start() for the current state. *)
Theorem C64_fire_during_start_refuted :
  ~ forall E w0 w, init_mem E w0 -> reach E w0 w ->
    forall m t0 i0, private_queue E m -> one_thread E m -> on (tr (wm w)) i0 t0 (OUnended m) -> confined E (touches_state m) (tr (wm w)) m t0 i0 ->
    forall i j t t' o o', i < j -> on (tr (wm w)) i t o -> on (tr (wm w)) j t' o' -> writes_state m o -> touches_state m o' ->
      hb sw_max (tr (wm w)) i j.
Proof. exact p_fire_during_start_refuted. Qed.
Print Assumptions C64_fire_during_start_refuted.

(** fire() refused because the queue is full has the default flow listener ask
    for the current state, in the thread that fires. *)
Theorem C64_queue_full_refuted :
  ~ forall E w0 w, init_mem E w0 -> reach E w0 w ->
    forall m t0 i0, private_queue E m -> one_thread E m -> (forall m', table_of E m' = m <-> m' = m) ->
      on (tr (wm w)) i0 t0 (OUnended m) -> fired_after E (tr (wm w)) m t0 i0 -> handled E (tr (wm w)) m t0 i0 ->
    forall i j t t' s c e its, i < j -> on (tr (wm w)) i t (OState m s) -> on (tr (wm w)) j t' (ORd (RdCur m c)) ->
      opened t' (firstn j (tr (wm w))) (FApi (AFire m e)) its -> hb sw_max (tr (wm w)) i j.
Proof. exact p_queue_full_refuted. Qed.
Print Assumptions C64_queue_full_refuted.

(** With an executor of two threads, two events race. *)
Theorem C64_two_threads_refuted :
  ~ forall E w0 w, init_mem E w0 -> reach E w0 w ->
    forall m t0 i0, private_queue E m -> on (tr (wm w)) i0 t0 (OUnended m) -> fired_after E (tr (wm w)) m t0 i0 ->
      confined E (touches_state m) (tr (wm w)) m t0 i0 ->
    forall i j t t' o o', i < j -> on (tr (wm w)) i t o -> on (tr (wm w)) j t' o' -> writes_state m o -> touches_state m o' ->
      hb sw_max (tr (wm w)) i j.
Proof. exact p_two_threads_refuted. Qed.
Print Assumptions C64_two_threads_refuted.

(** ** C65: when start() of an app service that blocks until the service has been
    stopped has returned, uninterrupted, what was done before the service's main
    latch was first released - the stopping of the subsystems, say - is visible
    to the caller. *)
Theorem C65_shutdown_visible :
  forall E w0 w, init_mem E w0 -> reach E w0 w ->
  forall t a b its d p, span t (tr (wm w)) a (OInv (AAppStart p)) b its (ORet (AAppStart p) RvUnit) d ->
    In (OStarted (ap_mach (apps E p))) its -> ~ In (OLog "Main latch was interrupted") its ->
    exists i t', on (tr (wm w)) i t' (OWr (WrLatch p)) /\ (forall k t1, on (tr (wm w)) k t1 (OWr (WrLatch p)) -> i <= k) /\
      forall i' o j' o', i' <= i -> on (tr (wm w)) i' t' o -> List.length (a ++ (t, OInv (AAppStart p)) :: b) <= j' ->
        on (tr (wm w)) j' t o' -> hb sw_min (tr (wm w)) i' j'.
Proof. exact shutdown_visible. Qed.
Print Assumptions C65_shutdown_visible.

Example ex_C65_shutdown_visible :
  let T := tr (wm run38) in
  init_mem E38 w38 /\ reach E38 w38 run38 /\
  span c0 T (part 0 0 T) (OInv (AAppStart 1)) (part 1 205 T) (items c0 (part 1 205 T)) (ORet (AAppStart 1) RvUnit) (part 206 1000 T) /\
  In (OStarted 1) (items c0 (part 1 205 T)) /\ ~ In (OLog "Main latch was interrupted") (items c0 (part 1 205 T)).
Proof.
  intro T. split; [apply demo_init|]. split; [apply after_reach|]. split; [sp|]. split.
  - apply (nth_error_In _ 5). vm_compute. reflexivity.
  - apply not_in_log. vm_compute. reflexivity.
Qed.

(** In particular, under the conditions of C53: what was done to the subsystems
    of an exit-on-stop app service - all of them started and stopped, see C53 -
    is visible to whoever sees start() return. *)
Theorem C65_subsystems_visible :
  forall E w0 s p, init_mem E w0 -> app_built E w0 p -> left_alone E w0 s p ->
    served E w0 s (queue_of E (ap_mach (apps E p))) ->
  forall n h t r, let T := LiveSpec.history E w0 s n in ap_exit (apps E p) = true -> T = h ++ (t, ORet (AAppStart p) RvUnit) :: r ->
  forall k t1 o j o', on T k t1 o -> is_sub p o = true -> List.length h <= j -> on T j t o' -> hb sw_min T k j.
Proof. exact subs_visible. Qed.
Print Assumptions C65_subsystems_visible.

Example ex_C65_subsystems_visible :
  init_mem (E24 1) (w24 1) /\ app_built (E24 1) (w24 1) 1 /\ left_alone (E24 1) (w24 1) (turns 1) 1 /\
  served (E24 1) (w24 1) (turns 1) 1 /\ ap_exit (apps (E24 1) 1) = true /\
  existsb (fun to => match to with (TClient 0, ORet (AAppStart 1) RvUnit) => true | _ => false end) (h24 1) = true /\
  subsystem_marks 1 (h24 1) = flat_map (fun k => called k None) [KSub true 1 0; KSub true 1 1; KSub false 1 1; KSub false 1 0].
Proof.
  assert (Hp : In 1 [1; 2]) by (left; reflexivity).
  split; [apply demo_init|]. split; [apply built24|]. split; [apply alone24; exact Hp|]. split; [apply served24; exact Hp|].
  split; [reflexivity|]. split; vm_compute; reflexivity.
Qed.
