(** * PropsBound.v: nothing is stranded (C10), bounded queues (C26),
    drop-duplicates (C27) *)
From Verif Require Import ExnSpec BoundSpec RaceSpec Own BoundProofs BoundProofs2 Demo4 Demo10 Witness.

(** ** C10: no accepted event is stranded *)
(** When no worker of an executor that serves queue q is running, no task that would drain q is pending, no
    thread has just queued an event without having submitted its task, and the
    executors that serve q were not shut down, then every event accepted into q
    was taken out of it, whatever callbacks or Errors did. *)
Theorem C10_nothing_stranded :
  forall E w0 w, init_mem E w0 -> reach E w0 w ->
  forall q, (forall m i, queue_of E m = q -> ww w (exec_of E m) i = WIdle) ->
    (forall x tk, In tk (tasks (wm w) x) -> queue_of E (tk_mach tk) <> q) ->
    (forall t, ~ just_queued q t (tr (wm w))) ->
    (forall m, queue_of E m = q -> ~ shut_at (exec_of E m) (tr (wm w))) ->
    accepted q (tr (wm w)) = taken q (tr (wm w)).
Proof. exact p_C10_nothing_stranded. Qed.
Print Assumptions C10_nothing_stranded.

(** five events; the first task is killed by an Error in an entry action, the
    second by an exception of the flow listener *)
Example C10_example :
  let T := tr (wm run17) in
  (forall x i, ww run17 x i = WIdle) /\ (forall x tk, ~ In tk (tasks (wm run17) x)) /\
  (forall t, ~ just_queued 0 t T) /\ (forall x, ~ shut_at x T) /\
  (exists tk, In (wk 0, OUncaught tk (XError 1)) T) /\ (exists tk, In (wk 0, OUncaught tk (XUser 3)) T) /\
  List.length (accepted 0 T) = 5 /\ List.length (taken 0 T) = 5.
Proof.
  intro T.
  assert (HT : by_threads [c0; c1; wk 0] T = true) by (vm_compute; reflexivity).
  split; [|split; [|split; [|split; [|split; [|split; [|split]]]]]].
  - intros [|x] [|i]; try (unfold run17, after; rewrite never_ran; [reflexivity|]; unfold go; intro H;
      apply in_flat_map in H; destruct H as ([t n] & Hin & H); apply repeat_spec in H; simpl in H; destruct Hin as [[= <- <-]|[[= <- <-]|[[= <- <-]|[]]]]; discriminate H).
    vm_compute. reflexivity.
  - assert (Hx : tasks (wm run17) 0 = []) by (vm_compute; reflexivity).
    intros x tk Hin. destruct x as [|x]; [rewrite Hx in Hin; destruct Hin|].
    destruct (pending_submitted E17 w17 run17 (demo_init _ _ _ _ _) (after_reach _ _ _) _ _ Hin) as [t Hs]. fold T in Hs.
    assert (Hc : forallb (fun to => match snd to with OSubmit (S _) _ => false | _ => true end) T = true) by (vm_compute; reflexivity).
    rewrite forallb_forall in Hc. specialize (Hc _ Hs). discriminate Hc.
  - apply (not_just_queued 0 [c0; c1; wk 0]); [exact HT|vm_compute; reflexivity].
  - intros x [t Hs].
    assert (Hc : forallb (fun to => match snd to with OWr (WrShut _) => false | _ => true end) T = true) by (vm_compute; reflexivity).
    rewrite forallb_forall in Hc. specialize (Hc _ Hs). discriminate Hc.
  - exists {| tk_strat := 0; tk_mach := 0 |}. find_in.
  - exists {| tk_strat := 0; tk_mach := 0 |}. find_in.
  - vm_compute. reflexivity.
  - vm_compute. reflexivity.
Qed.

(** ** C26: bounded queues *)
(** If at every moment at most k threads are between beginning to count the
    events in q and queueing, q never holds more than max - 1 + k events. *)
Theorem C26_bound :
  forall E w0 w, init_mem E w0 -> reach E w0 w ->
  forall q max k, (0 < max)%Z -> (forall m, queue_of E m = q -> limit E m = max) ->
    (forall h r, tr (wm w) = h ++ r -> at_most k (fun t => adding q max t h)) ->
    forall h r, tr (wm w) = h ++ r -> (Z.of_nat (List.length (waiting q h)) <= max - 1 + Z.of_nat k)%Z.
Proof. exact bound. Qed.
Print Assumptions C26_bound.

(** If only the threads [ts] ever queue events, q never holds more than
    max - 1 + |ts| events: with a single firing thread the limit is kept. *)
Theorem C26_bound_threads :
  forall E w0 w, init_mem E w0 -> reach E w0 w ->
  forall q max ts, (0 < max)%Z -> (forall m, queue_of E m = q -> limit E m = max) ->
    (forall t, feeds q t (tr (wm w)) -> In t ts) ->
    forall h r, tr (wm w) = h ++ r -> (Z.of_nat (List.length (waiting q h)) <= max - 1 + Z.of_nat (List.length ts))%Z.
Proof. exact bound_threads. Qed.
Print Assumptions C26_bound_threads.

(** An event fired on a running machine that does not drop duplicates is queued,
    or the firing thread counted at least as many events as the limit and this
    is reported on the firing thread. *)
Theorem C26_never_lost_silently :
  forall E w0 w, init_mem E w0 -> reach E w0 w ->
  forall m e t a b its v d, span t (tr (wm w)) a (OInv (AFire m e)) b its (ORet (AFire m e) v) d ->
    started_at m a = true -> (forall h, during t a (OInv (AFire m e)) b h -> ended_at m h = false) ->
    drops_duplicates E m = false ->
    (exists p e', In (OOffer (queue_of E m) p e m e' m) (shown its)) \/
    (exists n x h1 h2, during t a (OInv (AFire m e)) b h1 /\ during t a (OInv (AFire m e)) b h2 /\ upto h1 h2 /\
       counted (queue_of E m) h1 h2 n /\ (0 < limit E m <= Z.of_nat n)%Z /\ v = outcome x /\
       shown its = called (KUflExn (flow_of E m) e m (XIllegalState (RQueueFull n))) x).
Proof. exact p_C26_never_lost_silently. Qed.
Print Assumptions C26_never_lost_silently.

(** limit 1: clients 0 and 1 fire concurrently, queue 0 holds two events (the
    most that is possible); a third event is refused *)
Example C26_example :
  let T := tr (wm run16) in
  (forall m, queue_of E16 m = 0 -> limit E16 m = 1%Z) /\ (forall t, feeds 0 t T -> In t [c0; c1]) /\
  (forall h r, T = h ++ r -> at_most 2 (fun t => adding 0 1 t h)) /\
  List.length (waiting 0 (part 0 47 T)) = 2 /\
  spans (TClient 4) T 78 86 (OInv (AFire 0 (EUser 0))) (ORet (AFire 0 (EUser 0)) RvUnit) /\
  shown (items (TClient 4) (part 79 86 T)) = called (KUflExn (FUser 0) (EUser 0) 0 (XIllegalState (RQueueFull 2))) None.
Proof.
  intro T. split; [|split; [|split; [|split; [|split]]]].
  - intros [|m]; [reflexivity|discriminate].
  - apply fed_by_ok. vm_compute. reflexivity.
  - apply (few_ok (seen_room 0 1) 2 [c0; c1; TClient 2; TClient 3; TClient 4]); [reflexivity|vm_compute; reflexivity|vm_compute; reflexivity].
  - vm_compute. reflexivity.
  - sp.
  - vm_compute. reflexivity.
Qed.
(** limit 1, the clients fire one after the other: the limit is kept *)
Example C26_example_sequential :
  let T := tr (wm run18) in
  (forall h r, T = h ++ r -> at_most 1 (fun t => adding 0 1 t h)) /\
  List.length (waiting 0 T) = 1 /\
  spans c1 T 36 44 (OInv (AFire 0 (EUser 0))) (ORet (AFire 0 (EUser 0)) RvUnit) /\
  shown (items c1 (part 37 44 T)) = called (KUflExn (FUser 0) (EUser 0) 0 (XIllegalState (RQueueFull 1))) None.
Proof.
  intro T. split; [|split; [|split]].
  - apply (few_ok (seen_room 0 1) 1 [c0; c1; TClient 2; TClient 3; TClient 4]); [reflexivity|vm_compute; reflexivity|vm_compute; reflexivity].
  - vm_compute. reflexivity.
  - sp.
  - vm_compute. reflexivity.
Qed.

(** ** C27: drop-duplicates *)
(** If at every moment at most k threads are between beginning to look for
    duplicates in q and queueing, q never holds more than k events of the same name. *)
Theorem C27_bound :
  forall E w0 w, init_mem E w0 -> reach E w0 w ->
  forall q nm h r, tr (wm w) = h ++ r -> objects_exist (tr (wm w)) -> (forall m, queue_of E m = q -> drops_duplicates E m = true) ->
  forall k, (forall a b, h = a ++ b -> at_most k (fun t => inspecting q t a)) ->
    List.length (waiting_named E w0 q nm h) <= k.
Proof. exact duplicates_bound. Qed.
Print Assumptions C27_bound.

(** If only the threads [ts] ever queue events, q never holds more than |ts|
    events of the same name: with a single firing thread there are no
    duplicates. *)
Theorem C27_bound_threads :
  forall E w0 w, init_mem E w0 -> reach E w0 w ->
  forall q nm h r, tr (wm w) = h ++ r -> objects_exist (tr (wm w)) -> (forall m, queue_of E m = q -> drops_duplicates E m = true) ->
  forall ts, (forall t, feeds q t h -> In t ts) -> List.length (waiting_named E w0 q nm h) <= List.length ts.
Proof. exact duplicates_feeders. Qed.
Print Assumptions C27_bound_threads.

(** An event fired on a running machine that neither is queued nor causes a
    callback was dropped: an event of that name had been waiting, the call
    returns normally and shows one log line. *)
Theorem C27_dropped :
  forall E w0 w, init_mem E w0 -> reach E w0 w ->
  forall m e t a b its v d, span t (tr (wm w)) a (OInv (AFire m e)) b its (ORet (AFire m e) v) d ->
    started_at m a = true -> (forall h, during t a (OInv (AFire m e)) b h -> ended_at m h = false) ->
    (forall q p e0 m0 e' m', ~ In (OOffer q p e0 m0 e' m') (shown its)) -> (forall c, ~ In (OCall c) (shown its)) ->
    drops_duplicates E m = true /\ v = RvUnit /\
    exists h1 h2 h3 h4 p c e' m', during t a (OInv (AFire m e)) b h1 /\ during t a (OInv (AFire m e)) b h2 /\
      during t a (OInv (AFire m e)) b h3 /\ during t a (OInv (AFire m e)) b h4 /\
      In (p, c) (waiting (queue_of E m) h1) /\ pair_at p h3 = Some (e', m') /\ name_at E w0 e' h4 = name_at E w0 e h2 /\
      shown its = [OLog ("Event [" ++ event_text (name_at E w0 e h2) ++ "] already in queue, will drop it")%string].
Proof. exact p_C27_dropped. Qed.
Print Assumptions C27_dropped.

(** clients 2 and 3 fire concurrently: two events named e0 wait in queue 1; the
    third is dropped *)
Example C27_example :
  let T := tr (wm run16) in
  objects_exist T /\ (forall m, queue_of E16 m = 1 -> drops_duplicates E16 m = true) /\ (forall t, feeds 1 t T -> In t [TClient 2; TClient 3]) /\
  (forall h r, T = h ++ r -> at_most 2 (fun t => inspecting 1 t h)) /\
  List.length (waiting_named E16 w16 1 "e0" T) = 2 /\
  spans (TClient 4) T 87 97 (OInv (AFire 1 (EUser 0))) (ORet (AFire 1 (EUser 0)) RvUnit) /\
  shown (items (TClient 4) (part 88 97 T)) = [OLog "Event [NamedStateEvent[e0]] already in queue, will drop it"].
Proof.
  intro T. split; [|split; [|split; [|split; [|split; [|split]]]]].
  - apply user_names_ok. vm_compute. reflexivity.
  - intros [|[|m]]; [discriminate|reflexivity|discriminate].
  - apply fed_by_ok. vm_compute. reflexivity.
  - apply (few_ok (seen_queue 1) 2 [c0; c1; TClient 2; TClient 3; TClient 4]); [reflexivity|vm_compute; reflexivity|vm_compute; reflexivity].
  - vm_compute. reflexivity.
  - sp.
  - vm_compute. reflexivity.
Qed.
(** events e0 and e1 wait, client 4 begins to look for e0, e0 is taken, the look
    goes on from e1 and finds no e0: the event is queued *)
Example C27_example_walk :
  let T := tr (wm run26) in
  objects_exist T /\ drops_duplicates E25 1 = true /\ List.length (waiting_named E25 w25 1 "e0" (part 0 49 T)) = 1 /\
  spans (TClient 4) T 45 64 (OInv (AFire 1 (EUser 0))) (ORet (AFire 1 (EUser 0)) RvUnit) /\
  shown (items (TClient 4) (part 46 64 T)) = [OOffer 1 2 (EUser 0) 1 (EUser 0) 1; OSubmit 1 {| tk_strat := 1; tk_mach := 1 |}] /\
  map snd (waiting 1 T) = [Some (EUser 1, 1); Some (EUser 0, 1)].
Proof.
  intro T. split; [apply user_names_ok; vm_compute; reflexivity|]. split; [reflexivity|]. split; [vm_compute; reflexivity|].
  split; [sp|]. split; vm_compute; reflexivity.
Qed.
(** one after the other: no duplicates *)
Example C27_example_sequential :
  let T := tr (wm run18) in
  objects_exist T /\ (forall h r, T = h ++ r -> at_most 1 (fun t => inspecting 1 t h)) /\
  List.length (waiting_named E16 w16 1 "e0" T) = 1 /\
  spans (TClient 3) T 60 70 (OInv (AFire 1 (EUser 0))) (ORet (AFire 1 (EUser 0)) RvUnit) /\
  shown (items (TClient 3) (part 61 70 T)) = [OLog "Event [NamedStateEvent[e0]] already in queue, will drop it"].
Proof.
  intro T. split; [|split; [|split; [|split]]].
  - apply user_names_ok. vm_compute. reflexivity.
  - apply (few_ok (seen_queue 1) 1 [c0; c1; TClient 2; TClient 3; TClient 4]); [reflexivity|vm_compute; reflexivity|vm_compute; reflexivity].
  - vm_compute. reflexivity.
  - sp.
  - vm_compute. reflexivity.
Qed.
