(** * PropsQueue.v: theorems C09, C24, C29 (schedules), C39 *)
From Verif Require Import Spec ApiSpec Demo Demo3 Demo10 QueueProofs QTruth Witness.

(** ** C09: events are taken in the order accepted, exactly once *)
Theorem C09_taken_in_order :
  forall E w0 w q, init_mem E w0 -> reach E w0 w ->
    exists waiting,
      accepted q (tr (wm w)) = taken q (tr (wm w)) ++ waiting /\
      waiting = map (fun p => (p, pairs (wm w) p)) (queues (wm w) q).
Proof. exact (fun E w0 w q H0 Hr => ex_intro _ _ (conj (fifo E w0 w q H0 Hr) eq_refl)). Qed.
Print Assumptions C09_taken_in_order.

(** only fired events are accepted, into the queue of their machine *)
Theorem C09_accepted_were_fired :
  forall E w0 w t q p e m e' m', init_mem E w0 -> reach E w0 w ->
    In (t, OOffer q p e m e' m') (tr (wm w)) ->
    m' = m /\ q = queue_of E m /\
    exists k, fires E k m e /\ inside t (tr (wm w)) k (OOffer q p e m e' m').
Proof. exact accepted_fired. Qed.
Print Assumptions C09_accepted_were_fired.

(** a taken event goes with the machine it was fired on (never a null pair) *)
Theorem C09_taken_for_the_machine_fired_on :
  forall E w0 w t q p c, init_mem E w0 -> reach E w0 w -> In (t, OTake q p c) (tr (wm w)) ->
    exists t' e e' m, c = Some (e', m) /\ q = queue_of E m /\ In (t', OOffer q p e m e' m) (tr (wm w)).
Proof. exact taken_accepted. Qed.
Print Assumptions C09_taken_for_the_machine_fired_on.

(** three events fired by a client, taken by a worker (pairs 0, 1, 2); and in
    the middle of it, after 30 steps of the worker, two are waiting *)
Example C09_example :
  reach E1 w1 run1 /\
  taken 0 (tr (wm run1)) = [(0, Some (EUser 0, 0)); (1, Some (EUser 1, 0)); (2, Some (EUser 2, 0))] /\
  let mid := after E1 w1 [(c0, 200); (wk 0, 30)] in
  taken 0 (tr (wm mid)) = [(0, Some (EUser 0, 0))] /\ queues (wm mid) 0 = [1; 2].
Proof. split; [apply after_reach|]. vm_compute. auto. Qed.

(** ** C24: pooled pair objects are never shared *)
Theorem C24_one_place :
  forall E w0 w, init_mem E w0 -> reach E w0 w ->
    exists loc : pid -> place,
      (forall l p, In p (pools (wm w) l) <-> loc p = PPool l) /\
      (forall q p, In p (queues (wm w) q) <-> loc p = PQueue q) /\
      (forall t p, In (t, p) (hands (tr (wm w))) <-> loc p = PHeld t) /\
      (forall l, NoDup (pools (wm w) l)) /\ (forall q, NoDup (queues (wm w) q)) /\
      NoDup (hands (tr (wm w))).
Proof. exact one_place. Qed.
Print Assumptions C24_one_place.

Theorem C24_written_only_by_its_holder :
  forall E w0 w a t p e m b, init_mem E w0 -> reach E w0 w ->
    tr (wm w) = a ++ (t, OWr (WrPair p e m)) :: b ->
    In (t, p) (hands a) /\
    forall q, exists waiting, accepted q a = taken q a ++ waiting /\ ~ In p (map fst waiting).
Proof. exact no_write_queued. Qed.
Print Assumptions C24_written_only_by_its_holder.

(** a pair object is used again: the client fires while the worker, having
    processed the first event, has given pair 0 back *)
Example C24_example :
  let w := after E1 w1 [(c0, 38); (wk 0, 100); (c0, 7)] in
  reach E1 w1 w /\ pools (wm w) 0 = [] /\ hands (tr (wm w)) = [(c0, 0)] /\
  let w' := after E1 w1 [(c0, 38); (wk 0, 100); (c0, 10)] in
  queues (wm w') 0 = [0] /\ hands (tr (wm w')) = [].
Proof. split; [apply after_reach|]. vm_compute. auto. Qed.

(** ** C29: a machine with its own queue and table *)
Theorem C29_private_queue_isolated :
  forall E w0 w t m p c its, init_mem E w0 -> reach E w0 w -> private_queue E m ->
    bracket t (tr (wm w)) (FTake (queue_of E m) p c) its ->
    exists e, c = Some (e, m) /\
      (exists i, t = TWorker (exec_of E m) i) /\
      forall o, In o its ->
        match o with
        | ORd (RdMap tb _ e' _) => tb = table_of E m /\ e' = e
        | ORd (RdFinal tb _ _) => tb = table_of E m
        | OState m' _ | OEnded m' => m' = m
        | OCall (KListen _ _ m' _ e' _) | OCall (KAct _ _ _ e' m')
        | OCall (KUnmapped _ e' m') | OCall (KUflExn _ e' m' _) => m' = m /\ e' = e
        | OCall _ | OOffer _ _ _ _ _ _ | OUnended _ | OStarted _ => False
        | _ => True
        end.
Proof. exact isolated. Qed.
Print Assumptions C29_private_queue_isolated.

Example C29_private_example :
  private_queue E1 0 /\
  exists its, closed (wk 0) (tr (wm run1)) (FTake (queue_of E1 0) 1 (Some (EUser 1, 0))) its (ODone 0 1 None) /\
              In (OState 0 (SUser 2)) its.
Proof.
  split; [intros m' H; exact H|]. eexists. split.
  - unfold closed. find_in.
  - find_in.
Qed.

(** ** C39: getEventQueueSize counts what was accepted and not yet taken *)
(** The queue is counted while other threads add and take events: what was there
    all the time is counted, what was there for a while may be. *)
Theorem C39_size_counts_waiting_events :
  forall E w0 w t a m b its z d, init_mem E w0 -> reach E w0 w ->
    span t (tr (wm w)) a (OInv (AQSize m)) b its z d ->
    exists n h1 h2, z = ORet (AQSize m) (RvNat n) /\
      during t a (OInv (AQSize m)) b h1 /\ during t a (OInv (AQSize m)) b h2 /\ upto h1 h2 /\
      counted (queue_of E m) h1 h2 n.
Proof. exact size_counts. Qed.
Print Assumptions C39_size_counts_waiting_events.
(** If nobody adds or takes an event during the call the result is the number of
    events accepted and not yet taken. *)
Theorem C39_size_is_accepted_minus_taken :
  forall E w0 w t a m b its z d, init_mem E w0 -> reach E w0 w ->
    span t (tr (wm w)) a (OInv (AQSize m)) b its z d ->
    accepted (queue_of E m) b = [] -> taken (queue_of E m) b = [] ->
    exists n, z = ORet (AQSize m) (RvNat n) /\
      n + List.length (taken (queue_of E m) a) = List.length (accepted (queue_of E m) a).
Proof. exact size_exact. Qed.
Print Assumptions C39_size_is_accepted_minus_taken.

Example C39_example :
  let T := tr (wm run1) in spans c0 T 45 48 (OInv (AQSize 0)) (ORet (AQSize 0) (RvNat 2)) /\
    accepted (queue_of E1 0) (part 46 48 T) = [] /\ taken (queue_of E1 0) (part 46 48 T) = [].
Proof. intro T. split; [sp|]. split; vm_compute; reflexivity. Qed.
(** one event is taken and one is added during the call: the queue holds 1, 0 and
    1 events, the result is 2 *)
Example C39_example_walk :
  let T := tr (wm run25) in let a := part 0 29 T in let b := part 30 69 T in
  spans c2 T 29 69 (OInv (AQSize 0)) (ORet (AQSize 0) (RvNat 2)) /\
  map (fun k => List.length (waiting 0 (part 0 k T))) [30; 40; 69] = [1; 0; 1] /\
  stayed 0 (a ++ [(c2, OInv (AQSize 0))]) (a ++ (c2, OInv (AQSize 0)) :: b) = 0 /\
  passed 0 (a ++ [(c2, OInv (AQSize 0))]) (a ++ (c2, OInv (AQSize 0)) :: b) = 2.
Proof. cbv zeta. split; [sp|]. repeat split; vm_compute; reflexivity. Qed.
