(** * PropsReject.v: theorems of C71 (executors that may reject a task at any time) *)
From Verif Require Import ExnSpec RejectSpec RejectProofs RejectProofs2 RejectRefute FlowSpec OrderProofs2 Demo23 Witness Demo4.

(** ** C71: an executor given with withExecutor may reject tasks *)
(** As long as no task is rejected the machines behave as with the default executor: all
    other theorems apply. *)
Theorem C71_none_rejected : forall R E w0 w, jreach R E w0 w ->
  (forall t x tk, ~ In (t, OWr (WrReject x tk)) (tr (wm w))) -> reach E w0 w.
Proof. exact p_C71_none_rejected. Qed.
Print Assumptions C71_none_rejected.
Example C71_none_rejected_example :
  jreach (saturated 5) E1 w1 run58 /\ (forall t x tk, ~ In (t, OWr (WrReject x tk)) (tr (wm run58))) /\
  List.length (taken 0 (tr (wm run58))) = 3.
Proof. split; [apply after_jreach|]. split; [apply none_rejected|]; vm_compute; reflexivity. Qed.

(** Whatever is rejected, every accepted event is taken once and in this order, or waits. *)
Theorem C71_in_order : forall R E w0 w q, init_mem E w0 -> jreach R E w0 w ->
  accepted q (tr (wm w)) = taken q (tr (wm w)) ++ map (fun p => (p, pairs (wm w) p)) (queues (wm w) q).
Proof. exact p_C71_in_order. Qed.
Print Assumptions C71_in_order.
Example C71_in_order_example :
  init_mem E56 w56 /\ jreach (saturated 1) E56 w56 run57 /\ rejections E56 0 (tr (wm run57)) = 1 /\
  accepted 0 (tr (wm run57)) = taken 0 (tr (wm run57)) /\ List.length (taken 0 (tr (wm run57))) = 2.
Proof. split; [apply demo_init|]. split; [apply after_jreach|]. split; [|split]; vm_compute; reflexivity. Qed.

(** fire() whose task is rejected throws RejectedExecutionException, its event stays in the
    queue; user code is not called. *)
Theorem C71_rejected_stays_queued : forall R E w0 w, init_mem E w0 -> jreach R E w0 w ->
  forall m e t a b its v d x tk, span t (tr (wm w)) a (OInv (AFire m e)) b its (ORet (AFire m e) v) d ->
    In (OWr (WrReject x tk)) its ->
    v = RvErr XRejected /\ x = exec_of E m /\
    exists p e', shown its = [OOffer (queue_of E m) p e m e' m] /\
      (taken (queue_of E m) b = [] ->
       In (p, Some (e', m)) (waiting (queue_of E m) (a ++ (t, OInv (AFire m e)) :: b ++ [(t, ORet (AFire m e) v)]))).
Proof. exact p_C71_rejected. Qed.
Print Assumptions C71_rejected_stays_queued.
Example C71_rejected_stays_queued_example : let T := tr (wm run55) in
  init_mem E1 w1 /\ jreach (saturated 1) E1 w1 run55 /\
  spans c0 T 33 44 (OInv (AFire 0 (EUser 1))) (ORet (AFire 0 (EUser 1)) (RvErr XRejected)) /\
  existsb (fun o => match o with OWr (WrReject 0 _) => true | _ => false end) (items c0 (part 34 44 T)) = true /\
  taken 0 (part 34 44 T) = [].
Proof.
  split; [apply demo_init|]. split; [apply after_jreach|]. split; [sp|]. split; vm_compute; reflexivity.
Qed.

(** An exception of a callback, also one thrown because the callback fired an event and the
    task was rejected, is reported to the unexpected flow listener exactly once (C17). *)
Theorem C71_reported_once : forall R E w0 w, init_mem E w0 -> jreach R E w0 w ->
  forall t a q p e m b its z d, span t (tr (wm w)) a (OTake q p (Some (e, m))) b its z d ->
    exists tm P Rep y x, taker E q t tm /\ z = ODone q p x /\ shown its = P ++ Rep /\
      (forall u e' m' x', ~ In (OCall (KUflExn u e' m' x')) P) /\
      (forall c v, In (OBack c (Some v)) P -> y = Some v /\ exists P', P = P' ++ [OBack c (Some v)]) /\
      (forall v, y = Some v -> (exists c P', P = P' ++ [OBack c (Some v)]) \/ v = XNullPointer \/ v = XConcurrentMod) /\
      match y with
      | Some v => if an_exception v then Rep = called (KUflExn (flow_of E tm) e m v) x else Rep = [] /\ x = Some v
      | None => Rep = [] /\ x = None
      end.
Proof. exact p_C71_reported_once. Qed.
Print Assumptions C71_reported_once.
(** an exit action fires two events for another machine and does not catch the exception *)
Example C71_reported_once_example : let T := tr (wm run62) in
  init_mem E62 w62 /\ jreach (saturated 1) E62 w62 run62 /\
  spans (wk 0) T 55 97 (OTake 0 0 (Some (EUser 0, 0))) (ODone 0 0 None) /\
  existsb (fun o => match o with OCall (KUflExn (FUser 0) (EUser 0) 0 XRejected) => true | _ => false end) (items (wk 0) (part 56 97 T)) = true.
Proof.
  split; [apply demo_init|]. split; [apply after_jreach|]. split; [sp|]. vm_compute. reflexivity.
Qed.

(** One expects an event whose fire() threw RejectedExecutionException not to be processed.
    It is false: the next task that runs takes it. *)
Theorem C71_not_processed_refuted :
  ~ forall R E w0 w, init_mem E w0 -> jreach R E w0 w ->
    forall m e t a b its d q p e1 m1 e' m', span t (tr (wm w)) a (OInv (AFire m e)) b its (ORet (AFire m e) (RvErr XRejected)) d ->
      In (OOffer q p e1 m1 e' m') its -> ~ In (p, Some (e', m')) (taken q d).
Proof. exact p_C71_not_processed_refuted. Qed.
Print Assumptions C71_not_processed_refuted.

(** When nothing runs or is pending for a queue any more, at most as many events are left in
    it as tasks for it were rejected since it was last empty. *)
Theorem C71_left_over : forall R E q w0 w, init_mem E w0 -> jreach R E w0 w -> at_rest E q w ->
  forall a b, tr (wm w) = a ++ b -> waiting q a = [] -> List.length (waiting q (tr (wm w))) <= rejections E q b.
Proof. exact p_C71_left_over. Qed.
Print Assumptions C71_left_over.
(** one task was rejected, one event is left *)
Example C71_left_over_example :
  init_mem E56 w56 /\ jreach (saturated 1) E56 w56 run56 /\ at_rest E56 0 run56 /\
  waiting 0 (tr (wm run56)) = [(1, Some (EUser 0, 0))] /\ rejections E56 0 (tr (wm run56)) = 1.
Proof.
  split; [apply demo_init|]. split; [apply after_jreach|]. split; [exact rest56|]. split; vm_compute; reflexivity.
Qed.
(** Without rejections for the queue since it was last empty nothing is left. *)
Theorem C71_not_stranded : forall R E q w0 w, init_mem E w0 -> jreach R E w0 w -> at_rest E q w ->
  forall a b, tr (wm w) = a ++ b -> waiting q a = [] -> rejections E q b = 0 -> waiting q (tr (wm w)) = [].
Proof. exact p_C71_not_stranded. Qed.
Print Assumptions C71_not_stranded.
(** the other machine of the executor had no task rejected *)
Example C71_not_stranded_example :
  init_mem E56 w56 /\ jreach (saturated 1) E56 w56 run56 /\ at_rest E56 1 run56 /\
  rejections E56 1 (tr (wm run56)) = 0 /\ accepted 1 (tr (wm run56)) = [(0, Some (EUser 0, 1))].
Proof.
  split; [apply demo_init|]. split; [apply after_jreach|]. split; [exact rest56_1|]. split; vm_compute; reflexivity.
Qed.
(** A machine with an executor of its own (or shared only with machines that use the same
    queue) that rejects tasks only when others wait, as a ThreadPoolExecutor with a bounded
    task queue of at least one place: all accepted events are taken, unless a task was
    ended by an exception. *)
Theorem C71_own_executor : forall R E q, own_executors E q -> rejects_when_others_wait R E q ->
  forall w0 w, init_mem E w0 -> jreach R E w0 w -> at_rest E q w -> no_task_died E q (tr (wm w)) ->
    accepted q (tr (wm w)) = taken q (tr (wm w)).
Proof. exact p_C71_own_executor. Qed.
Print Assumptions C71_own_executor.
(** three events, two tasks are rejected, all three events are taken *)
Example C71_own_executor_example :
  own_executors E1 0 /\ rejects_when_others_wait (saturated 1) E1 0 /\ init_mem E1 w1 /\ jreach (saturated 1) E1 w1 run55 /\
  at_rest E1 0 run55 /\ no_task_died E1 0 (tr (wm run55)) /\
  rejections E1 0 (tr (wm run55)) = 2 /\ List.length (taken 0 (tr (wm run55))) = 3.
Proof.
  split; [intros m m' Hm Hx; change (m = 0) in Hm; change (m' = m) in Hx; subst; reflexivity|].
  split; [apply saturated_waits|]. split; [apply demo_init|]. split; [apply after_jreach|]. split; [exact rest55|].
  split; [apply none_died; vm_compute; reflexivity|]. split; vm_compute; reflexivity.
Qed.
(** It is false for an executor that is shared by machines with queues of their own: the
    event waits until the next one is fired. *)
Theorem C71_nothing_stranded_refuted :
  ~ forall R E w0 w q, init_mem E w0 -> jreach R E w0 w -> rejects_when_others_wait R E q -> no_task_died E q (tr (wm w)) -> at_rest E q w ->
    accepted q (tr (wm w)) = taken q (tr (wm w)).
Proof. exact p_C71_nothing_stranded_refuted. Qed.
Print Assumptions C71_nothing_stranded_refuted.
