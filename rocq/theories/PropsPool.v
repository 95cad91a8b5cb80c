(** * PropsPool.v: theorems of C68 (how many pair objects are made) *)
From Verif Require Import Sched OwnSpec BoundSpec PoolSpec PoolProofs Demo20 PoolRefute Witness Demo4 BoundProofs.

(** The events fired are carried in pooled pair objects.  If the queue and the pool
    belong together, no more pair objects are made than are needed at one moment:
    there were once as many events waiting, and threads that can have one in their
    hands, as there are pair objects. *)
Theorem C68_bound : forall E w0 w q l, init_mem E w0 -> reach E w0 w -> belong E q l ->
  forall ps, pair_objects q (tr (wm w)) ps ->
    exists h r, tr (wm w) = h ++ r /\ List.length ps <= List.length (waiting q h) + room h.
Proof. exact p_C68_bound. Qed.
Print Assumptions C68_bound.
(** none is lost: it waits in the queue, a thread has it, or it can be used again *)
Theorem C68_none_lost : forall E w0 w q l, init_mem E w0 -> reach E w0 w -> belong E q l ->
  forall ps p, pair_objects q (tr (wm w)) ps -> In p ps ->
    In p (map fst (waiting q (tr (wm w)))) \/ (exists t, In (t, p) (hands (tr (wm w)))) \/ In p (pools (wm w) l).
Proof. exact p_C68_none_lost. Qed.
Print Assumptions C68_none_lost.
(** ten events are processed one after the other with two pair objects *)
Example C68_bound_example :
  reach E51 w51 run51 /\ belong E51 1 1 /\ pair_objects 1 (tr (wm run51)) [1; 2] /\ List.length (accepted 1 (tr (wm run51))) = 10 /\
  pools (wm run51) 1 = [2; 1] /\ waiting 1 (tr (wm run51)) = [] /\ hands (tr (wm run51)) = [].
Proof.
  split; [apply after_reach|]. split; [intro k; reflexivity|].
  split; [exact objects51|]. split; [vm_compute; reflexivity|]. split; [vm_compute; reflexivity|]. split; vm_compute; reflexivity.
Qed.

(** With a limit on the queue there is a limit on the pair objects, however long
    the machine runs. *)
Theorem C68_bounded_queue : forall E w0 w q l, init_mem E w0 -> reach E w0 w -> belong E q l ->
  forall max ts, (0 < max)%Z -> (forall m, queue_of E m = q -> limit E m = max) -> (forall t, feeds q t (tr (wm w)) -> In t ts) ->
  forall ps, pair_objects q (tr (wm w)) ps ->
    (Z.of_nat (List.length ps) <= max - 1 + Z.of_nat (List.length ts) + Z.of_nat (room (tr (wm w))))%Z.
Proof. exact p_C68_bounded_queue. Qed.
Print Assumptions C68_bounded_queue.
(** a limit of one, two threads that fire *)
Example C68_bounded_queue_example :
  reach E16 w16 run16 /\ belong E16 0 0 /\ (forall m, queue_of E16 m = 0 -> limit E16 m = 1%Z) /\
  (forall t, feeds 0 t (tr (wm run16)) -> In t [c0; c1]) /\ pair_objects 0 (tr (wm run16)) [0; 1].
Proof.
  split; [apply after_reach|]. split; [intro k; reflexivity|]. split; [intros [|m]; [reflexivity|discriminate]|].
  split; [apply fed_by_ok; vm_compute; reflexivity|exact objects16].
Qed.

(** *** A shared queue *)
(** Machines built without a strategy share a queue and have a pool each (C28).  The
    pair objects one machine makes end in the pool of the other: eleven are made although
    never more than one event waits and two threads run. *)
Theorem C68_shared_queue_refuted :
  ~ forall E w0 w q, init_mem E w0 -> reach E w0 w -> (forall k k', s_pool (strat E k) = s_pool (strat E k') -> k = k') ->
    forall ps, pair_objects q (tr (wm w)) ps ->
      exists h r, tr (wm w) = h ++ r /\ List.length ps <= List.length (waiting q h) + room h.
Proof. exact p_C68_shared_queue_refuted. Qed.
Print Assumptions C68_shared_queue_refuted.
(** how this execution ends *)
Example C68_shared_queue_example :
  pair_objects 0 (tr (wm run50)) (List.seq 0 11) /\ pools (wm run50) 0 = List.seq 0 11 /\ pools (wm run50) 1 = [] /\
  threads_of (tr (wm run50)) = [c0; wk 0] /\ mstate_at 1 (tr (wm run50)) = (Some (SUser 0), false).
Proof. split; [exact objects50|]. split; [vm_compute; reflexivity|]. split; [vm_compute; reflexivity|]. split; vm_compute; reflexivity. Qed.

(** *** What an object in the pool refers to *)
(** One expects, and EventMachinePairPool.java:29 says, that an object is reset when it
    is given back.  It is not: it refers to an event (with its payload) and a machine
    until it is used again. *)
Theorem C68_give_resets_refuted :
  ~ forall E w0 w l p, init_mem E w0 -> reach E w0 w -> In p (pools (wm w) l) -> pairs (wm w) p = None.
Proof. exact p_C68_give_resets_refuted. Qed.
Print Assumptions C68_give_resets_refuted.
(** the pool of machine 0 refers to machine 1 *)
Example C68_give_resets_example : In 10 (pools (wm run50) 0) /\ pairs (wm run50) 10 = Some (EUser 0, 1).
Proof. split; [find_in|vm_compute; reflexivity]. Qed.
