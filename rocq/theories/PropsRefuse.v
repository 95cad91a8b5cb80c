(** * PropsRefuse.v: theorems of C69 (event queues with a capacity) *)
From Verif Require Import RefuseSpec RefuseProofs RefuseRefute Demo21 OwnSpec Witness Demo4.

(** ** C69: a queue given with withEventQueue may refuse events *)
(** As long as nothing is refused the machines behave as with the default queue: all
    other theorems apply. *)
Theorem C69_none_refused : forall R E w0 w, rreach R E w0 w -> lost w = [] -> reach E w0 (rw w).
Proof. exact p_C69_none_refused. Qed.
Print Assumptions C69_none_refused.

(** Nothing is ever refused if each queue that can refuse has room for the limit of its
    machines and one event more for each further thread that fires. *)
Theorem C69_large_enough : forall R E w0 w, init_mem E w0 -> rreach R E w0 w ->
  (forall q, (forall h, R q h = false) \/ large_enough R E q w) -> lost w = [] /\ reach E w0 (rw w).
Proof. exact p_C69_large_enough. Qed.
Print Assumptions C69_large_enough.
(** limit 1, two clients that fire at the same time, room for two: both events wait *)
Example C69_large_enough_example :
  rreach (only 0 (capacity 2)) E16 w16 run53 /\
  (forall q, (forall h, only 0 (capacity 2) q h = false) \/ large_enough (only 0 (capacity 2)) E16 q run53) /\
  List.length (waiting 0 (part 0 47 (tr (wm (rw run53))))) = 2.
Proof.
  split; [apply after_rreach|]. split; [|vm_compute; reflexivity]. intros [|q]; [right|left; reflexivity].
  exists 2, 1%Z, [c0; c1]. split; [apply holds_only|]. split; [lia|]. split; [intros [|m]; [reflexivity|discriminate]|]. split; [|simpl; lia].
  intros t [Hf|(p & e & m & Hin)].
  - revert t Hf. apply fed_by_ok. vm_compute. reflexivity.
  - assert (X : lost run53 = []) by (vm_compute; reflexivity). rewrite X in Hin. destruct Hin.
Qed.
(** Room for the limit alone is not enough. *)
Theorem C69_capacity_as_limit_refuted :
  ~ forall R E w0 w, init_mem E w0 -> rreach R E w0 w ->
    (forall q, (forall h, R q h = false) \/
       exists max, (0 < max)%Z /\ holds R q (Z.to_nat max) /\ forall m, queue_of E m = q -> limit E m = max) ->
    lost w = [].
Proof. exact p_C69_capacity_as_limit_refuted. Qed.
Print Assumptions C69_capacity_as_limit_refuted.

(** Whatever is refused, the events that are accepted are taken in this order, each once. *)
Theorem C69_in_order : forall R E w0 w q, init_mem E w0 -> rreach R E w0 w ->
  accepted q (tr (wm (rw w))) =
    taken q (tr (wm (rw w))) ++ map (fun p => (p, pairs (wm (rw w)) p)) (queues (wm (rw w)) q).
Proof. exact p_C69_in_order. Qed.
Print Assumptions C69_in_order.
(** A pair object that was refused is never used again: it is in no queue and in no pool. *)
Theorem C69_pair_gone : forall R E w0 w t q p e m, init_mem E w0 -> rreach R E w0 w -> In (t, (q, p, e, m)) (lost w) ->
  (forall q', ~ In p (queues (wm (rw w)) q')) /\ (forall l, ~ In p (pools (wm (rw w)) l)).
Proof. exact p_C69_pair_gone. Qed.
Print Assumptions C69_pair_gone.
(** three events are fired, one is taken, two are lost with their pair objects *)
Example C69_in_order_example :
  rreach (capacity 1) E1 w1 run52 /\ taken 0 (tr (wm (rw run52))) = [(0, Some (EUser 0, 0))] /\
  lost run52 = [(c0, (0, 1, EUser 1, 0)); (c0, (0, 2, EUser 2, 0))] /\ pools (wm (rw run52)) 0 = [0].
Proof. split; [apply after_rreach|]. split; [vm_compute; reflexivity|]. split; vm_compute; reflexivity. Qed.

(** One expects an event fired on a running machine to be queued or the loss to be reported
    (C26).  It is false: offer() returns false and nobody looks at it, the caller of fire()
    learns nothing. *)
Theorem C69_never_lost_silently_refuted :
  ~ forall R E w0 w, init_mem E w0 -> rreach R E w0 w ->
    forall m e t a b its v d, span t (tr (wm (rw w))) a (OInv (AFire m e)) b its (ORet (AFire m e) v) d ->
      started_at m a = true -> (forall h, during t a (OInv (AFire m e)) b h -> ended_at m h = false) -> drops_duplicates E m = false ->
      (exists q p e1 m1 e' m', In (OOffer q p e1 m1 e' m') its) \/ (exists c, In (OCall c) its) \/ v <> RvUnit.
Proof. exact p_C69_never_lost_silently_refuted. Qed.
Print Assumptions C69_never_lost_silently_refuted.
