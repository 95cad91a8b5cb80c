(** * PropsDiscard.v: theorems of C73 (executors that lose tasks) *)
From Verif Require Import ExnSpec DiscardSpec FlowSpec DiscardProofs DiscardProofs2 DiscardRefute RejectRefute Demo25 Witness Demo4.

(** ** C73: an executor given with withExecutor may drop tasks silently *)
(** If it drops none, C72 applies. *)
Theorem C73_none_lost : forall L P E w0 w, loses_nothing L -> dreach L P E w0 w -> oreach P E w0 w.
Proof. exact p_C73_none_lost. Qed.
Print Assumptions C73_none_lost.
Example C73_none_lost_example :
  loses_nothing (fun _ _ => false) /\ dreach (fun _ _ => false) oldest E1 w1 run67 /\ List.length (taken 0 (tr (wm run67))) = 3.
Proof. split; [intros x w; reflexivity|]. split; [apply after_dreach|]. vm_compute. reflexivity. Qed.

(** Whatever is dropped, each accepted event is taken once and in the order accepted, or
    waits. *)
Theorem C73_in_order : forall L P E q w0 w, init_mem E w0 -> dreach L P E w0 w ->
  accepted q (tr (wm w)) = taken q (tr (wm w)) ++ map (fun p => (p, pairs (wm w) p)) (queues (wm w) q).
Proof. exact p_C73_in_order. Qed.
Print Assumptions C73_in_order.
(** the task of the first event was dropped; the task of the second, fired later, takes both *)
Example C73_in_order_example :
  init_mem E56 w56 /\ dreach (overfull 1) oldest E56 w56 run64 /\ queues (wm run64) 0 = [1] /\
  dreach (overfull 1) oldest E56 w56 run65 /\ taken 0 (tr (wm run65)) = [(1, Some (EUser 0, 0)); (2, Some (EUser 1, 0))].
Proof.
  split; [apply demo_init|]. split; [apply after_dreach|]. split; [vm_compute; reflexivity|]. split; [apply after_dreach|]. vm_compute. reflexivity.
Qed.

(** An exception of a callback ends the processing of its event and is reported to the
    unexpected flow listener exactly once (C17). *)
Theorem C73_reported_once : forall L P E w0 w, init_mem E w0 -> dreach L P E w0 w ->
  forall t a q p e m b its z d, span t (tr (wm w)) a (OTake q p (Some (e, m))) b its z d ->
    exists tm P Rep y x, taker E q t tm /\ z = ODone q p x /\ shown its = P ++ Rep /\
      (forall u e' m' x', ~ In (OCall (KUflExn u e' m' x')) P) /\
      (forall c v, In (OBack c (Some v)) P -> y = Some v /\ exists P', P = P' ++ [OBack c (Some v)]) /\
      (forall v, y = Some v -> (exists c P', P = P' ++ [OBack c (Some v)]) \/ v = XNullPointer \/ v = XConcurrentMod) /\
      match y with
      | Some v => if an_exception v then Rep = called (KUflExn (flow_of E tm) e m v) x else Rep = [] /\ x = Some v
      | None => Rep = [] /\ x = None
      end.
Proof. exact p_C73_reported_once. Qed.
Print Assumptions C73_reported_once.
Example C73_reported_once_example : let T := tr (wm run66) in
  init_mem E59 w59 /\ dreach (overfull 1) oldest E59 w59 run66 /\
  spans (wk 0) T 61 79 (OTake 0 1 (Some (EUser 0, 0))) (ODone 0 1 None) /\
  existsb (fun o => match o with OCall (KUflExn (FUser 0) (EUser 0) 0 (XUser 7)) => true | _ => false end) (items (wk 0) (part 62 79 T)) = true.
Proof.
  split; [apply demo_init|]. split; [apply after_dreach|]. split; [sp|]. vm_compute. reflexivity.
Qed.

(** A machine with an executor of its own (or shared only with machines that use the same
    queue) that drops a task only when another one waits, as a ThreadPoolExecutor with
    DiscardPolicy or DiscardOldestPolicy and a task queue of at least one place: all
    accepted events are taken, unless a task was ended by an exception. *)
Theorem C73_own_executor : forall L P E q, own_executors E q -> loses_when_others_wait L E q ->
  forall w0 w, init_mem E w0 -> dreach L P E w0 w -> at_rest E q w -> no_task_died E q (tr (wm w)) ->
    accepted q (tr (wm w)) = taken q (tr (wm w)).
Proof. exact p_C73_own_executor. Qed.
Print Assumptions C73_own_executor.
(** three events, two of the three tasks are dropped, all three events are taken *)
Example C73_own_executor_example :
  own_executors E1 0 /\ loses_when_others_wait (overfull 1) E1 0 /\ init_mem E1 w1 /\ dreach (overfull 1) oldest E1 w1 run63 /\
  at_rest E1 0 run63 /\ no_task_died E1 0 (tr (wm run63)) /\ List.length (taken 0 (tr (wm run63))) = 3 /\
  map (fun n => List.length (tasks (wm (after_d (overfull 1) E1 w1 (steps [(c0, 200)] ++ repeat (Lose 0 0) n))) 0)) [0; 1; 2; 3] = [3; 2; 1; 1].
Proof.
  split; [intros m m' Hm Hx; change (m = 0) in Hm; change (m' = m) in Hx; subst; reflexivity|].
  split; [apply overfull_waits|]. split; [apply demo_init|]. split; [apply after_dreach|]. split; [exact rest63|].
  split; [apply none_died; vm_compute; reflexivity|]. split; vm_compute; reflexivity.
Qed.
(** It is false for an executor that is shared by machines with queues of their own: the
    call of fire() returned normally, but the event waits until the next one is fired. *)
Theorem C73_nothing_stranded_refuted :
  ~ forall L P E w0 w q, init_mem E w0 -> dreach L P E w0 w -> loses_when_others_wait L E q -> no_task_died E q (tr (wm w)) -> at_rest E q w ->
    accepted q (tr (wm w)) = taken q (tr (wm w)).
Proof. exact p_C73_nothing_stranded_refuted. Qed.
Print Assumptions C73_nothing_stranded_refuted.

(** Whoever shares the executors and whatever they drop: once nothing runs or waits for the
    queue, at most as many events are left as tasks for the queue were dropped since it was
    last empty. *)
Theorem C73_left_over : forall L P E q w0 l1 l2, let w1 := drun L P E (init_world E w0) l1 in let w := drun L P E w1 l2 in
  init_mem E w0 -> waiting q (tr (wm w1)) = [] -> at_rest E q w ->
  List.length (waiting q (tr (wm w))) <= losses L P E q w1 l2.
Proof. exact p_C73_left_over. Qed.
Print Assumptions C73_left_over.
(** one task of queue 0 was dropped and one event is left; none of queue 1 was dropped *)
Example C73_left_over_example : let w1 := drun (overfull 1) oldest E56 (init_world E56 w56) (steps [(c0, 3)]) in
  let l2 := steps [(c0, 197)] ++ [Lose 0 1] ++ steps [(wk 0, 300)] in
  init_mem E56 w56 /\ waiting 0 (tr (wm w1)) = [] /\ run64 = drun (overfull 1) oldest E56 w1 l2 /\ at_rest E56 0 run64 /\
  waiting 0 (tr (wm run64)) = [(1, Some (EUser 0, 0))] /\ losses (overfull 1) oldest E56 0 w1 l2 = 1 /\
  losses (overfull 1) oldest E56 1 w1 l2 = 0.
Proof.
  split; [apply demo_init|]. split; [vm_compute; reflexivity|].
  split; [unfold run64, after_d; apply drun_parts; vm_compute; reflexivity|]. split; [exact rest64|].
  split; [vm_compute; reflexivity|]. split; vm_compute; reflexivity.
Qed.
