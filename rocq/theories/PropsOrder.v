(** * PropsOrder.v: theorems of C72 (executors that run their tasks in any order) *)
From Verif Require Import ExnSpec OrderSpec FlowSpec OrderProofs OrderProofs2 Demo24 Witness Demo4.

(** ** C72: an executor given with withExecutor may run its tasks in any order *)
(** With an executor for each machine the order of tasks makes no difference: all other
    theorems apply. *)
Theorem C72_one_machine_each : forall P E w0 w, one_machine_each E -> init_mem E w0 -> oreach P E w0 w -> reach E w0 w.
Proof. exact p_C72_one_machine_each. Qed.
Print Assumptions C72_one_machine_each.
Example C72_one_machine_each_example :
  one_machine_each E1 /\ init_mem E1 w1 /\ oreach newest E1 w1 run61 /\ List.length (taken 0 (tr (wm run61))) = 3.
Proof.
  split; [intros m m' H; exact H|]. split; [apply demo_init|]. split; [apply after_oreach|]. vm_compute. reflexivity.
Qed.

(** If moreover an idle thread always takes a task when one waits, a schedule leads to the same
    world as with the default executor; so the theorems about fair schedules (C50 to C53
    and others) apply as well. *)
Theorem C72_same_execution : forall P E w0 l, one_machine_each E -> takes_some P -> init_mem E w0 ->
  orun P E (init_world E w0) l = run E (init_world E w0) l.
Proof. exact p_C72_same_execution. Qed.
Print Assumptions C72_same_execution.
(** three tasks are waiting, the thread takes the last one *)
Example C72_same_execution_example :
  one_machine_each E1 /\ takes_some newest /\ init_mem E1 w1 /\
  let w := after_o newest E1 w1 [(c0, 200)] in List.length (tasks (wm w) 0) = 3 /\ newest 0 w = 2.
Proof.
  split; [intros m m' H; exact H|]. split.
  - intros x w H. unfold newest. destruct (tasks (wm w) x); [congruence|simpl; lia].
  - split; [apply demo_init|]. split; vm_compute; reflexivity.
Qed.

(** Machines may share executors: each accepted event is taken once and in the order
    accepted, or waits. *)
Theorem C72_in_order : forall P E q w0 w, init_mem E w0 -> oreach P E w0 w ->
  accepted q (tr (wm w)) = taken q (tr (wm w)) ++ map (fun p => (p, pairs (wm w) p)) (queues (wm w) q).
Proof. exact p_C72_in_order. Qed.
Print Assumptions C72_in_order.
(** When nothing runs or is pending for a queue any more, all its events were taken. *)
Theorem C72_nothing_stranded : forall P E q w0 w, init_mem E w0 -> oreach P E w0 w -> at_rest E q w ->
  accepted q (tr (wm w)) = taken q (tr (wm w)).
Proof. exact p_C72_nothing_stranded. Qed.
Print Assumptions C72_nothing_stranded.
(** two machines with a common executor; the event of machine 1 is accepted first, the task
    of machine 0 is run first; with the default executor it is the other way round *)
Example C72_order_example : let takes T := filter (fun o => match o with OTake _ _ _ => true | _ => false end) (map snd T) in
  init_mem E59 w59 /\ oreach newest E59 w59 run59 /\ at_rest E59 0 run59 /\ at_rest E59 1 run59 /\
  accepted 0 (tr (wm run59)) = [(1, Some (EUser 0, 0))] /\ accepted 1 (tr (wm run59)) = [(0, Some (EUser 0, 1))] /\
  takes (tr (wm run59)) = [OTake 0 1 (Some (EUser 0, 0)); OTake 1 0 (Some (EUser 0, 1))] /\
  takes (tr (wm run60)) = [OTake 1 0 (Some (EUser 0, 1)); OTake 0 1 (Some (EUser 0, 0))].
Proof.
  split; [apply demo_init|]. split; [apply after_oreach|].
  split; [apply (at_rest_o newest E59 w59 _ 0 0 [c0; wk 0]); [apply demo_init|apply after_oreach|reflexivity|reflexivity|..]; vm_compute; reflexivity|].
  split; [apply (at_rest_o newest E59 w59 _ 1 0 [c0; wk 0]); [apply demo_init|apply after_oreach|reflexivity|reflexivity|..]; vm_compute; reflexivity|].
  split; [|split; [|split]]; vm_compute; reflexivity.
Qed.

(** An exception of a callback ends the processing of its event, is reported to the
    unexpected flow listener exactly once and does not end the task, as with the default
    executor (C17). *)
Theorem C72_reported_once : forall P E w0 w, init_mem E w0 -> oreach P E w0 w ->
  forall t a q p e m b its z d, span t (tr (wm w)) a (OTake q p (Some (e, m))) b its z d ->
    exists tm P Rep y x, taker E q t tm /\ z = ODone q p x /\ shown its = P ++ Rep /\
      (forall u e' m' x', ~ In (OCall (KUflExn u e' m' x')) P) /\
      (forall c v, In (OBack c (Some v)) P -> y = Some v /\ exists P', P = P' ++ [OBack c (Some v)]) /\
      (forall v, y = Some v -> (exists c P', P = P' ++ [OBack c (Some v)]) \/ v = XNullPointer \/ v = XConcurrentMod) /\
      match y with
      | Some v => if an_exception v then Rep = called (KUflExn (flow_of E tm) e m v) x else Rep = [] /\ x = Some v
      | None => Rep = [] /\ x = None
      end.
Proof. exact p_C72_reported_once. Qed.
Print Assumptions C72_reported_once.
Example C72_reported_once_example : let T := tr (wm run59) in
  init_mem E59 w59 /\ oreach newest E59 w59 run59 /\
  spans (wk 0) T 61 79 (OTake 0 1 (Some (EUser 0, 0))) (ODone 0 1 None) /\
  existsb (fun o => match o with OCall (KUflExn (FUser 0) (EUser 0) 0 (XUser 7)) => true | _ => false end) (items (wk 0) (part 62 79 T)) = true.
Proof.
  split; [apply demo_init|]. split; [apply after_oreach|]. split; [sp|]. vm_compute. reflexivity.
Qed.
