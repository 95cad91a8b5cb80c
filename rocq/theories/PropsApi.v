(** * PropsApi.v: theorems C06, C07, C08, C20, C21, C25, C42, C43 *)
From Verif Require Import ApiSpec Demo Witness StartProofs FireProofs.

(** ** C06: start() and startInState() are accepted exactly when they should be *)
Theorem C06_start :
  forall E w0 w, init_mem E w0 -> reach E w0 w ->
  forall m t a b its v d conf,
    span t (tr (wm w)) a (OInv (AStart m)) b its (ORet (AStart m) v) d -> untouched m t b -> conf_at E w0 m a conf ->
    (initial conf = None -> v = RvErr (XIllegalState RNoInit) /\ only_reads t b) /\
    (initial conf <> None -> dangling conf -> v = RvErr (XIllegalState RDangling) /\ only_reads t b) /\
    (initial conf <> None -> ~ dangling conf -> started_at m a = true ->
       v = RvErr (XIllegalState RAlreadyStarted) /\ only_reads t b) /\
    (forall i, initial conf = Some i -> ~ dangling conf -> started_at m a = false ->
       exists out, shown its = OStarted m :: OState m i :: out).
Proof. exact start_accepted. Qed.
Print Assumptions C06_start.

Theorem C06_start_in_state :
  forall E w0 w, init_mem E w0 -> reach E w0 w ->
  forall m s t a b its v d conf,
    span t (tr (wm w)) a (OInv (AStartIn m s)) b its (ORet (AStartIn m s) v) d -> untouched m t b -> conf_at E w0 m a conf ->
    (known conf (sname E s) = false -> v = RvErr (XIllegalState RNotConfigured) /\ only_reads t b) /\
    (known conf (sname E s) = true -> started_at m a = true -> v = RvErr (XIllegalState RAlreadyStarted) /\ only_reads t b) /\
    (known conf (sname E s) = true -> started_at m a = false -> v = RvUnit /\ shown its = [OStarted m; OState m s; OUnended m]).
Proof. exact start_in_accepted. Qed.
Print Assumptions C06_start_in_state.

(** all six cases *)
Example C06_example :
  let T := tr (wm run4) in let conf m i := demo_conf E4 w4 m (match m with 1 => [] | 2 => [CInit (SUser 0); CReceives (EUser 0)] | _ => flow_cfg end) (part 0 i T) in
  (forall b, (forall t o, In (t, o) b -> t = c0) -> forall m, untouched m c0 b) /\
  (forall t o, In (t, o) (part 0 112 T) -> t = c0) /\
  (spans c0 T 5 25 (OInv (AStart 0)) (ORet (AStart 0) RvUnit) /\ conf_at E4 w4 0 (part 0 5 T) (conf 0 5) /\
   initial (conf 0 5) = Some (SUser 0) /\ started_at 0 (part 0 5 T) = false) /\
  (spans c0 T 26 31 (OInv (AStart 0)) (ORet (AStart 0) (RvErr (XIllegalState RAlreadyStarted))) /\ started_at 0 (part 0 26 T) = true) /\
  (spans c0 T 60 62 (OInv (AStart 1)) (ORet (AStart 1) (RvErr (XIllegalState RNoInit))) /\ initial (conf 1 60) = None) /\
  (spans c0 T 63 67 (OInv (AStart 2)) (ORet (AStart 2) (RvErr (XIllegalState RDangling))) /\ dangling (conf 2 63)) /\
  (spans c0 T 68 70 (OInv (AStartIn 3 (SUser 3))) (ORet (AStartIn 3 (SUser 3)) (RvErr (XIllegalState RNotConfigured))) /\
   known (conf 3 68) (sname E4 (SUser 3)) = false) /\
  (spans c0 T 71 76 (OInv (AStartIn 3 (SUser 1))) (ORet (AStartIn 3 (SUser 1)) RvUnit) /\
   known (conf 3 71) (sname E4 (SUser 1)) = true /\ started_at 3 (part 0 71 T) = false).
Proof.
  split. { intros b Hb m t o Hi N. destruct N. eauto. }
  split. { intros t o Hi. apply in_map with (f := fst) in Hi. vm_compute in Hi. simpl. intuition congruence. }
  split; [split; [sp|split; [apply demo_conf_at|vm_compute; auto]]|].
  split; [split; [sp|vm_compute; auto]|]. split; [split; [sp|vm_compute; auto]|].
  split; [split; [sp|exists "A"%string, (Some "e0"%string); vm_compute; reflexivity]|].
  split; [split; [sp|vm_compute; auto]|]. split; [sp|vm_compute; auto].
Qed.

(** ** C07: a machine starts at most once *)
Theorem C07_one_successful_start :
  forall E w0 w, init_mem E w0 -> reach E w0 w ->
  forall m t1 x1 a1 b1 its1 d1 t2 x2 a2 b2 its2 d2,
    span t1 (tr (wm w)) a1 (OInv x1) b1 its1 (ORet x1 RvUnit) d1 -> starting m x1 ->
    span t2 (tr (wm w)) a2 (OInv x2) b2 its2 (ORet x2 RvUnit) d2 -> starting m x2 ->
    t1 = t2 /\ a1 = a2 /\ x1 = x2.
Proof. exact start_once. Qed.
Print Assumptions C07_one_successful_start.

Theorem C07_started_is_permanent :
  forall E w0 w, init_mem E w0 -> reach E w0 w ->
  forall m t h r t' a b its v d,
    tr (wm w) = h ++ (t, ORet (AIsStarted m) (RvBool true)) :: r ->
    span t' (tr (wm w)) a (OInv (AIsStarted m)) b its (ORet (AIsStarted m) v) d -> upto h a -> v = RvBool true.
Proof. exact started_reads. Qed.
Print Assumptions C07_started_is_permanent.

Example C07_example :
  let T := tr (wm run4) in
  spans c0 T 5 25 (OInv (AStart 0)) (ORet (AStart 0) RvUnit) /\
  (exists h, T = h ++ (c0, ORet (AIsStarted 0) (RvBool true)) :: part 39 1000 T /\ upto h (part 0 77 T)) /\
  spans c0 T 77 79 (OInv (AIsStarted 0)) (ORet (AIsStarted 0) (RvBool true)).
Proof.
  split; [sp|]. split; [|sp]. exists (part 0 38 (tr (wm run4))). split; [vm_compute; reflexivity|].
  exists (part 38 77 (tr (wm run4))). vm_compute. reflexivity.
Qed.

(** ** C08: fire() routing *)
Theorem C08_fire_routing :
  forall E w0 w, init_mem E w0 -> reach E w0 w ->
  forall m e t a b its v d, span t (tr (wm w)) a (OInv (AFire m e)) b its (ORet (AFire m e) v) d ->
    exists x, v = outcome x /\ fired E w0 m e t a (OInv (AFire m e)) b x (shown its).
Proof. exact fire_routing. Qed.
Print Assumptions C08_fire_routing.

Theorem C08_not_started :
  forall E w0 w, init_mem E w0 -> reach E w0 w ->
  forall m e t a b its v d, span t (tr (wm w)) a (OInv (AFire m e)) b its (ORet (AFire m e) v) d ->
    started_at m (a ++ (t, OInv (AFire m e)) :: b) = false ->
    exists x, v = outcome x /\ shown its = called (KUflBeforeStart (flow_of E m) e m) x.
Proof. exact fire_before. Qed.
Print Assumptions C08_not_started.

Theorem C08_running :
  forall E w0 w, init_mem E w0 -> reach E w0 w ->
  forall m e t a b its v d, span t (tr (wm w)) a (OInv (AFire m e)) b its (ORet (AFire m e) v) d ->
    started_at m a = true -> (forall h, during t a (OInv (AFire m e)) b h -> ended_at m h = false) ->
    exists x, v = outcome x /\ processed E w0 m e t a (OInv (AFire m e)) b x (shown its).
Proof. exact fire_live. Qed.
Print Assumptions C08_running.

Example C08_example :
  let T := tr (wm run4) in
  (spans c0 T 0 4 (OInv (AFire 0 (EUser 0))) (ORet (AFire 0 (EUser 0)) RvUnit) /\ started_at 0 (part 0 4 T) = false) /\
  (spans c0 T 42 56 (OInv (AFire 0 (EUser 1))) (ORet (AFire 0 (EUser 1)) RvUnit) /\ started_at 0 (part 0 42 T) = true /\
   shown (items c0 (part 43 56 T)) = [OOffer 0 0 (EUser 1) 0 (ECopy 0) 0; OSubmit 0 {| tk_strat := 0; tk_mach := 0 |}]) /\
  spans c0 T 102 108 (OInv (AFire 0 (EUser 0))) (ORet (AFire 0 (EUser 0)) RvUnit).
Proof. split; [split; [sp|vm_compute; auto]|]. split; [split; [sp|vm_compute; auto]|sp]. Qed.

(** ** C20: once ended, always ended (after start() has returned) *)
Theorem C20_ended_is_permanent :
  forall E w0 w, init_mem E w0 -> reach E w0 w ->
  forall m h1 h2 r, tr (wm w) = (h1 ++ h2) ++ r -> start_over m h1 -> ended_at m h1 = true -> ended_at m (h1 ++ h2) = true.
Proof. exact ended_stays. Qed.
Print Assumptions C20_ended_is_permanent.

Theorem C20_isEnded_stays_true :
  forall E w0 w, init_mem E w0 -> reach E w0 w ->
  forall m h r t a b its v d, tr (wm w) = h ++ r -> start_over m h -> ended_at m h = true ->
    span t (tr (wm w)) a (OInv (AIsEnded m)) b its (ORet (AIsEnded m) v) d -> upto h a -> v = RvBool true.
Proof. exact ended_reads. Qed.
Print Assumptions C20_isEnded_stays_true.

(** a start() that returned normally is over *)
Theorem C20_returned_start_is_over :
  forall E w0 w, init_mem E w0 -> reach E w0 w ->
  forall m t x h r, tr (wm w) = h ++ r -> starting m x -> In (t, ORet x RvUnit) h -> start_over m h.
Proof. exact returned_over. Qed.
Print Assumptions C20_returned_start_is_over.

Example C20_example :
  let T := tr (wm run4) in let h := part 0 98 T in
  T = h ++ part 98 1000 T /\ In (c0, ORet (AStart 0) RvUnit) h /\ ended_at 0 h = true /\
  spans c0 T 109 111 (OInv (AIsEnded 0)) (ORet (AIsEnded 0) (RvBool true)) /\ upto h (part 0 109 T).
Proof.
  split; [vm_compute; reflexivity|]. split; [find_in|]. split; [vm_compute; reflexivity|]. split; [sp|].
  exists (part 98 109 (tr (wm run4))). vm_compute. reflexivity.
Qed.

(** ** C21: nothing happens to events taken after the end *)
Theorem C21_discarded :
  forall E w0 w, init_mem E w0 -> reach E w0 w ->
  forall m h r t a p c b its z d, tr (wm w) = h ++ r -> start_over m h -> ended_at m h = true -> private_queue E m ->
    span t (tr (wm w)) a (OTake (queue_of E m) p c) b its z d -> upto h a ->
    shown its = [] /\ z = ODone (queue_of E m) p None /\ exists e, c = Some (e, m).
Proof. exact discarded. Qed.
Print Assumptions C21_discarded.

Theorem C21_fire_queues_nothing :
  forall E w0 w, init_mem E w0 -> reach E w0 w ->
  forall m e t a b its v d, span t (tr (wm w)) a (OInv (AFire m e)) b its (ORet (AFire m e) v) d ->
    start_over m a -> ended_at m a = true ->
    exists x, v = outcome x /\ shown its = called (KUflAfterEnd (flow_of E m) e m) x.
Proof. exact fire_ended. Qed.
Print Assumptions C21_fire_queues_nothing.

(** two events were waiting when the machine was stopped *)
Example C21_example :
  let T := tr (wm run4) in let h := part 0 98 T in
  private_queue E4 0 /\ start_over 0 h /\ ended_at 0 h = true /\
  spans (wk 0) T 113 117 (OTake 0 0 (Some (ECopy 0, 0))) (ODone 0 0 None) /\
  spans (wk 0) T 119 123 (OTake 0 1 (Some (EUser 0, 0))) (ODone 0 1 None) /\
  upto h (part 0 113 T) /\
  spans c0 T 102 108 (OInv (AFire 0 (EUser 0))) (ORet (AFire 0 (EUser 0)) RvUnit).
Proof.
  split; [intros m' H; exact H|]. split.
  { eapply C20_returned_start_is_over with (E := E4) (w0 := w4) (w := run4) (x := AStart 0) (t := c0) (r := part 98 1000 (tr (wm run4))).
    - apply demo_init.
    - apply after_reach.
    - vm_compute. reflexivity.
    - left. reflexivity.
    - find_in. }
  split; [vm_compute; reflexivity|]. split; [sp|]. split; [sp|]. split; [|sp].
  exists (part 98 113 (tr (wm run4))). vm_compute. reflexivity.
Qed.

(** ** C25: payload snapshot *)
Theorem C25_delivered_object :
  forall E w0 w, init_mem E w0 -> reach E w0 w ->
  forall m e t a b its v d q p e0 m0 e' m', span t (tr (wm w)) a (OInv (AFire m e)) b its (ORet (AFire m e) v) d ->
    In (OOffer q p e0 m0 e' m') its ->
    (e' = e /\ sometime t a (OInv (AFire m e)) b (fun h => pay_at w0 e h = None)) \/
    (exists hc, during t a (OInv (AFire m e)) b hc /\ copy_of E w0 e e' t a (OInv (AFire m e)) b hc).
Proof. exact delivers. Qed.
Print Assumptions C25_delivered_object.

Theorem C25_snapshot :
  forall E w0 w, init_mem E w0 -> reach E w0 w ->
  forall m e t a b its v d q p e0 m0 e' m', span t (tr (wm w)) a (OInv (AFire m e)) b its (ORet (AFire m e) v) d ->
    In (OOffer q p e0 m0 e' m') its -> made e a -> pay_at w0 e a <> None -> payload_kept e b ->
    exists hc r, upto (a ++ [(t, OInv (AFire m e))]) hc /\ tr (wm w) = hc ++ r /\ made e' hc /\ ~ made e' a /\ e' <> e /\
      name_at E w0 e' hc = name_at E w0 e a /\
      forall r1 r2, r = r1 ++ r2 -> payload_kept e' r1 -> pay_at w0 e' (hc ++ r1) = pay_at w0 e a.
Proof. exact snapshot. Qed.
Print Assumptions C25_snapshot.

Theorem C25_no_payload_same_object :
  forall E w0 w, init_mem E w0 -> reach E w0 w ->
  forall m e t a b its v d q p e0 m0 e' m', span t (tr (wm w)) a (OInv (AFire m e)) b its (ORet (AFire m e) v) d ->
    In (OOffer q p e0 m0 e' m') its -> (forall h, during t a (OInv (AFire m e)) b h -> pay_at w0 e h = None) -> e' = e.
Proof. exact same_object. Qed.
Print Assumptions C25_no_payload_same_object.

(** fired with payload 5, then payload 6 is set on the fired object *)
Example C25_example :
  let T := tr (wm run4) in
  spans c0 T 42 56 (OInv (AFire 0 (EUser 1))) (ORet (AFire 0 (EUser 1)) RvUnit) /\
  In (OOffer 0 0 (EUser 1) 0 (ECopy 0) 0) (items c0 (part 43 56 T)) /\ made (EUser 1) (part 0 42 T) /\
  pay_at w4 (EUser 1) (part 0 42 T) = Some 5 /\ payload_kept (EUser 1) (part 43 56 T) /\
  pay_at w4 (EUser 1) T = Some 6 /\ pay_at w4 (ECopy 0) T = Some 5.
Proof.
  split; [sp|]. split; [find_in|]. split; [exact I|]. split; [vm_compute; reflexivity|]. split; [|vm_compute; auto].
  intros t y Hi. vm_compute in Hi. intuition congruence.
Qed.

(** ** C42: firing into a shut-down executor *)
Theorem C42_rejected_event_stays_queued :
  forall E w0 w, init_mem E w0 -> reach E w0 w ->
  forall m e t a b its v d x tk, span t (tr (wm w)) a (OInv (AFire m e)) b its (ORet (AFire m e) v) d ->
    In (OWr (WrReject x tk)) its ->
    v = RvErr XRejected /\ x = exec_of E m /\ shut_at (exec_of E m) (a ++ (t, OInv (AFire m e)) :: b) /\
    exists p e', shown its = [OOffer (queue_of E m) p e m e' m] /\
      (taken (queue_of E m) b = [] ->
       In (p, Some (e', m)) (waiting (queue_of E m) (a ++ (t, OInv (AFire m e)) :: b ++ [(t, ORet (AFire m e) v)]))).
Proof. exact rejected. Qed.
Print Assumptions C42_rejected_event_stays_queued.

Theorem C42_shut_down_executor_rejects :
  forall E w0 w, init_mem E w0 -> reach E w0 w ->
  forall m e t a b its v d p e', span t (tr (wm w)) a (OInv (AFire m e)) b its (ORet (AFire m e) v) d ->
    shut_at (exec_of E m) a -> In (OOffer (queue_of E m) p e m e' m) its ->
    In (OWr (WrReject (exec_of E m) {| tk_strat := strat_of E m; tk_mach := m |})) its.
Proof. exact shut_fire. Qed.
Print Assumptions C42_shut_down_executor_rejects.

Example C42_example :
  let T := tr (wm run4) in
  spans c0 T 83 94 (OInv (AFire 0 (EUser 0))) (ORet (AFire 0 (EUser 0)) (RvErr XRejected)) /\
  shut_at 0 (part 0 83 T) /\ In (OOffer 0 1 (EUser 0) 0 (EUser 0) 0) (items c0 (part 84 94 T)) /\
  waiting 0 (part 0 95 T) = [(0, Some (ECopy 0, 0)); (1, Some (EUser 0, 0))].
Proof. split; [sp|]. split; [exists c0; find_in|]. split; [find_in|vm_compute; reflexivity]. Qed.

(** ** C43: start() notification sequence *)
Theorem C43_start_sequence :
  forall E w0 w, init_mem E w0 -> reach E w0 w ->
  forall m t a b its v d, span t (tr (wm w)) a (OInv (AStart m)) b its (ORet (AStart m) v) d -> In (OStarted m) its ->
    exists init h conf x out, during t a (OInv (AStart m)) b h /\ conf_at E w0 m h conf /\ initial conf = Some init /\
      v = outcome x /\ shown its = OStarted m :: OState m init :: out /\ startup w0 m init t a (OInv (AStart m)) b x out.
Proof. exact start_sequence. Qed.
Print Assumptions C43_start_sequence.

Theorem C43_startInState_calls_nothing :
  forall E w0 w, init_mem E w0 -> reach E w0 w ->
  forall m s t a b its v d, span t (tr (wm w)) a (OInv (AStartIn m s)) b its (ORet (AStartIn m s) v) d ->
    forall o, In (t, o) b -> In o its /\ match o with OCall _ => False | _ => True end.
Proof. exact start_in_silent. Qed.
Print Assumptions C43_startInState_calls_nothing.

Example C43_example :
  let T := tr (wm run4) in
  spans c0 T 5 25 (OInv (AStart 0)) (ORet (AStart 0) RvUnit) /\
  shown (items c0 (part 6 25 T)) = [OStarted 0; OState 0 (SUser 0)] ++
    called (KListen false (LLeaf (LfUser 0)) 0 (SNone 0) (EImm 0) (SUser 0)) None ++
    called (KAct true (AUser 10) (SUser 0) (EImm 0) 0) None ++
    called (KListen true (LLeaf (LfUser 0)) 0 (SNone 0) (EImm 0) (SUser 0)) None ++ [OUnended 0] /\
  spans c0 T 71 76 (OInv (AStartIn 3 (SUser 1))) (ORet (AStartIn 3 (SUser 1)) RvUnit).
Proof. split; [sp|]. split; [vm_compute; reflexivity|sp]. Qed.
