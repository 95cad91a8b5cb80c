(** * PropsFlow.v: theorems C11, C13-C18 *)
From Verif Require Import ExnSpec ExactSpec Demo Witness FlowProofs FlowProofs2 FlowProofs3.

(** ** C11: event processing implements the configured automaton *)

(** whatever other threads do, the processing of one event follows the script,
    with values taken at moments during the processing *)
Theorem C11_script_under_interference :
  forall E w0 w, init_mem E w0 -> reach E w0 w ->
  forall t a q p e m b its z d, span t (tr (wm w)) a (OTake q p (Some (e, m))) b its z d ->
    exists tm y x P Rep, taker E q t tm /\ z = ODone q p x /\ shown its = P ++ Rep /\
      reported (flow_of E tm) e m y x Rep /\
      ((sometime t a (OTake q p (Some (e, m))) b (fun h => ended_at tm h = true) /\ P = [] /\ y = None) \/
       exists h1 h2 r, during t a (OTake q p (Some (e, m))) b h1 /\ during t a (OTake q p (Some (e, m))) b h2 /\ upto h1 h2 /\
         reacts_at E w0 (table_of E tm) h2 (cur_at m h1) e r /\
         reaction_during E w0 tm m e t a (OTake q p (Some (e, m))) b r y P).
Proof. exact script_during. Qed.
Print Assumptions C11_script_under_interference.

(** without interference: one event, exactly *)
Theorem C11_one_event :
  forall E w0 w, init_mem E w0 -> reach E w0 w ->
  forall m t a p e b its z d conf,
    undisturbed E w m t a p e b its z d -> conf_at E w0 (table_of E m) a conf ->
    exists x h, z = ODone (queue_of E m) p x /\
      during t a (OTake (queue_of E m) p (Some (e, m))) b h /\
      event E m (listener_at w0 m a) (fun en s => acts_at w0 en s a) conf (handler_of E m) e (name_at E w0 e h) (flow_of E m)
        (mstate_at m a) x (shown its)
        (mstate_at m (a ++ (t, OTake (queue_of E m) p (Some (e, m))) :: b ++ [(t, z)])).
Proof. exact one_event. Qed.
Print Assumptions C11_one_event.

(** all events of a calm period, in the order taken *)
Theorem C11_automaton_run :
  forall E w0 w, init_mem E w0 -> reach E w0 w ->
  forall m h r conf, private_queue E m -> one_thread E m -> tr (wm w) = h ++ r -> calm E m h r ->
    conf_at E w0 (table_of E m) h conf ->
    rests (queue_of E m) (worker_of E m) h -> rests (queue_of E m) (worker_of E m) (h ++ r) ->
    exists new,
      completed (queue_of E m) (worker_of E m) (h ++ r) = completed (queue_of E m) (worker_of E m) h ++ new /\
      taken (queue_of E m) (h ++ r) = taken (queue_of E m) h ++ map event_of new /\
      arun E m (listener_at w0 m h) (fun en s => acts_at w0 en s h) conf
        (fun e n => exists h', upto h' (h ++ r) /\ (exists t p, In (t, OTake (queue_of E m) p (Some (e, m))) h') /\ n = name_at E w0 e h')
        (mstate_at m h) new (mstate_at m (h ++ r)).
Proof. exact all_events. Qed.
Print Assumptions C11_automaton_run.

(** and the states are those of the table, when no listener or action throws *)
Theorem C11_states_follow_the_table :
  forall E m l ac conf N s ns s', arun E m l ac conf N s ns s' ->
    (forall k its z, In (k, its, z) ns -> no_throw its) -> nexts E m conf N s ns s'.
Proof. exact arun_next. Qed.
Print Assumptions C11_states_follow_the_table.

(** the configuration hypothesis is always satisfiable *)
Theorem C11_configuration_exists :
  forall E w0 m h, init_mem E w0 -> exists conf, conf_at E w0 m h conf.
Proof. exact conf_exists. Qed.
Print Assumptions C11_configuration_exists.

(** five events, fired by two clients while the worker runs; calm since
    start() returned *)
Example C11_example :
  let E := E2 true in let T := tr (wm (run2 true)) in let h := part 0 31 T in let r := part 31 500 T in
  reach E (w2 true) (run2 true) /\ private_queue E 0 /\ one_thread E 0 /\ T = h ++ r /\ calm E 0 h r /\
  conf_at E (w2 true) 0 h (demo_conf E (w2 true) 0 flow_cfg h) /\
  rests 0 (wk 0) h /\ rests 0 (wk 0) (h ++ r) /\
  mstate_at 0 h = (Some (SUser 0), false) /\ mstate_at 0 (h ++ r) = (Some (SUser 2), false) /\
  map event_of (completed 0 (wk 0) (h ++ r)) =
    [(0, Some (EUser 0, 0)); (1, Some (EUser 2, 0)); (2, Some (EUser 1, 0)); (3, Some (EUser 3, 0)); (4, Some (EUser 0, 0))].
Proof.
  split; [apply after_reach|]. split; [intros m' H; exact H|]. split; [vm_compute; repeat constructor|].
  split; [vm_compute; reflexivity|]. split; [apply calm_ok; vm_compute; reflexivity|]. split; [apply demo_conf_at|].
  split; [apply rests_ok; vm_compute; reflexivity|]. split; [apply rests_ok; vm_compute; reflexivity|].
  vm_compute. auto.
Qed.
(** the first of them: a transition *)
Example C11_example_event :
  let T := tr (wm (run2 true)) in let its := items (wk 0) (part 36 112 T) in
  undisturbed (E2 true) (run2 true) 0 (wk 0) (part 0 35 T) 0 (EUser 0) (part 36 112 T) its (ODone 0 0 None) (part 113 500 T) /\
  shown its =
    called (KListen false (LLeaf (LfUser 0)) 0 (SUser 0) (EUser 0) (SUser 1)) None ++
    called (KAct false (AUser 0) (SUser 0) (EUser 0) 0) None ++ [OState 0 (SUser 1)] ++
    called (KAct true (AUser 11) (SUser 1) (EUser 0) 0) None ++
    called (KListen true (LLeaf (LfUser 0)) 0 (SUser 0) (EUser 0) (SUser 1)) None.
Proof. split; [undist|vm_compute; reflexivity]. Qed.

(** ** C13: transitions never overlap (single-threaded executor) *)
Theorem C13_one_at_a_time :
  forall E w0 w, init_mem E w0 -> reach E w0 w ->
  forall h r m t t' p p' c c' its its', tr (wm w) = h ++ r -> private_queue E m -> one_thread E m ->
    opened t h (FTake (queue_of E m) p c) its -> opened t' h (FTake (queue_of E m) p' c') its' ->
    t = worker_of E m /\ t' = t /\ p' = p /\ c' = c /\ its' = its.
Proof. exact one_at_a_time. Qed.
Print Assumptions C13_one_at_a_time.

(** every callback of m's transitions is made inside the processing of one
    event by m's worker, or by a running start() of m *)
Theorem C13_callbacks_belong_to_one_event :
  forall E w0 w, init_mem E w0 -> reach E w0 w ->
  forall h r m t o, tr (wm w) = h ++ (t, o) :: r -> private_queue E m -> one_thread E m ->
    match o with OCall (KListen _ _ m' _ _ _) | OCall (KAct _ _ _ _ m') | OCall (KUnmapped _ _ m') => m' = m | _ => False end ->
    (t = worker_of E m /\ exists p e its i, fst (scan t h) = [(FTake (queue_of E m) p (Some (e, m)), its); (FRoot, i)] /\
       match o with OCall (KListen _ _ _ _ e' _) | OCall (KAct _ _ _ e' _) | OCall (KUnmapped _ e' _) => e' = e | _ => False end) \/
    (exists x its u, fst (scan t h) = (FApi x, its) :: u /\
       match x with AStart m' => m' = m | AAppStart p => ap_mach (apps E p) = m | _ => False end) \/
    (exists fin k f e s its u l, fst (scan t h) = (FCall (KListen fin (LMulti k) m f e s), its) :: u /\
       o = OCall (KListen fin (LLeaf l) m f e s)).
Proof. exact callbacks_placed. Qed.
Print Assumptions C13_callbacks_belong_to_one_event.

(** while the worker processes the first event, the other clients fire *)
Example C13_example :
  let T := tr (wm (run2 true)) in let h := part 0 93 T in
  private_queue (E2 true) 0 /\ one_thread (E2 true) 0 /\ T = h ++ part 93 500 T /\
  (exists its, opened (wk 0) h (FTake 0 0 (Some (EUser 0, 0))) its) /\
  exists h1, T = h1 ++ (wk 0, OCall (KAct true (AUser 11) (SUser 1) (EUser 0) 0)) :: part 104 500 T.
Proof.
  split; [intros m' H; exact H|]. split; [vm_compute; repeat constructor|]. split; [vm_compute; reflexivity|].
  split; [eexists; unfold opened; find_in|]. exists (part 0 103 (tr (wm (run2 true)))). vm_compute. reflexivity.
Qed.

(** ** C14: unmapped events *)
Theorem C14_handler_and_nothing_else :
  forall E w0 w, init_mem E w0 -> reach E w0 w ->
  forall t a q p e m b its z d, span t (tr (wm w)) a (OTake q p (Some (e, m))) b its z d ->
  forall h' e' m', In (OCall (KUnmapped h' e' m')) its ->
    exists tm y x Rep, taker E q t tm /\ h' = handler_of E tm /\ e' = e /\ m' = m /\ z = ODone q p x /\
      shown its = called (KUnmapped h' e m) y ++ Rep /\ reported (flow_of E tm) e m y x Rep /\
      exists h1 h2, during t a (OTake q p (Some (e, m))) b h1 /\ during t a (OTake q p (Some (e, m))) b h2 /\ upto h1 h2 /\
        reacts_at E w0 (table_of E tm) h2 (cur_at m h1) e Unmapped.
Proof. exact unmapped_only. Qed.
Print Assumptions C14_handler_and_nothing_else.

Theorem C14_handler_called_whatever_others_do :
  forall E w0 w, init_mem E w0 -> reach E w0 w ->
  forall t a q p e m b its z d, span t (tr (wm w)) a (OTake q p (Some (e, m))) b its z d ->
    (forall tm, taker E q t tm -> ~ sometime t a (OTake q p (Some (e, m))) b (fun h => ended_at tm h = true)) ->
    (forall tm h1 h2 r, taker E q t tm -> during t a (OTake q p (Some (e, m))) b h1 ->
       during t a (OTake q p (Some (e, m))) b h2 -> upto h1 h2 ->
       reacts_at E w0 (table_of E tm) h2 (cur_at m h1) e r -> r = Unmapped) ->
    exists tm y x Rep, taker E q t tm /\ z = ODone q p x /\
      shown its = called (KUnmapped (handler_of E tm) e m) y ++ Rep /\ reported (flow_of E tm) e m y x Rep.
Proof. exact unmapped_called. Qed.
Print Assumptions C14_handler_called_whatever_others_do.

Theorem C14_unmapped_exactly :
  forall E w0 w, init_mem E w0 -> reach E w0 w ->
  forall m t a p e b its z d conf,
    undisturbed E w m t a p e b its z d -> conf_at E w0 (table_of E m) a conf -> ended_at m a = false ->
    made e a -> reacts (sname E) conf (cur_at m a) (name_at E w0 e a) = Unmapped ->
    exists y x Rep, z = ODone (queue_of E m) p x /\ reported (flow_of E m) e m y x Rep /\
      shown its = called (KUnmapped (handler_of E m) e m) y ++ Rep /\
      mstate_at m (a ++ (t, OTake (queue_of E m) p (Some (e, m))) :: b ++ [(t, z)]) = mstate_at m a.
Proof. exact unmapped_exactly. Qed.
Print Assumptions C14_unmapped_exactly.

Example C14_example :
  let E := E2 true in let w0 := w2 true in
  let T := tr (wm (run2 true)) in let a := part 0 114 T in let its := items (wk 0) (part 115 122 T) in
  undisturbed E (run2 true) 0 (wk 0) a 1 (EUser 2) (part 115 122 T) its (ODone 0 1 None) (part 123 500 T) /\
  conf_at E w0 0 a (demo_conf E w0 0 flow_cfg a) /\ ended_at 0 a = false /\
  reacts (sname E) (demo_conf E w0 0 flow_cfg a) (cur_at 0 a) (name_at E w0 (EUser 2) a) = Unmapped /\
  In (OCall (KUnmapped (UUser 0) (EUser 2) 0)) its.
Proof. split; [undist|]. split; [apply demo_conf_at|]. split; [vm_compute; reflexivity|]. split; [vm_compute; reflexivity|find_in]. Qed.

(** ** C15: itDoesNotTransition *)
Theorem C15_no_action_no_change :
  forall E w0 w, init_mem E w0 -> reach E w0 w ->
  forall t a q p e m b its z d, span t (tr (wm w)) a (OTake q p (Some (e, m))) b its z d ->
    (forall tm h1 h2 r, taker E q t tm -> during t a (OTake q p (Some (e, m))) b h1 ->
       during t a (OTake q p (Some (e, m))) b h2 -> upto h1 h2 ->
       reacts_at E w0 (table_of E tm) h2 (cur_at m h1) e r -> exists s, r = Target s /\ sname E s = "_NOOP_") ->
    forall o, In o its -> is_action o = false /\ is_change o = false /\
      match o with OCall (KUnmapped _ _ _) => False | _ => True end.
Proof. exact noop_only. Qed.
Print Assumptions C15_no_action_no_change.

Theorem C15_two_notifications_exactly :
  forall E w0 w, init_mem E w0 -> reach E w0 w ->
  forall m t a p e b its z d conf s li f,
    undisturbed E w m t a p e b its z d -> conf_at E w0 (table_of E m) a conf -> ended_at m a = false ->
    made e a -> reacts (sname E) conf (cur_at m a) (name_at E w0 e a) = Target s -> sname E s = "_NOOP_" ->
    listener_at w0 m a = Some li -> cur_at m a = Some f ->
    exists y x Rep, z = ODone (queue_of E m) p x /\ reported (flow_of E m) e m y x Rep /\
      (shown its = called (KListen false li m f e s) None ++ called (KListen true li m f e s) y ++ Rep \/
       exists v, y = Some v /\ shown its = called (KListen false li m f e s) y ++ Rep) /\
      mstate_at m (a ++ (t, OTake (queue_of E m) p (Some (e, m))) :: b ++ [(t, z)]) = mstate_at m a.
Proof. exact noop_exactly. Qed.
Print Assumptions C15_two_notifications_exactly.

Example C15_example :
  let E := E2 true in let w0 := w2 true in
  let T := tr (wm (run2 true)) in let a := part 0 124 T in let its := items (wk 0) (part 125 140 T) in
  undisturbed E (run2 true) 0 (wk 0) a 2 (EUser 1) (part 125 140 T) its (ODone 0 2 None) (part 141 500 T) /\
  conf_at E w0 0 a (demo_conf E w0 0 flow_cfg a) /\ ended_at 0 a = false /\
  reacts (sname E) (demo_conf E w0 0 flow_cfg a) (cur_at 0 a) (name_at E w0 (EUser 1) a) = Target (SNoop 0) /\
  listener_at w0 0 a = Some (LLeaf (LfUser 0)) /\ cur_at 0 a = Some (SUser 1) /\
  shown its = called (KListen false (LLeaf (LfUser 0)) 0 (SUser 1) (EUser 1) (SNoop 0)) None ++
              called (KListen true (LLeaf (LfUser 0)) 0 (SUser 1) (EUser 1) (SNoop 0)) None.
Proof. split; [undist|]. split; [apply demo_conf_at|]. split; [vm_compute; reflexivity|].
  split; [vm_compute; reflexivity|]. vm_compute. auto. Qed.

(** ** C16: begin and end notifications are paired *)
Theorem C16_notifications_paired :
  forall E w0 w, init_mem E w0 -> reach E w0 w ->
  forall t a q p e m b its z d, span t (tr (wm w)) a (OTake q p (Some (e, m))) b its z d ->
    let at_ := sometime t a (OTake q p (Some (e, m))) b in
    notifications its = [] \/
    exists f f' s, at_ (fun h => cur_at m h = f) /\ at_ (fun h => cur_at m h = f') /\
      (f = f' \/ sname E s = "_NOOP_") /\
      exists tm P Rep y x B F, taker E q t tm /\ z = ODone q p x /\ shown its = P ++ Rep /\ reported (flow_of E tm) e m y x Rep /\
        notifications its = B ++ F /\
        ((B = [] /\ at_ (fun h => listener_at w0 m h = None)) \/
         (exists l, at_ (fun h => listener_at w0 m h = Some l) /\ B = [OCall (KListen false l m (from_state m f) e s)])) /\
        ((F = [] /\ (y <> None \/ at_ (fun h => listener_at w0 m h = None))) \/
         (exists l, at_ (fun h => listener_at w0 m h = Some l) /\ F = [OCall (KListen true l m (from_state m f') e s)])).
Proof. exact notifications_paired. Qed.
Print Assumptions C16_notifications_paired.

(** a removed listener: the end notification is missing although nothing was
    thrown (E3: the entry action of B removes the listener) *)
Example C16_example :
  let T := tr (wm run3) in let b := part 35 64 T in let its := items (wk 0) b in
  span (wk 0) T (part 0 34 T) (OTake 0 0 (Some (EUser 0, 0))) b its (ODone 0 0 None) (part 65 500 T) /\
  notifications its = [OCall (KListen false (LLeaf (LfUser 0)) 0 (SUser 0) (EUser 0) (SUser 1))].
Proof. split; [split; [vm_compute; reflexivity|split; vm_compute; reflexivity]|vm_compute; reflexivity]. Qed.

(** ** C17: exceptions *)
Theorem C17_reported_exactly_once :
  forall E w0 w, init_mem E w0 -> reach E w0 w ->
  forall t a q p e m b its z d, span t (tr (wm w)) a (OTake q p (Some (e, m))) b its z d ->
    exists tm P Rep y x, taker E q t tm /\ z = ODone q p x /\ shown its = P ++ Rep /\
      (forall u e' m' x', ~ In (OCall (KUflExn u e' m' x')) P) /\
      (forall c v, In (OBack c (Some v)) P -> y = Some v /\ exists P', P = P' ++ [OBack c (Some v)]) /\
      (forall v, y = Some v -> (exists c P', P = P' ++ [OBack c (Some v)]) \/ v = XNullPointer \/ v = XConcurrentMod) /\
      match y with
      | Some v => if an_exception v then Rep = called (KUflExn (flow_of E tm) e m v) x else Rep = [] /\ x = Some v
      | None => Rep = [] /\ x = None
      end.
Proof. exact (fun E w0 w H0 Hr => reported_once E w0 w H0 Hr). Qed.
Print Assumptions C17_reported_exactly_once.

Theorem C17_state_after_exception :
  forall E w0 w, init_mem E w0 -> reach E w0 w ->
  forall m t a p e b its z d cb v,
    undisturbed E w m t a p e b its z d -> In (OBack cb (Some v)) its ->
    let before := mstate_at m a in
    let after := mstate_at m (a ++ (t, OTake (queue_of E m) p (Some (e, m))) :: b ++ [(t, z)]) in
    match cb with
    | KListen false _ _ _ _ _ | KAct false _ _ _ _ => after = before
    | KListen true _ _ _ _ s | KAct true _ s _ _ =>
        if String.eqb (sname E s) "_NOOP_" then after = before
        else after = (Some s, String.eqb (sname E s) "_END_")
    | _ => True
    end.
Proof. exact state_after_exception. Qed.
Print Assumptions C17_state_after_exception.

Example C17_example :
  let E := E2 true in
  let T := tr (wm (run2 true)) in let a := part 0 142 T in let its := items (wk 0) (part 143 168 T) in
  undisturbed E (run2 true) 0 (wk 0) a 3 (EUser 3) (part 143 168 T) its (ODone 0 3 None) (part 169 500 T) /\
  In (OBack (KAct true (AUser 12) (SUser 2) (EUser 3) 0) (Some (XUser 7))) its /\
  In (OCall (KUflExn (FUser 0) (EUser 3) 0 (XUser 7))) its /\
  mstate_at 0 (part 0 169 T) = (Some (SUser 2), false).
Proof. split; [undist|]. split; [find_in|]. split; [find_in|]. vm_compute. reflexivity. Qed.

(** ** C18: reaching a final state ends the machine *)
Theorem C18_final_state_ends :
  forall E w0 w, init_mem E w0 -> reach E w0 w ->
  forall m t a p e b its z d conf s,
    undisturbed E w m t a p e b its z d -> conf_at E w0 (table_of E m) a conf -> ended_at m a = false ->
    made e a -> reacts (sname E) conf (cur_at m a) (name_at E w0 e a) = Target s ->
    sname E s <> "_NOOP_" -> sname E s <> "_END_" -> final_state (sname E) (table_of E m) conf s ->
    let after := mstate_at m (a ++ (t, OTake (queue_of E m) p (Some (e, m))) :: b ++ [(t, z)]) in
    (no_throw its -> after = (Some (SEnd m), true)) /\
    (forall c v, In (OBack c (Some v)) its ->
       match c with
       | KAct true _ _ _ _ | KListen true _ _ _ _ _ => after = (Some s, false)
       | KAct false _ _ _ _ | KListen false _ _ _ _ _ => after = mstate_at m a
       | _ => True
       end).
Proof. exact final_state_ends. Qed.
Print Assumptions C18_final_state_ends.

(** a target that is not final does not end the machine *)
Theorem C18_other_states_do_not_end :
  forall E w0 w, init_mem E w0 -> reach E w0 w ->
  forall m t a p e b its z d conf s,
    undisturbed E w m t a p e b its z d -> conf_at E w0 (table_of E m) a conf -> ended_at m a = false ->
    made e a -> reacts (sname E) conf (cur_at m a) (name_at E w0 e a) = Target s ->
    sname E s <> "_NOOP_" -> sname E s <> "_END_" -> ~ final_state (sname E) (table_of E m) conf s ->
    no_throw its -> 
    mstate_at m (a ++ (t, OTake (queue_of E m) p (Some (e, m))) :: b ++ [(t, z)]) = (Some s, false).
Proof. exact other_states_do_not_end. Qed.
Print Assumptions C18_other_states_do_not_end.

(** the same event, with (C17_example) and without the exception *)
Example C18_example :
  let E := E2 false in let w0 := w2 false in
  let T := tr (wm (run2 false)) in let a := part 0 142 T in let its := items (wk 0) (part 143 174 T) in
  undisturbed E (run2 false) 0 (wk 0) a 3 (EUser 3) (part 143 174 T) its (ODone 0 3 None) (part 175 500 T) /\
  conf_at E w0 0 a (demo_conf E w0 0 flow_cfg a) /\ ended_at 0 a = false /\
  reacts (sname E) (demo_conf E w0 0 flow_cfg a) (cur_at 0 a) (name_at E w0 (EUser 3) a) = Target (SUser 2) /\
  final_state (sname E) 0 (demo_conf E w0 0 flow_cfg a) (SUser 2) /\
  mstate_at 0 (part 0 175 T) = (Some (SEnd 0), true).
Proof.
  split; [undist|]. split; [apply demo_conf_at|]. split; [vm_compute; reflexivity|].
  split; [vm_compute; reflexivity|].
  split; [right; vm_compute; reflexivity|vm_compute; reflexivity].
Qed.
