(** * PropsAccess.v: accessors, mutators and configuration calls of running
    machines (C56, C04, C14, C36) *)
From Verif Require Import Sched ApiSpec AccessSpec AccessProofs Demo12 Witness.

(** ** C56: accessors tell the truth, mutators take effect, nothing else changes *)
(** isStarted(), isEnded(), getCurrentState() and getPayload() return what is so at
    a moment between their call and their return, and only read. *)
Theorem C56_getters :
  forall E w0 w, init_mem E w0 -> reach E w0 w ->
  forall q x, gets q x -> forall t a b its v d, span t (tr (wm w)) a (OInv q) b its (ORet q v) d ->
    (exists h, during t a (OInv q) b h /\ v = returned (content_at w0 x h)) /\ forall o, In o its -> is_read o = true.
Proof. exact getter. Qed.
Print Assumptions C56_getters.
Example C56_getters_example :
  let T := tr (wm run28) in
  init_mem E28 w28 /\ reach E28 w28 run28 /\ gets (AIsStarted 0) (PStarted 0) /\ gets (AGetCur 0) (PState 0) /\ gets (AGetPay (EUser 1)) (PPay (EUser 1)) /\
  spans c1 T 0 2 (OInv (AIsStarted 0)) (ORet (AIsStarted 0) (RvBool false)) /\
  spans c1 T 83 85 (OInv (AGetCur 0)) (ORet (AGetCur 0) (RvState (Some (SUser 0)))) /\
  spans c1 T 86 88 (OInv (AGetPay (EUser 1))) (ORet (AGetPay (EUser 1)) (RvPay (Some 5))) /\
  spans c1 T 80 82 (OInv (AIsEnded 0)) (ORet (AIsEnded 0) (RvBool false)) /\
  spans c1 T 99 101 (OInv (AIsEnded 0)) (ORet (AIsEnded 0) (RvBool true)).
Proof. split; [apply demo_init|]. split; [apply after_reach|]. do 3 (split; [vm_compute; reflexivity|]). do 4 (split; [sp|]). sp. Qed.

(** setStateMachineListener(), appendEntryActions(), appendExitActions() and
    setPayload() return normally; at one moment between their call and their
    return they set what they are told to set, and at that moment nothing else
    changes. *)
Theorem C56_setters :
  forall E w0 w, init_mem E w0 -> reach E w0 w ->
  forall q, setter q -> forall t a b its v d, span t (tr (wm w)) a (OInv q) b its (ORet q v) d ->
    v = RvUnit /\
    exists h o x, during t a (OInv q) b h /\ during t a (OInv q) b (h ++ [(t, o)]) /\
      sets q x (content_at w0 x h) (content_at w0 x (h ++ [(t, o)])) /\
      forall y, y <> x -> content_at w0 y (h ++ [(t, o)]) = content_at w0 y h.
Proof. exact set_by. Qed.
Print Assumptions C56_setters.
Example C56_setters_example :
  let T := tr (wm run28) in
  init_mem E28 w28 /\ reach E28 w28 run28 /\
  spans c0 T 18 20 (OInv (ASetListener 0 (Some (LLeaf (LfUser 7))))) (ORet (ASetListener 0 (Some (LLeaf (LfUser 7)))) RvUnit) /\
  spans c0 T 21 23 (OInv (AAppend true (SUser 0) [Some (AUser 11); None; Some (AUser 12)]))
    (ORet (AAppend true (SUser 0) [Some (AUser 11); None; Some (AUser 12)]) RvUnit) /\
  spans c0 T 24 26 (OInv (ASetPay (EUser 1) (Some 5))) (ORet (ASetPay (EUser 1) (Some 5)) RvUnit) /\
  content_at w28 (PActs true (SUser 0)) (part 0 22 T) = CActs [AUser 10] /\
  content_at w28 (PActs true (SUser 0)) (part 0 23 T) = CActs [AUser 10; AUser 11; AUser 12] /\
  content_at w28 (PListener 0) (part 0 19 T) = CListener None /\
  content_at w28 (PListener 0) (part 0 20 T) = CListener (Some (LLeaf (LfUser 7))).
Proof. split; [apply demo_init|]. split; [apply after_reach|]. do 3 (split; [sp|]). vm_compute. auto. Qed.

(** Whenever what these accessors show changes, the thread that changes it is in a
    method that may do so: the mutator of just that, start(), startInState() or
    stop() of that machine, or the processing of an event of that machine; or the
    event object with that payload is only being made. *)
Theorem C56_changes :
  forall E w0 w, init_mem E w0 -> reach E w0 w ->
  forall t h o r x, tr (wm w) = h ++ (t, o) :: r -> content_at w0 x (h ++ [(t, o)]) <> content_at w0 x h ->
    (exists k its u, fst (scan t h) = (k, its) :: u /\ changes E k x) \/
    (exists e, x = PPay e /\ ~ made e h /\ made e (h ++ [(t, o)])).
Proof. exact changed_by. Qed.
Print Assumptions C56_changes.
(** start(), stop() and a mutator each change something *)
Example C56_changes_example :
  let T := tr (wm run28) in
  init_mem E28 w28 /\ reach E28 w28 run28 /\
  (exists o r, T = part 0 31 T ++ (c0, o) :: r /\ content_at w28 (PStarted 0) (part 0 31 T ++ [(c0, o)]) <> content_at w28 (PStarted 0) (part 0 31 T)) /\
  (exists o r, T = part 0 96 T ++ (c1, o) :: r /\ content_at w28 (PEnded 0) (part 0 96 T ++ [(c1, o)]) <> content_at w28 (PEnded 0) (part 0 96 T)) /\
  (exists o r, T = part 0 25 T ++ (c0, o) :: r /\ content_at w28 (PPay (EUser 1)) (part 0 25 T ++ [(c0, o)]) <> content_at w28 (PPay (EUser 1)) (part 0 25 T)).
Proof.
  split; [apply demo_init|]. split; [apply after_reach|]. repeat split.
  all: eexists; eexists; split; [vm_compute; reflexivity|vm_compute; discriminate].
Qed.

(** ** C04: configuration calls at any time *)
(** A configuration call, made by any thread at any time, also on a running
    machine, takes effect at one moment between its call and its return: it throws
    if and only if it is not allowed in the configuration of that moment, and then
    changes nothing; otherwise the configuration changes as the call says; in
    either case no other machine's configuration changes. *)
Theorem C04_call_any_time :
  forall E w0 w, init_mem E w0 -> reach E w0 w ->
  forall m o t a b its v d, span t (tr (wm w)) a (OInv (ACfg m o)) b its (ORet (ACfg m o) v) d ->
  exists h c x, let h' := h ++ [(t, OWr (WrCfg m o x))] in
    during t a (OInv (ACfg m o)) b h /\ during t a (OInv (ACfg m o)) b h' /\ v = outcome x /\
    conf_at E w0 m h c /\
    (x = None <-> allowed (sname E) (fun e => name_at E w0 e h) o c) /\
    conf_at E w0 m h' (match x with None => effect (sname E) (fun e => name_at E w0 e h) m o c | Some _ => c end) /\
    forall m' c', m' <> m -> conf_at E w0 m' h c' -> conf_at E w0 m' h' c'.
Proof. exact configure. Qed.
Print Assumptions C04_call_any_time.
(** The configuration of a machine changes only while a configuration call of that
    machine is being carried out. *)
Theorem C04_only_configuration_calls :
  forall E w0 w, init_mem E w0 -> reach E w0 w ->
  forall t h o r m c, tr (wm w) = h ++ (t, o) :: r -> conf_at E w0 m h c -> ~ conf_at E w0 m (h ++ [(t, o)]) c ->
  exists c0 its u, fst (scan t h) = (FApi (ACfg m c0), its) :: u.
Proof. exact configured_by. Qed.
Print Assumptions C04_only_configuration_calls.
(** two calls are refused, one of them after others were accepted; to() changes the
    table, initialState() the initial state *)
Example C04_call_any_time_example :
  let T := tr (wm run28) in
  init_mem E28 w28 /\ reach E28 w28 run28 /\
  spans c0 T 3 5 (OInv (ACfg 0 (CWhen (SUser 0)))) (ORet (ACfg 0 (CWhen (SUser 0))) (RvErr (XIllegalState RNoInit))) /\
  spans c0 T 12 14 (OInv (ACfg 0 (CTo (SUser 1)))) (ORet (ACfg 0 (CTo (SUser 1))) RvUnit) /\
  spans c0 T 15 17 (OInv (ACfg 0 CEnds)) (ORet (ACfg 0 CEnds) (RvErr (XIllegalState RNotMarked))) /\
  ConfigSpec.table (demo_conf E28 w28 0 [] (part 0 13 T)) "A"%string (Some "e0"%string) = Some None /\
  ConfigSpec.table (demo_conf E28 w28 0 [] (part 0 14 T)) "A"%string (Some "e0"%string) = Some (Some (SUser 1)) /\
  exists o r c, T = part 0 7 T ++ (c0, o) :: r /\ conf_at E28 w28 0 (part 0 7 T) c /\ ~ conf_at E28 w28 0 (part 0 7 T ++ [(c0, o)]) c.
Proof.
  split; [apply demo_init|]. split; [apply after_reach|]. do 3 (split; [sp|]). do 2 (split; [vm_compute; reflexivity|]).
  eexists. eexists. exists (demo_conf E28 w28 0 [] (part 0 7 (tr (wm run28)))).
  split; [vm_compute; reflexivity|]. split; [apply demo_conf_at|]. intros (os & s & _ & _ & H).
  apply (f_equal ConfigSpec.initial) in H. vm_compute in H. discriminate.
Qed.

(** ** C36: error() *)
(** error() of an app service logs one line with the app's name and then fires the
    lifecycle event "error" at the machine; what it then does and throws is what
    fireStateEvent() does and throws. *)
Theorem C36_error :
  forall E w0 w, init_mem E w0 -> reach E w0 w ->
  forall t a b its d p v, span t (tr (wm w)) a (OInv (AAppError p)) b its (ORet (AAppError p) v) d ->
  exists x o, v = outcome x /\
    shown its = OLog (ap_name (apps E p) ++ " has an error")%string :: o /\
    fired E w0 (ap_mach (apps E p)) (ELife LError) t a (OInv (AAppError p)) b x o.
Proof. exact app_error_call. Qed.
Print Assumptions C36_error.
Example C36_error_example :
  init_mem E28 w28 /\ reach E28 w28 run28 /\
  spans c1 (tr (wm run28)) 89 94 (OInv (AAppError 2)) (ORet (AAppError 2) RvUnit).
Proof. split; [apply demo_init|]. split; [apply after_reach|]. sp. Qed.

(** ** C14: the handler used unless one is set *)
(** The default handler of unmapped events logs one line with the name of the event
    and the name of the current state, and does nothing else; when the machine has
    no current state it throws a NullPointerException. *)
Theorem C14_default_handler :
  forall E w0 w, init_mem E w0 -> reach E w0 w ->
  forall t a b its d e m x, let c := KUnmapped UDefault e m in
  span t (tr (wm w)) a (OCall c) b its (OBack c x) d ->
  exists h1 h2, during t a (OCall c) b h1 /\ during t a (OCall c) b h2 /\ upto h1 h2 /\
    match cur_at m h2 with
    | Some s => x = None /\
        shown its = [OLog ("StateEvent [" ++ name_at E w0 e h1 ++ "] not mapped for state [" ++ sname E s ++ "], ignoring")%string]
    | None => x = Some XNullPointer /\ shown its = []
    end.
Proof. exact unmapped_default. Qed.
Print Assumptions C14_default_handler.
Example C14_default_handler_example :
  init_mem E28 w28 /\ reach E28 w28 run28 /\
  spans (wk 0) (tr (wm run28)) 72 76 (OCall (KUnmapped UDefault (EUser 2) 0)) (OBack (KUnmapped UDefault (EUser 2) 0) None).
Proof. split; [apply demo_init|]. split; [apply after_reach|]. sp. Qed.
