(** * DetSpec.v: the same events, the same behaviour (specification) *)
From Verif Require Export ExactSpec BoundSpec.

(** a mark with the event object left out: two executions have different
    objects, e.g. the copies made by fire() *)
Definition no_event (c : call) : call :=
  match c with
  | KAct en a s _ m => KAct en a s (EUser 0) m
  | KInner a _ m => KInner a (EUser 0) m
  | KHandler h _ m x => KHandler h (EUser 0) m x
  | KListen fin l m f _ t => KListen fin l m f (EUser 0) t
  | KUnmapped h _ m => KUnmapped h (EUser 0) m
  | KUflExn u _ m x => KUflExn u (EUser 0) m x
  | KUflAfterEnd u _ m => KUflAfterEnd u (EUser 0) m
  | KUflBeforeStart u _ m => KUflBeforeStart u (EUser 0) m
  | KSub st p i => KSub st p i
  end.
Definition no_event_mark (o : obs) : obs :=
  match o with
  | OCall c => OCall (no_event c)
  | OBack c x => OBack (no_event c) x
  | _ => o
  end.

(** What the processing of an event shows: the name of the event, the callbacks
    made, how they ended and the changes of state in between, and whether the
    worker's task died. *)
Definition view : Type := string * list obs * obs.
Definition view_of (name : eid -> string) (n : node) : view :=
  match n with
  | (FTake _ _ (Some (e, _)), its, ODone _ _ x) => (name e, map no_event_mark (shown its), ODone 0 0 x)
  | (_, its, z) => (EmptyString, map no_event_mark (shown its), z)
  end.
Definition name_of_view (v : view) : string := fst (fst v).

(** How a callback ends depends only on what was shown before it: on the earlier
    processings, and on the name of the event and the marks of the present one. *)
Definition answers (F : list view -> string -> list obs -> call -> option exn) (vs : list view) : Prop :=
  forall vs1 n os z vs2, vs = vs1 ++ (n, os, z) :: vs2 ->
  forall a c x b, os = a ++ OBack c x :: b -> x = F vs1 n a c.

(** event objects of machine m exist when they are taken from the queue.
    (Client code of the model may mention any event object, Java code cannot.) *)
Definition taken_exist (E : env) (m : mid) (T : trace) : Prop :=
  forall a t p e r, T = a ++ (t, OTake (queue_of E m) p (Some (e, m))) :: r -> made e a.

(** A period of an execution, from moment h to its last moment h ++ r: machine m
    is not interfered with, and processes no event at its beginning and end.
    Its configuration is conf; [vs]: what it shows. *)
Definition period (E : env) (w0 : mem) (m : mid) (h r : trace) (conf : sstate) (vs : list view) : Prop :=
  calm E m h r /\ taken_exist E m (h ++ r) /\ conf_at E w0 (table_of E m) h conf /\
  rests (queue_of E m) (worker_of E m) h /\ rests (queue_of E m) (worker_of E m) (h ++ r) /\
  exists new, completed (queue_of E m) (worker_of E m) (h ++ r) = completed (queue_of E m) (worker_of E m) h ++ new /\
    vs = map (view_of (fun e => name_at E w0 e (h ++ r))) new.
(** two programs that set machine m up alike: the names of the states, the machine
    whose table m uses, its unmapped event handler and unexpected flow listener.
    (Threads, callbacks, queues, executors and other machines may differ.) *)
Definition same_setup (E1 E2 : env) (m : mid) : Prop :=
  sname E1 = sname E2 /\ table_of E1 m = table_of E2 m /\ handler_of E1 m = handler_of E2 m /\ flow_of E1 m = flow_of E2 m.
(** the machine has the same listener, actions and state at moments h1 and h2 *)
Definition same_start (w01 w02 : mem) (m : mid) (h1 h2 : trace) : Prop :=
  listener_at w01 m h1 = listener_at w02 m h2 /\ (forall en s, acts_at w01 en s h1 = acts_at w02 en s h2) /\
  mstate_at m h1 = mstate_at m h2.
(** the names of the events accepted for queue q during r *)
Definition accepted_names (name : eid -> string) (q : qid) (r : trace) : list string :=
  map (fun pc => match snd pc with Some (e, _) => name e | None => EmptyString end) (accepted q r).
(** every event accepted for queue q up to moment h has been taken *)
Definition none_waiting (q : qid) (h : trace) : Prop := accepted q h = taken q h.
