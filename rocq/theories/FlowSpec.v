(** * FlowSpec.v: what the processing of one event may look like (specification)

    The marks shown (records of memory accesses left out) while an event is
    processed, when other threads may do anything meanwhile.  A value the
    processing depends on (current state, listener, ...) is some value it has
    at a moment during the processing. *)
From Verif Require Export Spec.

(** outcome (an exception or None) and shown marks *)
Definition script := option exn -> list obs -> Prop.
(** first A, then B unless A threw *)
Definition andthen (A B : script) : script := fun x out =>
  (exists y, x = Some y /\ A (Some y) out) \/
  (exists o1 o2, out = o1 ++ o2 /\ A None o1 /\ B x o2).
Definition nothing : script := fun x out => x = None /\ out = [].
Definition fails (y : exn) : script := fun x out => x = Some y /\ out = [].

(** what is reported to the unexpected flow listener u when processing ended
    with y; x is how the worker goes on *)
Definition reported (u : ufl) (e : eid) (m : mid) (y x : option exn) (out : list obs) : Prop :=
  match y with
  | Some v => if is_exception v then out = called (KUflExn u e m v) x else out = [] /\ x = Some v
  | None => out = [] /\ x = None
  end.

Section Script.
  Context (E : env) (m : mid) (e : eid).
  (** values at moments during the processing: current state of m, listener of
      m, actions of a state, ended flag of m, "state t is final" *)
  Context (St : option sid -> Prop) (Li : option listener -> Prop)
          (Ac : bool -> sid -> list action -> Prop) (En : bool -> Prop) (Fi : sid -> bool -> Prop).

  (** the from-state given to listeners *)
  Definition from_state (c : option sid) : sid := match c with Some s => s | None => SNone m end.

  (** notify the listener, if there is one *)
  Definition told (fin : bool) (f t : sid) : script := fun x out =>
    (Li None /\ x = None /\ out = []) \/
    (Li None /\ x = Some XNullPointer /\ out = []) (* removed just now *) \/
    (exists l, Li (Some l) /\ out = called (KListen fin l m f e t) x).

  (** run the actions l of state s: all of them, or up to one that throws, or
      until somebody changed the list *)
  Definition ran (en : bool) (s : sid) (l : list action) : script := fun x out =>
    exists l1 l2, l = l1 ++ l2 /\
      let done := flat_map (fun a => called (KAct en a s e m) None) l1 in
      (x = None /\ l2 = [] /\ out = done) \/
      (x = Some XConcurrentMod /\ out = done /\ exists l', Ac en s l' /\ List.length l' <> List.length l) \/
      (exists a r y, l2 = a :: r /\ x = Some y /\ out = done ++ called (KAct en a s e m) (Some y)).
  (** the actions of the current state *)
  Definition ran_all (en : bool) : script := fun x out =>
    (St None /\ x = Some XNullPointer /\ out = []) \/
    (exists s l, St (Some s) /\ Ac en s l /\ ran en s l x out).

  (** move to state t; nothing if the machine is ended *)
  Definition moved (t : sid) : script := fun x out => x = None /\
    ((En true /\ out = []) \/
     (En false /\ out = (if String.eqb (sname E t) "_END_" then [OEnded m] else []) ++ [OState m t])).

  Definition transition (t : sid) : script := fun x out => exists f, St f /\
    andthen (told false (from_state f) t)
   (andthen (ran_all false)
   (andthen (moved t)
   (andthen (ran_all true)
   (andthen (told true (from_state f) t)
            (fun x out => exists b, Fi t b /\ if b : bool then moved (SEnd m) x out else nothing x out))))) x out.
  Definition no_transition (t : sid) : script := fun x out => exists f f', St f /\ St f' /\
    andthen (told false (from_state f) t) (told true (from_state f') t) x out.
  (** the reaction to an event *)
  Definition reaction_script (h : uhandler) (r : reaction) : script := fun x out =>
    match r with
    | NoRow => fails XNullPointer x out
    | Unmapped => out = called (KUnmapped h e m) x
    | Target t => if String.eqb (sname E t) "_NOOP_" then no_transition t x out else transition t x out
    end.
End Script.

(** the machine whose fire() call submitted the task processing an event *)
Definition taker (E : env) (q : qid) (t : tid) (tm : mid) : Prop :=
  queue_of E tm = q /\ exists i, t = TWorker (exec_of E tm) i.
Definition handler_of (E : env) (m : mid) : uhandler := s_unmapped (strat E (strat_of E m)).

(** ** The processing of one event, as part of an execution *)
(** P holds at some moment during the bracket opened by [op] *)
Definition sometime (t : tid) (a : trace) (op : obs) (b : trace) (P : trace -> Prop) : Prop :=
  exists h, during t a op b h /\ P h.
(** the reaction script, with the values at moments during the bracket *)
Definition reaction_during (E : env) (w0 : mem) (tm m : mid) (e : eid) (t : tid) (a : trace) (op : obs) (b : trace)
    (r : reaction) : script :=
  let at_ := sometime t a op b in
  reaction_script E m e
    (fun c => at_ (fun h => cur_at m h = c))
    (fun l => at_ (fun h => listener_at w0 m h = l))
    (fun en s l => at_ (fun h => acts_at w0 en s h = l))
    (fun v => at_ (fun h => ended_at m h = v))
    (fun s v => at_ (fun h => v = true <-> final_at E w0 (table_of E tm) h s))
    (handler_of E tm) r.

(** the begin and end notifications among marks, in order *)
Definition is_notification (o : obs) : bool :=
  match o with OCall (KListen _ _ _ _ _ _) => true | _ => false end.
Definition notifications (l : list obs) : list obs := filter is_notification l.
(** invocations of actions of states *)
Definition is_action (o : obs) : bool :=
  match o with OCall (KAct _ _ _ _ _) => true | _ => false end.
(** changes of a machine's state or ended flag *)
Definition is_change (o : obs) : bool :=
  match o with OState _ _ | OEnded _ => true | _ => false end.
