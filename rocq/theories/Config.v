(** * Config.v: the configuration methods of GenericStateMachine.java

    GenericStateMachine.java:36,41-43,64-185.  The configuration is a record;
    each method is a function returning the new configuration and the result
    or exception.  A HashMap keyed by State (StateEvent) objects compares
    keys by name (NamedState.java:59-69, NamedStateEvent.java:49-58), so maps
    are association lists keyed by names; the inner map may hold the null key
    ([None]) and null values ([None]). *)
From Verif Require Export Prog.

(** ** Association lists standing for java.util.HashMap *)
Section Assoc.
  Context {K V : Set} (eqb : K -> K -> bool).
  (** HashMap.get *)
  Fixpoint aget (k : K) (l : list (K * V)) : option V :=
    match l with
    | [] => None
    | (k', v) :: r => if eqb k k' then Some v else aget k r
    end.
  (** HashMap.put *)
  Fixpoint aput (k : K) (v : V) (l : list (K * V)) : list (K * V) :=
    match l with
    | [] => [(k, v)]
    | (k', v') :: r => if eqb k k' then (k', v) :: r else (k', v') :: aput k v r
    end.
End Assoc.

Definition ostr_eqb (a b : option string) : bool :=
  match a, b with
  | None, None => true
  | Some x, Some y => String.eqb x y
  | _, _ => false
  end.

(** Map<StateEvent, State> and Map<State, Map<StateEvent, State>> *)
Definition row := list (option string * option sid).
Definition table := list (string * row).

(** The configuration fields of a machine: initState, markedState,
    markedEvent (by its name), states (GenericStateMachine.java:36,41-43). *)
Record cfg : Set := { c_init : option sid; c_mstate : option sid;
                      c_mevent : option string; c_map : table }.

(** GenericStateMachine.java:46-62 with [new HashMap<>()] (line 370). *)
Definition cfg0 : cfg := {| c_init := None; c_mstate := None; c_mevent := None; c_map := [] |}.

(** GenericStateMachine.java:23-28 *)
Definition nm_end := "_END_".
Definition nm_uninit := "_UNINITIALISED_".
Definition nm_noop := "_NOOP_".
Definition nm_imm := "_immediate_".
Definition reserved_names : list string := [nm_uninit; nm_end; nm_noop].

(** A configuration method: it may mutate the configuration and then return
    or throw; mutations made before the throw persist, as in Java. *)
Definition cm (A : Set) := cfg -> cfg * res A.
Definition cret {A : Set} (a : A) : cm A := fun c => (c, Ok a).
Definition cthrow {A : Set} (x : exn) : cm A := fun c => (c, Err x).
Definition cbind {A B : Set} (p : cm A) (f : A -> cm B) : cm B :=
  fun c => match p c with
           | (c', Ok a) => f a c'
           | (c', Err x) => (c', Err x)
           end.
Definition cget {A : Set} (f : cfg -> A) : cm A := fun c => (c, Ok (f c)).
Definition cmod (f : cfg -> cfg) : cm unit := fun c => (f c, Ok tt).
Notation "'let*' x := r 'in' f" := (cbind r (fun x => f)) (at level 200, x name, right associativity).

(** field writes *)
Definition set_init (v : option sid) (c : cfg) : cfg :=
  {| c_init := v; c_mstate := c_mstate c; c_mevent := c_mevent c; c_map := c_map c |}.
Definition set_mstate (v : option sid) (c : cfg) : cfg :=
  {| c_init := c_init c; c_mstate := v; c_mevent := c_mevent c; c_map := c_map c |}.
Definition set_mevent (v : option string) (c : cfg) : cfg :=
  {| c_init := c_init c; c_mstate := c_mstate c; c_mevent := v; c_map := c_map c |}.
Definition set_map (v : table) (c : cfg) : cfg :=
  {| c_init := c_init c; c_mstate := c_mstate c; c_mevent := c_mevent c; c_map := v |}.

Section Cfg.
  (** names of state and event objects *)
  Context (sn : sid -> string) (en : eid -> string).
  (** the machine being configured *)
  Context (m : mid).

  (** GenericStateMachine.java:137-142 *)
  Definition assertNotReservedState (s : sid) : cm unit :=
    if existsb (fun r => String.eqb r (sn s)) reserved_names
    then cthrow (XIllegalState RReserved) else cret tt.

  (** GenericStateMachine.java:144-149 *)
  Definition assertNotReservedStateEvent (e : eid) : cm unit :=
    if String.eqb nm_imm (en e) then cthrow (XIllegalState RReserved) else cret tt.

  (** GenericStateMachine.java:178-185 *)
  Definition assertInitStateDefined (ex : bool) : cm unit :=
    let* i := cget c_init in
    match ex, i with
    | true, None => cthrow (XIllegalState RNoInit)
    | false, Some _ => cthrow (XIllegalState RInitExists)
    | _, _ => cret tt
    end.

  (** GenericStateMachine.java:169-176 *)
  Definition assertMarkedStateDefined (ex : bool) : cm unit :=
    let* s := cget c_mstate in
    match ex, s with
    | true, None => cthrow (XIllegalState RNotMarked)
    | false, Some _ => cthrow (XIllegalState RMarked)
    | _, _ => cret tt
    end.

  (** states.get(markedState); None if null *)
  Definition marked_row (c : cfg) : option row :=
    match c_mstate c with
    | Some s => aget String.eqb (sn s) (c_map c)
    | None => None
    end.

  (** GenericStateMachine.java:151-158.  The message dereferences
      markedEvent, hence the NullPointerException when it is null. *)
  Definition assertEventNotMapped : cm unit :=
    let* r := cget marked_row in
    let* e := cget c_mevent in
    match r with
    | None => cthrow XNullPointer
    | Some r =>
        match aget ostr_eqb e r with
        | Some (Some _) =>
            match e with
            | None => cthrow XNullPointer
            | Some _ => cthrow (XIllegalState RMapped)
            end
        | _ => cret tt
        end
    end.

  (** GenericStateMachine.java:160-167 *)
  Definition assertNoMappingsExistAtEnd : cm unit :=
    let* r := cget marked_row in
    match r with
    | None => cthrow XNullPointer
    | Some [] => cret tt
    | Some (_ :: _) => cthrow (XIllegalState RMappingsExist)
    end.

  (** states.get(markedState).put(k, v) *)
  Definition put_marked (k : option string) (v : option sid) : cm unit :=
    let* s := cget c_mstate in
    let* r := cget marked_row in
    match s, r with
    | Some s, Some r =>
        cmod (fun c => set_map (aput String.eqb (sn s) (aput ostr_eqb k v r) (c_map c)) c)
    | _, _ => cthrow XNullPointer
    end.

  (** putIfAbsent(state, new HashMap<>()) *)
  Definition put_if_absent (k : string) (t : table) : table :=
    match aget String.eqb k t with Some _ => t | None => aput String.eqb k [] t end.

  (** when: GenericStateMachine.java:79-86 *)
  Definition cfg_when (s : sid) : cm unit :=
    let* u := assertNotReservedState s in
    let* u := assertInitStateDefined true in
    let* u := assertMarkedStateDefined false in
    let* u := cmod (fun c => set_map (put_if_absent (sn s) (c_map c)) c) in
    cmod (set_mstate (Some s)).

  (** initialSate: GenericStateMachine.java:66-76 *)
  Definition cfg_init (s : sid) : cm unit :=
    let* u := assertNotReservedState s in
    let* u := assertInitStateDefined false in
    let* u := cmod (set_init (Some s)) in
    let* u := cmod (fun c => set_map (aput String.eqb (sn s) [] (c_map c)) c) in
    let* u := cmod (fun c => set_map (aput String.eqb nm_end [] (c_map c)) c) in
    let* u := cmod (fun c => set_map (aput String.eqb nm_uninit [] (c_map c)) c) in
    let* u := cmod (fun c => set_map (aput String.eqb nm_noop [] (c_map c)) c) in
    cfg_when s.

  (** receives: GenericStateMachine.java:89-96 *)
  Definition cfg_receives (e : eid) : cm unit :=
    let* u := assertNotReservedStateEvent e in
    let* u := assertInitStateDefined true in
    let* u := assertMarkedStateDefined true in
    let* u := cmod (set_mevent (Some (en e))) in
    put_marked (Some (en e)) None.

  (** itEnds: GenericStateMachine.java:99-112 *)
  Definition cfg_ends : cm unit :=
    let* u := assertInitStateDefined true in
    let* u := assertMarkedStateDefined true in
    let* e := cget c_mevent in
    let* u := match e with
            | None =>
                let* u := assertNoMappingsExistAtEnd in
                put_marked (Some nm_imm) (Some (SEnd m))
            | Some _ =>
                let* u := assertEventNotMapped in
                put_marked e (Some (SEnd m))
            end in
    let* u := cmod (set_mstate None) in
    cmod (set_mevent None).

  (** itTransitionsTo: GenericStateMachine.java:115-124 *)
  Definition cfg_to (s : sid) : cm unit :=
    let* u := assertNotReservedState s in
    let* u := assertInitStateDefined true in
    let* u := assertMarkedStateDefined true in
    let* u := assertEventNotMapped in
    let* e := cget c_mevent in
    let* u := put_marked e (Some s) in
    let* u := cmod (set_mstate None) in
    cmod (set_mevent None).

  (** itDoesNotTransition: GenericStateMachine.java:127-135 *)
  Definition cfg_notrans : cm unit :=
    let* u := assertInitStateDefined true in
    let* u := assertMarkedStateDefined true in
    let* u := assertEventNotMapped in
    let* e := cget c_mevent in
    let* u := put_marked e (Some (SNoop m)) in
    let* u := cmod (set_mstate None) in
    cmod (set_mevent None).

  Definition cfg_step (o : cop) : cm unit :=
    match o with
    | CInit s => cfg_init s
    | CWhen s => cfg_when s
    | CReceives e => cfg_receives e
    | CEnds => cfg_ends
    | CTo s => cfg_to s
    | CNoTrans => cfg_notrans
    end.

  (** A caller that ignores exceptions, and a whole call sequence. *)
  Definition cfg_exec (c : cfg) (o : cop) : cfg := fst (cfg_step o c).
  Definition cfg_run (os : list cop) : cfg := fold_left cfg_exec os cfg0.

  (** ** Queries used by start() and TransitionTask *)
  (** the validation loop of start(): GenericStateMachine.java:222-231 *)
  Definition cfg_dangling (c : cfg) : bool :=
    existsb (fun kr => existsb (fun kv => match snd kv with None => true | Some _ => false end) (snd kr))
            (c_map c).
  (** states.containsKey: GenericStateMachine.java:258 *)
  Definition cfg_has (s : sid) (c : cfg) : bool :=
    match aget String.eqb (sn s) (c_map c) with Some _ => true | None => false end.
  (** states.get(s).get(e): TransitionTask.java:27; the outer None is a null
      inner map (NullPointerException); a null value reads as no mapping *)
  Definition cfg_lookup (s : option sid) (e : eid) (c : cfg) : option (option sid) :=
    match s with
    | None => None
    | Some s =>
        match aget String.eqb (sn s) (c_map c) with
        | None => None
        | Some r => match aget ostr_eqb (Some (en e)) r with
                    | Some v => Some v
                    | None => Some None
                    end
        end
    end.
  (** TransitionTask.java:44-45:
      states.get(t) == null || endState.equals(states.get(t).get(immediateEvent)) *)
  Definition cfg_ends_at (t : sid) (c : cfg) : bool :=
    match aget String.eqb (sn t) (c_map c) with
    | None => true
    | Some r => match aget ostr_eqb (Some nm_imm) r with
                | Some (Some x) => String.eqb nm_end (sn x)
                | _ => false
                end
    end.
End Cfg.
