(** * ConfigSpec.v: specification of the fluent configuration API

    Independent of the association lists and the checks of Config.v: which
    call is allowed when, and what an allowed call does to the table. *)
From Verif Require Import Types.

(** What has been configured so far. *)
Record sstate : Type :=
  { initial : option sid;            (** the initial state *)
    clause : option sid;             (** the state of the clause being built *)
    event : option string;           (** the event of the clause being built *)
    table : string -> option string -> option (option sid);
      (** per state name and event name (None: no receives in the clause):
          nothing, an event without target yet, or a target *)
    known : string -> bool }.        (** state names that have a row *)

Definition nothing_yet : sstate :=
  {| initial := None; clause := None; event := None;
     table := fun _ _ => None; known := fun _ => false |}.

Section Spec.
  Context (sn : sid -> string) (en : eid -> string) (m : mid).

  Definition reserved_state (n : string) : Prop := n = "_END_" \/ n = "_UNINITIALISED_" \/ n = "_NOOP_".
  Definition reserved_event (n : string) : Prop := n = "_immediate_".

  Definition no_entries (s : sstate) (n : string) : Prop := forall e, table s n e = None.
  Definition no_target (s : sstate) (n : string) (e : option string) : Prop :=
    forall t, table s n e <> Some (Some t).

  (** The call-order protocol. *)
  Definition allowed (o : cop) (s : sstate) : Prop :=
    match o with
    | CInit x => ~ reserved_state (sn x) /\ initial s = None
    | CWhen x => ~ reserved_state (sn x) /\ initial s <> None /\ clause s = None
    | CReceives e => ~ reserved_event (en e) /\ initial s <> None /\ clause s <> None
    | CEnds => initial s <> None /\
               exists x, clause s = Some x /\
                 (event s = None -> no_entries s (sn x)) /\
                 (event s <> None -> no_target s (sn x) (event s))
    | CTo t => ~ reserved_state (sn t) /\ initial s <> None /\
               exists x, clause s = Some x /\ no_target s (sn x) (event s)
    | CNoTrans => initial s <> None /\
                  exists x, clause s = Some x /\ no_target s (sn x) (event s)
    end.

  Definition name_eqb (a b : string) : bool := String.eqb a b.
  Definition oname_eqb (a b : option string) : bool :=
    match a, b with
    | Some x, Some y => String.eqb x y
    | None, None => true
    | _, _ => false
    end.
  (** set one entry *)
  Definition set_entry (s : sstate) (n : string) (e : option string) (v : option sid) :=
    fun n' e' => if andb (String.eqb n' n) (oname_eqb e' e) then Some v else table s n' e'.
  (** finish the open clause with target [t] *)
  Definition close (s : sstate) (e : option string) (t : sid) : sstate :=
    {| initial := initial s; clause := None; event := None;
       table := match clause s with
                | Some x => set_entry s (sn x) e (Some t)
                | None => table s
                end;
       known := known s |}.

  (** Effect of an allowed call. *)
  Definition effect (o : cop) (s : sstate) : sstate :=
    match o with
    | CInit x =>
        {| initial := Some x; clause := Some x; event := event s; table := fun _ _ => None;
           known := fun n => orb (String.eqb n (sn x))
                               (orb (String.eqb n "_END_") (orb (String.eqb n "_UNINITIALISED_") (String.eqb n "_NOOP_"))) |}
    | CWhen x =>
        {| initial := initial s; clause := Some x; event := event s; table := table s;
           known := fun n => orb (String.eqb n (sn x)) (known s n) |}
    | CReceives e =>
        {| initial := initial s; clause := clause s; event := Some (en e);
           table := match clause s with
                    | Some x => set_entry s (sn x) (Some (en e)) None
                    | None => table s
                    end;
           known := known s |}
    | CEnds => close s (match event s with None => Some "_immediate_" | e => e end) (SEnd m)
    | CTo t => close s (event s) t
    | CNoTrans => close s (event s) (SNoop m)
    end.

  (** All call histories: allowed calls take effect, others do nothing. *)
  Inductive history : list cop -> sstate -> Prop :=
  | h_start : history [] nothing_yet
  | h_accept os s o : history os s -> allowed o s -> history (os ++ [o]) (effect o s)
  | h_reject os s o : history os s -> ~ allowed o s -> history (os ++ [o]) s.
End Spec.
