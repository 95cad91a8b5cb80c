(** * ConfSpec.v: configuration and names as told by the trace (specification)

    Configuration calls recorded in the trace (they may come at any time, from
    any thread) act on the specification state of ConfigSpec.v. *)
From Verif Require Import Types StateSpec.
From Verif Require Export ConfigSpec.

(** the names of event objects; a copy gets its name when it is made *)
Definition names_of : (eid -> string) -> trace -> (eid -> string) :=
  replay (fun f o => match o with
                     | OWr (WrCopy e nm _) => fun e' => if eid_eqb e' e then nm else f e'
                     | _ => f
                     end).

(** the configuration of machine m: an accepted call takes effect *)
Definition confs_of (sn : sid -> string) (m : mid) : (eid -> string) * sstate -> trace -> (eid -> string) * sstate :=
  replay (fun ns o =>
    match o with
    | OWr (WrCopy e nm _) => ((fun e' => if eid_eqb e' e then nm else fst ns e'), snd ns)
    | OWr (WrCfg m' o None) => if Nat.eqb m' m then (fst ns, effect sn (fst ns) m o (snd ns)) else ns
    | _ => ns
    end).
Definition conf_of (sn : sid -> string) (m : mid) (n0 : eid -> string) (s0 : sstate) (tr : trace) : sstate :=
  snd (confs_of sn m (n0, s0) tr).

(** what a configuration says about an event named [n] in state [c] *)
Inductive reaction : Set := NoRow | Unmapped | Target (t : sid).
Definition reacts (sn : sid -> string) (s : sstate) (c : option sid) (n : string) : reaction :=
  match c with
  | None => NoRow
  | Some st =>
      if known s (sn st)
      then match table s (sn st) (Some n) with Some (Some t) => Target t | _ => Unmapped end
      else NoRow
  end.
(** state t was configured with a bare itEnds() on machine tb, or never with when() *)
Definition final_state (sn : sid -> string) (tb : mid) (s : sstate) (t : sid) : Prop :=
  known s (sn t) = false \/ table s (sn t) (Some "_immediate_") = Some (Some (SEnd tb)).
(** some (state, event) pair was given no target *)
Definition dangling (s : sstate) : Prop := exists n e, table s n e = Some None.
(** the value of a table lookup as recorded *)
Definition rea (r : option (option sid)) : reaction :=
  match r with None => NoRow | Some None => Unmapped | Some (Some t) => Target t end.
