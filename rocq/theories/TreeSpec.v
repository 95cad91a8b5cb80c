(** * TreeSpec.v: the call structure of a thread's trace (specification)

    The trace of one thread is a sequence of marks, some of which are
    brackets: OInv..ORet (a call of the public API), OCall..OBack (an
    invocation of a callback object), OTake..ODone (processing of an event
    taken from a queue).  A [node] is a completed bracket with the marks
    directly inside it (not those inside nested brackets, except their opening
    and closing marks). *)
From Verif Require Import Types.

Inductive fkind : Set :=
| FRoot
| FApi (a : api)
| FCall (c : call)
| FTake (q : qid) (p : pid) (c : option (eid * mid)).

Definition frame := (fkind * list obs)%type.
Definition stack := list frame.                   (** innermost bracket first *)
Definition node := (fkind * list obs * obs)%type. (** kind, items, closing mark *)

Definition add_item (o : obs) (st : stack) : stack :=
  match st with (k, its) :: r => (k, its ++ [o]) :: r | [] => [] end.

(** the kind of bracket a mark opens *)
Definition opens (o : obs) : option fkind :=
  match o with
  | OInv a => Some (FApi a)
  | OCall c => Some (FCall c)
  | OTake q p c => Some (FTake q p c)
  | _ => None
  end.
Definition closes (o : obs) : bool :=
  match o with ORet _ _ | OBack _ _ | ODone _ _ _ => true | _ => false end.

Definition scan1 (s : stack * list node) (o : obs) : stack * list node :=
  let (st, ns) := s in
  if closes o then
    match st with
    | (k, its) :: r => (add_item o r, ns ++ [(k, its, o)])
    | [] => ([], ns)
    end
  else match opens o with
       | Some k => ((k, []) :: add_item o st, ns)
       | None => (add_item o st, ns)
       end.

(** the marks of thread t *)
Definition thread_obs (t : tid) (tr : trace) : list obs :=
  map snd (filter (fun to => tid_eqb (fst to) t) tr).
Definition scan (t : tid) (tr : trace) : stack * list node :=
  fold_left scan1 (thread_obs t tr) ([(FRoot, [])], []).

(** [closed t tr k its o]: thread t completed a bracket of kind k. *)
Definition closed (t : tid) (tr : trace) (k : fkind) (its : list obs) (o : obs) : Prop :=
  In (k, its, o) (snd (scan t tr)).
(** [opened t tr k its]: a bracket of kind k of thread t is open. *)
Definition opened (t : tid) (tr : trace) (k : fkind) (its : list obs) : Prop :=
  In (k, its) (fst (scan t tr)).

(** a completed invocation of callback c, x the exception thrown if any *)
Definition called (c : call) (x : option exn) : list obs := [OCall c; OBack c x].
