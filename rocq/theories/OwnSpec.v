(** * OwnSpec.v: what the trace says about event queues (specification) *)
From Verif Require Import Types.

(** The pairs accepted into queue [q], oldest first: pair object, event object
    that will be delivered, machine the event was fired on. *)
Definition accepted (q : qid) (tr : trace) : list (pid * option (eid * mid)) :=
  flat_map (fun to => match snd to with
                      | OOffer q' p _ _ e' m => if Nat.eqb q' q then [(p, Some (e', m))] else []
                      | _ => []
                      end) tr.
(** The pairs taken from queue [q] for processing, oldest first, with the
    content the taking thread finds. *)
Definition taken (q : qid) (tr : trace) : list (pid * option (eid * mid)) :=
  flat_map (fun to => match snd to with
                      | OTake q' p c => if Nat.eqb q' q then [(p, c)] else []
                      | _ => []
                      end) tr.

(** The pairs being processed: taken and not yet given back, with the thread. *)
Definition tp_eq_dec (a b : tid * pid) : {a = b} + {a <> b}.
Proof. decide equality; [apply Nat.eq_dec|apply tid_eq_dec]. Defined.
Definition inproc_step (l : list (tid * pid)) (to : tid * obs) : list (tid * pid) :=
  match snd to with
  | OTake _ p _ => (fst to, p) :: l
  | OWr (WrGive _ p) => remove tp_eq_dec (fst to, p) l
  | _ => l
  end.
Definition inproc (tr : trace) : list (tid * pid) := fold_left inproc_step tr [].

(** The pair objects in the hands of threads: got from the pool (or new) and
    not yet queued, or taken from a queue and not yet given back. *)
Definition hands_step (l : list (tid * pid)) (to : tid * obs) : list (tid * pid) :=
  match snd to with
  | OWr (WrGot p) | OTake _ p _ => (fst to, p) :: l
  | OWr (WrGive _ p) | OOffer _ p _ _ _ _ => remove tp_eq_dec (fst to, p) l
  | _ => l
  end.
Definition hands (tr : trace) : list (tid * pid) := fold_left hands_step tr [].

(** Where a pair object can be. *)
Inductive place : Set := PFresh | PPool (l : plid) | PQueue (q : qid) | PHeld (t : tid).
