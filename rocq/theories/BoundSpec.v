(** * BoundSpec.v: vocabulary of the properties about bounded and
    duplicate-free queues (specification) *)
From Verif Require Export ApiSpec.

(** Thread t has begun to count the events in queue q, has not found max or more,
    and has neither put an event into it nor done anything visible since; [l] is
    what the thread did so far.  In particular the call of the API in which it
    began to count is not over. *)
Definition seen_room (q : qid) (max : Z) (l : list obs) : bool :=
  fold_left (fun b o => match o with
                        | ORd (RdLook q' _) => if Nat.eqb q' q then true else b
                        | ORd (RdSize q' _ n) => if Nat.eqb q' q then andb b (Z.ltb (Z.of_nat n) max) else b
                        | ORd _ | OWr _ => b
                        | _ => false
                        end) l false.
Definition adding (q : qid) (max : Z) (t : tid) (h : trace) : Prop := seen_room q max (thread_obs t h) = true.
(** thread t puts an event into queue q *)
Definition feeds (q : qid) (t : tid) (T : trace) : Prop := exists p e m e' m', In (t, OOffer q p e m e' m') T.

(** Thread t has begun to look for duplicates in queue q and has neither put its event
    into it nor done anything visible since. *)
Definition seen_queue (q : qid) (l : list obs) : bool :=
  fold_left (fun b o => match o with
                        | ORd (RdIter q' _) => if Nat.eqb q' q then true else b
                        | ORd _ | OWr _ => b
                        | _ => false
                        end) l false.
Definition inspecting (q : qid) (t : tid) (h : trace) : Prop := seen_queue q (thread_obs t h) = true.

(** at most k threads satisfy P *)
Definition at_most (k : nat) (P : tid -> Prop) : Prop :=
  forall L, NoDup L -> (forall t, In t L -> P t) -> List.length L <= k.

(** Objects exist before they are used: the name of an event object is only read
    after the object was made.  (Client code of the model may mention any event
    object, Java code cannot.) *)
Definition objects_exist (T : trace) : Prop :=
  forall h t e nm r, T = h ++ (t, ORd (RdName e nm)) :: r -> made e h.

(** the events named nm waiting in queue q at moment h *)
Definition waiting_named (E : env) (w0 : mem) (q : qid) (nm : string) (h : trace) : list (pid * option (eid * mid)) :=
  filter (fun pc => match snd pc with Some (e, _) => String.eqb (name_at E w0 e h) nm | None => false end) (waiting q h).
