(** * LiveSpec.v: vocabulary of the progress properties (specification) *)
From Verif Require Export RaceSpec ApiSpec OwnSpec.

(** the callbacks thread t is inside of at moment h *)
Definition nesting (t : tid) (h : trace) : nat :=
  List.length (filter (fun f : frame => match fst f with FCall _ => true | _ => false end) (fst (scan t h))).
(** thread t is inside no API call, callback or processing of an event *)
Definition at_rest (t : tid) (h : trace) : Prop := exists its, fst (scan t h) = [(FRoot, its)].
(** app service p was told that it may terminate *)
Definition app_released (p : apid) (h : trace) : Prop := exists t, In (t, OWr (WrLatch p)) h.

(** z is the mark that closes what op opened: the return of the same API call or
    callback, the end of the processing of the same pair *)
Definition ends_with (op z : obs) : Prop :=
  match op, z with
  | OInv a, ORet a' _ => a' = a
  | OCall c, OBack c' _ => c' = c
  | OTake q p _, ODone q' p' _ => q' = q /\ p' = p
  | _, _ => False
  end.

(** t is one of the threads of the program *)
Definition exists_in (E : env) (t : tid) : Prop :=
  match t with TClient n => n < n_clients E | TWorker x i => i < n_workers E x end.

(** An endless execution, given by a schedule s: thread [s n] makes the n-th
    step if it can. *)
Section Endless.
  Context (E : env) (w0 : mem) (s : nat -> tid).
  Fixpoint moment (n : nat) : world :=
    match n with O => init_world E w0 | S n => step_or_stay E (moment n) (s n) end.
  Definition history (n : nat) : trace := tr (wm (moment n)).

  (** t gets its turn again and again *)
  Definition fair (t : tid) : Prop := forall n, exists k, n <= k /\ s k = t.
  (** the callbacks running on t do not nest deeper and deeper without end *)
  Definition no_runaway (t : tid) : Prop := exists d, forall n, nesting t (history n) <= d.
  (** app services whose start() t calls may terminate some time *)
  Definition apps_released (t : tid) : Prop :=
    forall n p, In (t, OInv (AAppStart p)) (history n) -> exists n', app_released p (history n').
  Definition goes_on (t : tid) : Prop := fair t /\ no_runaway t /\ apps_released t.
End Endless.

(** executor x drains queue q *)
Definition serves (E : env) (x : xid) (q : qid) : Prop := exists m, exec_of E m = x /\ queue_of E m = q.

(** Queue q is served in an endless execution: every thread gets its turn again
    and again; the executors of the machines with queue q are used for no other
    queue, have a thread and are never shut down; their threads are never caught
    for ever in a callback. *)
Record served (E : env) (w0 : mem) (s : nat -> tid) (q : qid) : Prop := {
  sv_fair : forall t, exists_in E t -> fair s t;
  sv_go : forall x i, serves E x q -> i < n_workers E x -> goes_on E w0 s (TWorker x i);
  sv_some : forall x, serves E x q -> 0 < n_workers E x;
  sv_only : forall x q', serves E x q -> serves E x q' -> q' = q;
  sv_open : forall x n, serves E x q -> ~ shut_at x (history E w0 s n) }.
