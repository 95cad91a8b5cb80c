(** * Threads.v: model of util/Threads.java

    Any number of creator threads call newThread() of any factories, under any
    schedule.  The steps are the statements of newThread; getAndIncrement is
    atomic.  Not modelled: the default name of a thread before setName, thread
    groups, and the runnable. *)
From Coq Require Export ZArith List String.
From Coq Require Import DecimalString.
Export ListNotations.

(** java int overflow: the AtomicInteger of Threads.java:29 *)
Definition wrap32 (z : Z) : Z := (z + 2 ^ 31) mod 2 ^ 32 - 2 ^ 31.

(** Integer.toString, as String.format does for %s (Threads.java:46) *)
Definition dec_text (z : Z) : string := NilZero.string_of_int (Z.to_int z).

(** NamedDaemonThreadFactory: Threads.java:30-42; the name may be null; without
    the second argument the handler is null (lines 21-23, 40-42) *)
Record factory : Set := { f_name : option string; f_handler : option nat }.
Definition newNamedDaemonThreadFactory (n : option string) (h : option nat) : factory := {| f_name := n; f_handler := h |}.
Definition newNamedDaemonThreadFactory1 (n : option string) : factory := newNamedDaemonThreadFactory n None.

(** String.format("%s-%s", threadName, number): Threads.java:28, 46 *)
Definition text (n : option string) : string := match n with Some s => s | None => "null" end.
Definition format_name (n : option string) (z : Z) : string := text n ++ "-" ++ dec_text z.

(** java.lang.Thread: the attributes newThread sets *)
Record thread : Set := { th_name : option string; th_daemon : bool; th_handler : option nat }.
(** new Thread(runnable): Threads.java:45; a new thread is a daemon if its
    creator is ([inherit]) *)
Definition new_thread (inherit : bool) : thread := {| th_name := None; th_daemon := inherit; th_handler := None |}.

(** a creator thread inside newThread: the next statement, the Thread object and
    the number it got (Threads.java:45-49) *)
Inductive pc : Set :=
| PNew | PNumber (k : nat) | PName (k : nat) (z : Z) | PDaemon (k : nat) | PHandler (k : nat) | PReturn (k : nat).
(** a creator: where it is, and the factories whose newThread it still calls (the
    head of the list is the current call) *)
Record creator : Set := { c_pc : pc; c_todo : list factory }.
(** [made]: the calls that returned: creator, factory and Thread object *)
Record tsys : Set :=
  { counter : Z; objects : nat -> thread; n_objects : nat; creators : nat -> creator; made : list (nat * factory * nat) }.

Definition upd {A} (f : nat -> A) (k : nat) (v : A) : nat -> A := fun k' => if Nat.eqb k' k then v else f k'.

(** newThread, one statement at a time: Threads.java:45-49 *)
Definition tstep (inherit : nat -> bool) (i : nat) (s : tsys) : tsys :=
  let c := creators s i in
  match c_todo c with
  | [] => s
  | f :: r =>
      let at_ p := upd (creators s) i {| c_pc := p; c_todo := f :: r |} in
      let set_ k t p := {| counter := counter s; objects := upd (objects s) k t; n_objects := n_objects s;
                           creators := at_ p; made := made s |} in
      match c_pc c with
      | PNew => (** Thread thread = new Thread(runnable): line 45 *)
          {| counter := counter s; objects := upd (objects s) (n_objects s) (new_thread (inherit i)); n_objects := S (n_objects s);
             creators := at_ (PNumber (n_objects s)); made := made s |}
      | PNumber k => (** threadNumber.getAndIncrement(): line 46 *)
          {| counter := wrap32 (counter s + 1); objects := objects s; n_objects := n_objects s;
             creators := at_ (PName k (counter s)); made := made s |}
      | PName k z => (** thread.setName(String.format(...)): line 46 *)
          set_ k {| th_name := Some (format_name (f_name f) z); th_daemon := th_daemon (objects s k); th_handler := th_handler (objects s k) |} (PDaemon k)
      | PDaemon k => (** thread.setDaemon(true): line 47 *)
          set_ k {| th_name := th_name (objects s k); th_daemon := true; th_handler := th_handler (objects s k) |} (PHandler k)
      | PHandler k => (** thread.setUncaughtExceptionHandler(...): line 48 *)
          set_ k {| th_name := th_name (objects s k); th_daemon := th_daemon (objects s k); th_handler := f_handler f |} (PReturn k)
      | PReturn k => (** return thread: line 49 *)
          {| counter := counter s; objects := objects s; n_objects := n_objects s;
             creators := upd (creators s) i {| c_pc := PNew; c_todo := r |}; made := made s ++ [(i, f, k)] |}
      end
  end.

(** an execution: creator i calls newThread of the factories [calls i] *)
Definition tsys0 (calls : nat -> list factory) : tsys :=
  {| counter := 0; objects := fun _ => new_thread false; n_objects := 0;
     creators := fun i => {| c_pc := PNew; c_todo := calls i |}; made := [] |}.
Definition trun (inherit : nat -> bool) (calls : nat -> list factory) (sched : list nat) : tsys :=
  fold_left (fun s i => tstep inherit i s) sched (tsys0 calls).
