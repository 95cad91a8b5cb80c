(** * PropsThreads.v: thread names (C32) and attributes (C46) *)
From Verif Require Import Threads ThreadsSpec ThreadsProofs.
Open Scope string_scope.

(** ** C32 *)
(** As long as at most 2^31 Thread objects were created, by any creators through
    any factories, two threads returned by newThread() have different names. *)
Theorem C32_unique :
  forall inherit calls sched a b i f k i' f' k',
    let s := trun inherit calls sched in
    (Z.of_nat (n_objects s) <= 2 ^ 31)%Z -> a <> b ->
    nth_error (made s) a = Some (i, f, k) -> nth_error (made s) b = Some (i', f', k') ->
    th_name (objects s k) <> th_name (objects s k').
Proof. exact unique. Qed.
Print Assumptions C32_unique.

(** The name is the one the factory was made with (null is written "null"), a
    dash, and a number in decimal. *)
Theorem C32_form :
  forall inherit calls sched i f k nm h,
    let s := trun inherit calls sched in
    In (i, f, k) (made s) -> (Z.of_nat (n_objects s) <= 2 ^ 31)%Z ->
    f = newNamedDaemonThreadFactory nm h \/ f = newNamedDaemonThreadFactory1 nm ->
    exists n, n < n_objects s /\ th_name (objects s k) = Some (name_and_number nm n).
Proof. exact named. Qed.
Print Assumptions C32_form.

(** For one name prefix the names differ for 2^32 threads. *)
Theorem C32_unique_per_prefix :
  forall inherit calls sched a b i f k i' f' k',
    let s := trun inherit calls sched in
    (Z.of_nat (n_objects s) <= 2 ^ 32)%Z -> a <> b ->
    nth_error (made s) a = Some (i, f, k) -> nth_error (made s) b = Some (i', f', k') ->
    f_name f = f_name f' -> th_name (objects s k) <> th_name (objects s k').
Proof. exact unique_prefix. Qed.
Print Assumptions C32_unique_per_prefix.

(** Names can collide after the counter has wrapped (a prefix ending in a dash,
    and a negative number). *)
Theorem C32_always_unique_refuted :
  ~ forall inherit calls sched a b i f k i' f' k', a <> b ->
    nth_error (made (trun inherit calls sched)) a = Some (i, f, k) ->
    nth_error (made (trun inherit calls sched)) b = Some (i', f', k') ->
    th_name (objects (trun inherit calls sched) k) <> th_name (objects (trun inherit calls sched) k').
Proof. exact beyond. Qed.
Print Assumptions C32_always_unique_refuted.

(** ** C46: every thread made by a factory is a daemon and has the handler the
    factory was made with, none if it was made without; however many threads
    there are *)
Theorem C46_daemon_with_handler :
  forall inherit calls sched i f k nm h,
    let s := trun inherit calls sched in
    In (i, f, k) (made s) ->
    (f = newNamedDaemonThreadFactory nm h -> th_daemon (objects s k) = true /\ th_handler (objects s k) = h) /\
    (f = newNamedDaemonThreadFactory1 nm -> th_daemon (objects s k) = true /\ th_handler (objects s k) = None).
Proof. exact daemons. Qed.
Print Assumptions C46_daemon_with_handler.

(** two creators interleaved; the second creates first but numbers last *)
Definition ex_calls (i : nat) : list factory :=
  match i with
  | 0 => [newNamedDaemonThreadFactory (Some "p") (Some 7); newNamedDaemonThreadFactory1 None]
  | 1 => [newNamedDaemonThreadFactory1 (Some "p-1")]
  | _ => []
  end.
Example C32_example :
  let s := trun (fun _ => false) ex_calls [1; 0; 0; 0; 1; 0; 1; 0; 0; 1; 1; 1; 0; 0; 0; 0; 0; 0] in
  (Z.of_nat (n_objects s) <= 2 ^ 31)%Z /\
  map (fun x => (fst (fst x), th_name (objects s (snd x)), th_daemon (objects s (snd x)), th_handler (objects s (snd x)))) (made s) =
    [(0, Some "p-0", true, Some 7); (1, Some "p-1-1", true, None); (0, Some "null-2", true, None)].
Proof. vm_compute. split; [discriminate|reflexivity]. Qed.
