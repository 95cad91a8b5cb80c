(** * AppLiveSpec.v: the life of an app service (specification) *)
From Verif Require Export LiveSpec CallSpec ExactSpec Lifecycle.

(** ** The app service after its constructor: its machine with a queue, table and
    one thread of its own, an unbounded queue that takes every event, the
    lifecycle configuration, the entry actions of the five states *)
Record app_built (E : env) (w0 : mem) (p : apid) : Prop := {
  ab_queue : private_queue E (ap_mach (apps E p));
  ab_thread : one_thread E (ap_mach (apps E p));
  ab_table : table_of E (ap_mach (apps E p)) = ap_mach (apps E p);
  ab_keep : s_drop (strat E (strat_of E (ap_mach (apps E p)))) = false;
  ab_unbounded : (s_max (strat E (strat_of E (ap_mach (apps E p)))) <= 0)%Z;
  ab_cfg : m_cfg (machs w0 (ap_mach (apps E p))) = cfg_run (sname E) (ename0 E) (ap_mach (apps E p)) (lifecycle_calls p);
  ab_entry : forall k, acts w0 true (SApp p k) = app_entry_actions p k;
  ab_exit : forall k, acts w0 false (SApp p k) = [];
  ab_end : acts w0 true (SEnd (ap_mach (apps E p))) = [];
  ab_void : forall l, pays w0 (ELife l) = None;
  ab_alone : forall p', ap_mach (apps E p') = ap_mach (apps E p) -> p' = p }.

(** ** Nobody but the app service itself deals with its machine *)
(** calls that do: besides those on the machine, error(), withSubsystems() of the
    context of the app, appending actions and giving the Void events a payload *)
Definition meddles (E : env) (p : apid) (x : api) : Prop :=
  match x with
  | AFire m _ | AStart m | AStartIn m _ | AStop m | ASetListener m _ | ACfg m _ => m = ap_mach (apps E p)
  | AAppError p' | ASetSubs p' _ => p' = p
  | AAppend _ _ _ => True
  | ASetPay (ELife _) _ => True
  | _ => False
  end.
(** action a is one of those the app service made for its states *)
Fixpoint mentions (p : apid) (a : action) : Prop :=
  match a with
  | AUser _ => False
  | AHandle a' h => mentions p a' \/ h = HApp p
  | AAppStarting p' | AAppStarted p' | AAppStopping p' | AAppStopped p' => p' = p
  end.
(** number of calls of start(), of stop() of app service p made in h *)
Definition starts_p (p : apid) (o : obs) : bool := match o with OInv (AAppStart p') => Nat.eqb p' p | _ => false end.
Definition stops_p (p : apid) (o : obs) : bool := match o with OInv (AAppStop p') => Nat.eqb p' p | _ => false end.
Definition asked (f : obs -> bool) (h : trace) : nat := List.length (filter f (map snd h)).
(** the marks of the subsystems of p, in order *)
Definition is_sub (p : apid) (o : obs) : bool :=
  match o with OCall (KSub _ p' _) | OBack (KSub _ p' _) _ => Nat.eqb p' p | _ => false end.
Definition subsystem_marks (p : apid) (h : trace) : list obs := filter (is_sub p) (map snd h).
(** the subsystems started one after the other; stopped in reverse order *)
Definition all_started (E : env) (p : apid) : list obs := flat_map (fun i => called (KSub true p i) None) (ap_subs (apps E p)).
Definition all_stopped (E : env) (p : apid) : list obs := flat_map (fun i => called (KSub false p i) None) (rev (ap_subs (apps E p))).

(** ** Calls of start() and stop() in turn *)
(** start() is called first; stop() only when the last call was one of start() and
    the machine has been in STARTED since then; start() again only when the last
    call was one of stop() and the machine has been in STOPPED since then *)
Definition asks_p (p : apid) (o : obs) : bool := orb (starts_p p o) (stops_p p o).
Definition seen_since (E : env) (p : apid) (k : appst) (a : trace) : Prop :=
  exists b c, a = b ++ c /\ asked (asks_p p) c = 0 /\ cur_at (ap_mach (apps E p)) b = Some (SApp p k).
Definition in_turn (E : env) (p : apid) (h : trace) : Prop := forall a t o r, h = a ++ (t, o) :: r ->
  (starts_p p o = true -> asked (asks_p p) a = 0 \/ (Nat.Even (asked (asks_p p) a) /\ seen_since E p STOPPED a)) /\
  (stops_p p o = true -> Nat.Odd (asked (asks_p p) a) /\ seen_since E p STARTED a).

(** started and stopped c times *)
Fixpoint rounds (E : env) (p : apid) (c : nat) : list obs :=
  match c with 0 => [] | S c' => rounds E p c' ++ all_started E p ++ all_stopped E p end.

Inductive fate : Set := AllGo | NoStart | NoStop | Again.
(** the marks of a round over the subsystems that ends with the first that throws *)
Definition broken_off (E : env) (p : apid) (up : bool) (l : list obs) : Prop :=
  exists l1 i l2 y, (if up then ap_subs (apps E p) else rev (ap_subs (apps E p))) = l1 ++ i :: l2 /\ is_exception y = true /\
    l = flat_map (fun j => called (KSub up p j) None) l1 ++ called (KSub up p i) (Some y).

Section Life.
  Context (E : env) (w0 : mem) (s : nat -> tid) (p : apid).
  Notation T := (LiveSpec.history E w0 s).
  Notation m := (ap_mach (apps E p)).

  (** In the whole execution: nobody meddles; the actions of the app service run
      on its machine only; no subsystem and no listener of the machine throws;
      start() is not interrupted while it waits; stop() is called at most once; start() too, if the app could be restarted *)
  Record left_alone : Prop := {
    la_none : forall n t x, In (t, OInv x) (T n) -> ~ meddles E p x;
    la_own : forall n t c a e m', In (t, OCall c) (T n) -> performs c a e m' -> mentions p a -> m' = m;
    la_subs : forall n t b i y, ~ In (t, OBack (KSub b p i) (Some y)) (T n);
    la_listen : forall n t fin l f e st y, ~ In (t, OBack (KListen fin l m f e st) (Some y)) (T n);
    la_await : forall n t, ~ In (t, OWr (WrAwait p true)) (T n);
    la_stop : forall n, asked (stops_p p) (T n) <= 1;
    la_start : ap_exit (apps E p) = true \/ forall n, asked (starts_p p) (T n) <= 1 }.

  (** ** The same, for a restartable app that is started and stopped again and again *)
  Record asked_in_turn : Prop := {
    at_none : forall n t x, In (t, OInv x) (T n) -> ~ meddles E p x;
    at_own : forall n t c a e m', In (t, OCall c) (T n) -> performs c a e m' -> mentions p a -> m' = m;
    at_subs : forall n t b i y, ~ In (t, OBack (KSub b p i) (Some y)) (T n);
    at_listen : forall n t fin l f e st y, ~ In (t, OBack (KListen fin l m f e st) (Some y)) (T n);
    at_await : forall n t, ~ In (t, OWr (WrAwait p true)) (T n);
    at_exit : ap_exit (apps E p) = false;
    at_turn : forall n, in_turn E p (T n) }.

  (** ** The same, with subsystems that fail *)
  (** What becomes of the subsystems: all go, both ways, once (AllGo) or again and
      again (Again); or one of them never starts, start() of it never returns
      normally (NoStart); or all of them start and one never stops (NoStop).
      Nothing but Exceptions comes out of them *)
  Definition subs_fate (f : fate) (h : trace) : Prop :=
    (forall t b i y, In (t, OBack (KSub b p i) (Some y)) h -> is_exception y = true) /\
    match f with
    | AllGo | Again => forall t b i y, ~ In (t, OBack (KSub b p i) (Some y)) h
    | NoStart => exists i, In i (ap_subs (apps E p)) /\ forall t, ~ In (t, OBack (KSub true p i) None) h
    | NoStop => (forall t i y, ~ In (t, OBack (KSub true p i) (Some y)) h) /\
        exists i, In i (ap_subs (apps E p)) /\ forall t, ~ In (t, OBack (KSub false p i) None) h
    end.
  (** as [left_alone], but for the subsystems and the number of calls of stop():
      any number, if the app can neither start nor be restarted; none, if it
      cannot start and could be restarted; in turn with start(), if it is
      restarted again and again *)
  Record left_to_fate (f : fate) : Prop := {
    lf_none : forall n t x, In (t, OInv x) (T n) -> ~ meddles E p x;
    lf_own : forall n t c a e m', In (t, OCall c) (T n) -> performs c a e m' -> mentions p a -> m' = m;
    lf_subs : forall n, subs_fate f (T n);
    lf_listen : forall n t fin l f e st y, ~ In (t, OBack (KListen fin l m f e st) (Some y)) (T n);
    lf_await : forall n t, ~ In (t, OWr (WrAwait p true)) (T n);
    lf_stop : forall n, match f with
      | NoStart => ap_exit (apps E p) = true \/ asked (stops_p p) (T n) = 0
      | Again => ap_exit (apps E p) = false
      | _ => asked (stops_p p) (T n) <= 1
      end;
    lf_start : match f with
      | Again => forall n, in_turn E p (T n)
      | _ => ap_exit (apps E p) = true \/ forall n, asked (starts_p p) (T n) <= 1
      end }.

  (** threads that call start() get their turn again and again and are not caught
      for ever in a callback or in the start() of another app service *)
  Definition starters_go_on : Prop := forall n t, In (t, OInv (AAppStart p)) (T n) ->
    fair s t /\ no_runaway E w0 s t /\
    forall n' p', p' <> p -> In (t, OInv (AAppStart p')) (T n') -> exists n'', app_released p' (T n'').
  (** thread t gets its turn again and again and is not caught for ever in a callback,
      in the start() of another app service or in the first start() of this one *)
  Definition caller_goes_on (t : tid) : Prop :=
    fair s t /\ no_runaway E w0 s t /\
    (forall n' p', p' <> p -> In (t, OInv (AAppStart p')) (T n') -> exists n'', app_released p' (T n'')) /\
    forall n' a r, T n' = a ++ (t, OInv (AAppStart p)) :: r -> 0 < asked (starts_p p) a.
End Life.
