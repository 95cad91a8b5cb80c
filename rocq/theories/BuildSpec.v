(** * BuildSpec.v: vocabulary of the properties about building (specification) *)
From Verif Require Export Build.

(** user object n was given to field f of Config c by some builder thread *)
Definition given (progs : nat -> list bop) (c : cid) (f : field) (n : nat) : Prop :=
  exists i u, c = CUser u /\ In (OWith u f (Some n)) (progs i).
(** nobody sets field f of Config c *)
Definition never_set (progs : nat -> list bop) (c : cid) (f : field) : Prop :=
  forall i u v, c = CUser u -> ~ In (OWith u f v) (progs i).
(** builder thread i is inside the creation of a strategy from Config c *)
Definition creating (s : bsys) (i : nat) (c : cid) : Prop :=
  match b_ph (threads s i) with PGet fr _ _ | PMax fr | PNewS fr => fr_conf fr = c | _ => False end.
(** strategy number d was created from Config c *)
Definition made_from (s : bsys) (d : nat) (c : cid) : Prop := exists x, nth_error (dstrats s) d = Some x /\ d_from x = Some c.
(** the object in field f of strategy number d *)
Definition holds (s : bsys) (d : nat) (f : field) (o : option obj) : Prop := exists x, nth_error (dstrats s) d = Some x /\ d_obj x f = o.
(** machine m was built with strategy number d *)
Definition built_with (s : bsys) (m : mid) (d : nat) : Prop := exists b, nth_error (machines s) m = Some (b, d).

(** every call is a build() without setting a strategy *)
Definition only_builds (progs : nat -> list bop) : Prop := forall i op, In op (progs i) -> exists b, op = OBuild b.
(** throughout the schedule, at most one thread at a time is inside the creation
    of a strategy from Config c *)
Definition one_by_one (progs : nat -> list bop) (sched : list nat) (c : cid) : Prop :=
  forall s1 s2, sched = s1 ++ s2 -> forall i j, creating (brun progs s1) i c -> creating (brun progs s1) j c -> i = j.
(** builder thread i has made the calls before r and none since *)
Definition finished (s : bsys) (i : nat) (r : list bop) : Prop := threads s i = {| b_ph := Idle; b_todo := r |}.
(** no thread but i touches Config u / assigns variable h / uses Builder b *)
Definition own_conf (progs : nat -> list bop) (i u : nat) : Prop :=
  forall j op, j <> i -> In op (progs j) ->
    match op with OWith u' _ _ | OMax u' _ | OName u' _ | OCreate _ _ (CUser u') => u' <> u | _ => True end.
Definition own_var (progs : nat -> list bop) (i h : nat) : Prop :=
  forall j op, j <> i -> In op (progs j) -> match op with OCreate h' _ _ | ODirect h' _ _ | OWrap h' _ => h' <> h | _ => True end.
Definition own_builder (progs : nat -> list bop) (i b : nat) : Prop :=
  forall j op, j <> i -> In op (progs j) -> match op with OSetStrategy b' _ | OBuild b' => b' <> b | _ => True end.
(** the calls r do not assign h / do not set field f of Config u / do not set the
    strategy of Builder b *)
Definition keeps_var (r : list bop) (h : nat) : Prop :=
  forall op, In op r -> match op with OCreate h' _ _ | ODirect h' _ _ | OWrap h' _ => h' <> h | _ => True end.
Definition keeps_field (r : list bop) (u : nat) (f : field) : Prop := forall v, ~ In (OWith u f v) r.
Definition keeps_builder (r : list bop) (b : nat) : Prop := forall h, ~ In (OSetStrategy b h) r.
(** what a Config that one thread uses looks like after the calls pre: the last
    queue limit and thread name given to it; a field: unset, given, or made by the
    first creation that found it unset, with the thread name of that moment *)
Definition last_max (pre : list bop) (u : nat) : Z :=
  fold_left (fun a op => match op with OMax u' z => if Nat.eqb u' u then z else a | _ => a end) pre (-1)%Z.
Definition last_name (pre : list bop) (u : nat) : option string :=
  fold_left (fun a op => match op with OName u' n => if Nat.eqb u' u then n else a | _ => a end) pre None.
Inductive fstate : Set := FUnset | FGiven (n : nat) | FMade (p : string).
Definition fstep (u : nat) (f : field) (a : option string * fstate) (op : bop) : option string * fstate :=
  match op with
  | OName u' n => if Nat.eqb u' u then (n, snd a) else a
  | OWith u' f' v => if (Nat.eqb u' u && field_eqb f' f)%bool then (fst a, match v with Some n => FGiven n | None => FUnset end) else a
  | OCreate _ _ (CUser u') =>
      if Nat.eqb u' u then (fst a, match snd a with FUnset => FMade (match fst a with Some n => n | None => "state-machine"%string end) | x => x end) else a
  | _ => a
  end.
Definition field_after (pre : list bop) (u : nat) (f : field) : fstate := snd (fold_left (fstep u f) pre (None, FUnset)).
(** object o in field f of Config u, or of a strategy made from it, is as that says *)
Definition as_said (s : bsys) (u : nat) (f : field) (st : fstate) (o : option obj) : Prop :=
  match st with
  | FUnset => o = None
  | FGiven n => o = Some (OUser n)
  | FMade p => exists k, o = Some (OLib k) /\ nth_error (origin s) k = Some (CUser u, f, p)
  end.
(** machine m, running in E, has a strategy of that kind with that limit and those
    objects: the user's object n has number 4n, the object made by the k-th call of
    a constructor in a getter 4k+1 *)
Definition runs_as_said (s : bsys) (E : env) (u : nat) (m : mid) (drop : bool) (limit : Z) (st : field -> fstate) : Prop :=
  let r := strat E (strat_of E m) in
  s_drop r = drop /\ s_max r = limit /\
  s_unmapped r = match st FHandler with FGiven n => UUser n | _ => UDefault end /\
  s_ufl r = match st FFlow with FGiven n => FUser n | _ => FDefault end /\
  match st FExec with
  | FUnset => False
  | FGiven n => s_exec r = 4 * n
  | FMade p => exists k, s_exec r = 4 * k + 1 /\ nth_error (origin s) k = Some (CUser u, FExec, p) /\ n_workers E (s_exec r) = 1
  end /\
  match st FQueue with
  | FUnset => False
  | FGiven n => s_queue r = 4 * n
  | FMade p => exists k, s_queue r = 4 * k + 1 /\ nth_error (origin s) k = Some (CUser u, FQueue, p)
  end.
