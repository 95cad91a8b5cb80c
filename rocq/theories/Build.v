(** * Build.v: model of building strategies and machines
    (strategy/EventProcessingStrategyFactory.java, GenericStateMachine.Builder,
    the constructors of strategy/DefaultEventStrategy.java,
    strategy/DropDuplicateEventStrategy.java and GenericStateMachine)

    Any number of builder threads, each making any sequence of calls; the steps
    are the single reads and writes of shared fields, in any interleaving.
    Simplifications: sequential consistency of the fields; a Config or Builder
    object exists (with default field values) as soon as somebody uses it; the
    Builder's context and listener are left out (plain setters).  Paths are
    relative to /repo/src/main/java/com/webotech/statemachine. *)
From Verif Require Export Mem.

(** the memoised fields of a Config: EventProcessingStrategyFactory.java:63-65, 68 *)
Inductive field : Set := FHandler | FExec | FFlow | FQueue.
Definition field_eqb (a b : field) : bool :=
  match a, b with FHandler, FHandler | FExec, FExec | FFlow, FFlow | FQueue, FQueue => true | _, _ => false end.
(** objects in these fields: made by user code, or by the getters *)
Inductive obj : Set := OUser (n : nat) | OLib (n : nat).
(** Config objects: the private static basicConfig (line 23), those made by user
    code *)
Inductive cid : Set := CBasic | CUser (n : nat).
Definition cid_eqb (a b : cid) : bool :=
  match a, b with CBasic, CBasic => true | CUser n, CUser k => Nat.eqb n k | _, _ => false end.
(** Config: EventProcessingStrategyFactory.java:59-68 *)
Record conf : Set := { c_obj : field -> option obj; c_max : Z; c_tname : option string }.
Definition conf0 : conf := {| c_obj := fun _ => None; c_max := -1; c_tname := None |}.

(** DefaultEventStrategy objects: their final fields
    (DefaultEventStrategy.java:20-25, 60-65); [d_from]: the Config they were made
    from (log); [d_states]: the machine whose map was set last (lines 107-109) *)
Record dstrat : Set :=
  { d_from : option cid; d_obj : field -> option obj; d_max : Z; d_pool : nat; d_states : option mid }.
(** a strategy reference: a DefaultEventStrategy, or a DropDuplicateEventStrategy
    (true) around it (DropDuplicateEventStrategy.java:33-35) *)
Definition sref : Set := (bool * nat)%type.

(** calls of builder threads; strategies live in variables (handles) *)
Inductive bop : Set :=
| OWith (u : nat) (f : field) (v : option nat)  (** withExecutor etc.: lines 70-95 *)
| OMax (u : nat) (z : Z)                        (** withMaxQueueSize: lines 97-100 *)
| OName (u : nat) (n : option string)           (** withThreadName: lines 102-105 *)
| OCreate (h : nat) (drop : bool) (c : cid)     (** createDefaultStrategy, createDropDuplicateStrategy: lines 29-47 *)
| ODirect (h : nat) (o : field -> nat) (z : Z)  (** new DefaultEventStrategy(...): DefaultEventStrategy.java:45-50 *)
| OWrap (h h' : nat)                            (** new DropDuplicateEventStrategy(h') *)
| OSetStrategy (b : nat) (h : option nat)       (** Builder.setEventProcessingStrategy: GenericStateMachine.java:352-356 *)
| OBuild (b : nat).                             (** Builder.build: GenericStateMachine.java:366-372 *)

(** inside a getter: the null test, the assignment, the final read
    (EventProcessingStrategyFactory.java:107-113 and the like) *)
Inductive gst : Set := GTest | GWrite | GRead.
Inductive dest : Set := ToHandle (h : nat) | ToBuilder (b : nat).
(** a call of newDefaultStrategy (lines 49-52): where its result goes, the
    arguments evaluated so far *)
Record frame : Set := { fr_drop : bool; fr_conf : cid; fr_into : dest; fr_loc : field -> option obj; fr_max : Z }.
Inductive phase : Set :=
| Idle                              (** about to make the next call *)
| PGet (fr : frame) (f : field) (g : gst)
| PMax (fr : frame)                 (** config.getMaxQueueSize() *)
| PNewS (fr : frame)                (** new DefaultEventStrategy<>(...) *)
| PStore (b : nat) (k : sref)       (** eventProcessingStrategy = ...: GenericStateMachine.java:368 *)
| PRead (b : nat)                   (** reading the field as argument: line 370-371 *)
| PMach (k : sref).                 (** new GenericStateMachine<>(...): lines 43-63 *)
Record bthread : Set := { b_ph : phase; b_todo : list bop }.

(** [origin]: for every object made by a getter, in order: the Config, the field
    and, for executors, the thread name prefix (log) *)
Record bsys : Set :=
  { confs : cid -> conf; origin : list (cid * field * string); dstrats : list dstrat; n_pools : nat;
    handles : nat -> option sref; builders : nat -> option sref; machines : list sref; threads : nat -> bthread }.

Definition bput {A : Set} (f : nat -> A) (k : nat) (v : A) : nat -> A := fun k' => if Nat.eqb k' k then v else f k'.
Definition cput (f : cid -> conf) (k : cid) (v : conf) : cid -> conf := fun k' => if cid_eqb k' k then v else f k'.
Definition fput (f : field -> option obj) (k : field) (v : option obj) : field -> option obj := fun k' => if field_eqb k' k then v else f k'.
Definition set_obj (c : conf) (f : field) (v : option obj) : conf := {| c_obj := fput (c_obj c) f v; c_max := c_max c; c_tname := c_tname c |}.
Definition with_loc (fr : frame) (f : field) (v : option obj) : frame :=
  {| fr_drop := fr_drop fr; fr_conf := fr_conf fr; fr_into := fr_into fr; fr_loc := fput (fr_loc fr) f v; fr_max := fr_max fr |}.
Definition new_frame (drop : bool) (c : cid) (d : dest) : frame :=
  {| fr_drop := drop; fr_conf := c; fr_into := d; fr_loc := fun _ => None; fr_max := 0 |}.

(** the arguments are evaluated in this order: lines 50-51 *)
Definition after_get (f : field) (fr : frame) : phase :=
  match f with
  | FHandler => PGet fr FExec GTest
  | FExec => PGet fr FFlow GTest
  | FFlow => PMax fr
  | FQueue => PNewS fr
  end.
(** the thread name prefix of a new executor: line 118 *)
Definition prefix_of (c : conf) : string := match c_tname c with Some n => n | None => "state-machine" end.

Section Step.
  Context (i : nat) (s : bsys).
  (** thread i goes on in phase p of the same call / finishes its call *)
  Definition stay (p : phase) : nat -> bthread := bput (threads s) i {| b_ph := p; b_todo := b_todo (threads s i) |}.
  Definition fin : nat -> bthread := bput (threads s) i {| b_ph := Idle; b_todo := tl (b_todo (threads s i)) |}.
  Definition upd_threads (t : nat -> bthread) : bsys :=
    {| confs := confs s; origin := origin s; dstrats := dstrats s; n_pools := n_pools s; handles := handles s;
       builders := builders s; machines := machines s; threads := t |}.
  Definition upd_conf (u : cid) (c : conf) (o : list (cid * field * string)) (t : nat -> bthread) : bsys :=
    {| confs := cput (confs s) u c; origin := origin s ++ o; dstrats := dstrats s; n_pools := n_pools s;
       handles := handles s; builders := builders s; machines := machines s; threads := t |}.
  Definition upd_vars (h b : nat -> option sref) (t : nat -> bthread) : bsys :=
    {| confs := confs s; origin := origin s; dstrats := dstrats s; n_pools := n_pools s; handles := h; builders := b;
       machines := machines s; threads := t |}.
  (** DefaultEventStrategy.java:45-66 with a new pool (line 48) *)
  Definition new_strat (c : option cid) (o : field -> option obj) (z : Z) (h : nat -> option sref) (t : nat -> bthread) : bsys :=
    {| confs := confs s; origin := origin s;
       dstrats := dstrats s ++ [{| d_from := c; d_obj := o; d_max := z; d_pool := n_pools s; d_states := None |}];
       n_pools := S (n_pools s); handles := h; builders := builders s; machines := machines s; threads := t |}.
  (** setStates: DefaultEventStrategy.java:107-109, DropDuplicateEventStrategy.java:52-54 *)
  Definition set_states (d : nat) (m : mid) : list dstrat :=
    match nth_error (dstrats s) d with
    | None => dstrats s
    | Some x => firstn d (dstrats s) ++
        {| d_from := d_from x; d_obj := d_obj x; d_max := d_max x; d_pool := d_pool x; d_states := Some m |} :: skipn (S d) (dstrats s)
    end.

  Definition bstep : bsys :=
    let t := threads s i in
    match b_ph t, b_todo t with
    | _, [] => s
    | Idle, op :: _ =>
        match op with
        | OWith u f v => upd_conf (CUser u) (set_obj (confs s (CUser u)) f (option_map OUser v)) [] fin
        | OMax u z => upd_conf (CUser u) {| c_obj := c_obj (confs s (CUser u)); c_max := z; c_tname := c_tname (confs s (CUser u)) |} [] fin
        | OName u n => upd_conf (CUser u) {| c_obj := c_obj (confs s (CUser u)); c_max := c_max (confs s (CUser u)); c_tname := n |} [] fin
        | OCreate h drop c => upd_threads (stay (PGet (new_frame drop c (ToHandle h)) FHandler GTest))
        | ODirect h o z => new_strat None (fun f => Some (OUser (o f))) z (bput (handles s) h (Some (false, List.length (dstrats s)))) fin
        | OWrap h h' =>
            match handles s h' with
            | Some (false, d) => upd_vars (bput (handles s) h (Some (true, d))) (builders s) fin
            | _ => upd_threads fin
            end
        | OSetStrategy b h => upd_vars (handles s) (bput (builders s) b (match h with Some h => handles s h | None => None end)) fin
        | OBuild b => (** if (eventProcessingStrategy == null): GenericStateMachine.java:367-369, default strategy from basicConfig *)
            match builders s b with
            | None => upd_threads (stay (PGet (new_frame false CBasic (ToBuilder b)) FHandler GTest))
            | Some _ => upd_threads (stay (PRead b))
            end
        end
    | PGet fr f GTest, _ => (** if (field == null) *)
        upd_threads (stay (PGet fr f (match c_obj (confs s (fr_conf fr)) f with None => GWrite | Some _ => GRead end)))
    | PGet fr f GWrite, _ => (** field = new ...; *)
        upd_conf (fr_conf fr) (set_obj (confs s (fr_conf fr)) f (Some (OLib (List.length (origin s)))))
          [(fr_conf fr, f, prefix_of (confs s (fr_conf fr)))] (stay (PGet fr f GRead))
    | PGet fr f GRead, _ => (** return field; *)
        upd_threads (stay (after_get f (with_loc fr f (c_obj (confs s (fr_conf fr)) f))))
    | PMax fr, _ =>
        upd_threads (stay (PGet {| fr_drop := fr_drop fr; fr_conf := fr_conf fr; fr_into := fr_into fr; fr_loc := fr_loc fr;
                                   fr_max := c_max (confs s (fr_conf fr)) |} FQueue GTest))
    | PNewS fr, _ =>
        let k := (fr_drop fr, List.length (dstrats s)) in
        match fr_into fr with
        | ToHandle h => new_strat (Some (fr_conf fr)) (fr_loc fr) (fr_max fr) (bput (handles s) h (Some k)) fin
        | ToBuilder b => new_strat (Some (fr_conf fr)) (fr_loc fr) (fr_max fr) (handles s) (stay (PStore b k))
        end
    | PStore b k, _ => upd_vars (handles s) (bput (builders s) b (Some k)) (stay (PRead b))
    | PRead b, _ =>
        match builders s b with
        | None => upd_threads fin (** NullPointerException in the constructor: GenericStateMachine.java:58 *)
        | Some k => upd_threads (stay (PMach k))
        end
    | PMach k, _ => (** the constructor; setStates: GenericStateMachine.java:59 *)
        {| confs := confs s; origin := origin s; dstrats := set_states (snd k) (List.length (machines s)); n_pools := n_pools s;
           handles := handles s; builders := builders s; machines := machines s ++ [k]; threads := fin |}
    end.
End Step.

(** an execution: builder thread i makes the calls [progs i] *)
Definition bsys0 (progs : nat -> list bop) : bsys :=
  {| confs := fun _ => conf0; origin := []; dstrats := []; n_pools := 0; handles := fun _ => None; builders := fun _ => None;
     machines := []; threads := fun i => {| b_ph := Idle; b_todo := progs i |} |}.
Definition brun (progs : nat -> list bop) (sched : list nat) : bsys := fold_left (fun s i => bstep i s) sched (bsys0 progs).

(** ** The environment (Mem.v) in which the machines built then run: user
    objects, objects made by getters, machines never built and null references
    get different numbers.  An executor made by getExecutor has one thread
    (EventProcessingStrategyFactory.java:117). *)
Definition obj_num (d : nat) (o : option obj) : nat :=
  match o with Some (OUser n) => 4 * n | Some (OLib n) => 4 * n + 1 | None => 4 * d + 3 end.
Definition strat_rec (drop : bool) (d : nat) (x : dstrat) : strategy :=
  {| s_drop := drop; s_exec := obj_num d (d_obj x FExec); s_queue := obj_num d (d_obj x FQueue); s_pool := 2 * d_pool x;
     s_max := d_max x;
     s_unmapped := match d_obj x FHandler with Some (OUser n) => UUser n | _ => UDefault end;
     s_ufl := match d_obj x FFlow with Some (OUser n) => FUser n | _ => FDefault end;
     s_states := match d_states x with Some m => m | None => 0 end |}.
Definition strat_absent (m : nat) : strategy :=
  {| s_drop := false; s_exec := 4 * m + 2; s_queue := 4 * m + 2; s_pool := 2 * m + 1; s_max := -1; s_unmapped := UDefault;
     s_ufl := FDefault; s_states := m |}.
(** numbers of strategy references: 4d and 4d+1; 4m+2 for a machine never built *)
Definition strat_num (k : sref) : nat := 4 * snd k + (if fst k then 1 else 0).
Definition env_of (s : bsys) (rest : env) : env :=
  {| st_name := st_name rest; ev_name := ev_name rest;
     strat_of := fun m => match nth_error (machines s) m with Some k => strat_num k | None => 4 * m + 2 end;
     strat := fun n => match n mod 4, nth_error (dstrats s) (n / 4) with
                       | 0, Some x => strat_rec false (n / 4) x
                       | 1, Some x => strat_rec true (n / 4) x
                       | _, _ => strat_absent (n / 4)
                       end;
     apps := apps rest; behav := behav rest; clients := clients rest; n_clients := n_clients rest; n_execs := n_execs rest;
     n_workers := fun x => if Nat.eqb (x mod 4) 1 then 1 else n_workers rest x; chance := chance rest |}.
