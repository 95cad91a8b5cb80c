(** * AppBuildSpec.v: vocabulary of the properties about the construction of app
    services (specification) *)
From Verif Require Export BuildSpec AppBuild ExactSpec AppLiveSpec.

(** call op uses Config u, variable h or Builder b *)
Definition uses (u h b : nat) (op : bop) : Prop :=
  match op with
  | OWith u' _ _ | OMax u' _ | OName u' _ => u' = u
  | OCreate h' _ c => h' = h \/ c = CUser u
  | ODirect h' _ _ => h' = h
  | OWrap h1 h2 => h1 = h \/ h2 = h
  | OSetStrategy b' v => b' = b \/ v = Some h
  | OBuild b' => b' = b
  end.
(** thread i runs the constructor of an app service between the calls before and
    after; the objects the constructor makes are its own *)
Record constructs (progs : nat -> list bop) (i : nat) (before : list bop) (u h b : nat) (n : option string) (after : list bop) : Prop := {
  k_prog : progs i = before ++ app_constructor u h b n ++ after;
  k_before : forall op, In op before -> ~ uses u h b op;
  k_after : forall op, In op after -> ~ uses u h b op;
  k_others : forall j op, j <> i -> In op (progs j) -> ~ uses u h b op }.

(** the thread name given to an app context by calls of withAppThreadName, in this
    order: the one given last; "app" if none is, "state-machine" if that is null *)
Inductive named_by : list (option string) -> string -> Prop :=
| n_none : named_by [] "app"
| n_last l x : named_by (l ++ [Some x]) x
| n_null l : named_by (l ++ [None]) "state-machine".

(** the rest of the constructor (AbstractAppService.java:61-63, 66-108) has been
    run for app service p in memory w0: its machine is configured, the entry
    actions of its states are set, nothing else has been done to them *)
Record app_configured (E : env) (w0 : mem) (p : apid) : Prop := {
  ac_cfg : m_cfg (machs w0 (ap_mach (apps E p))) = cfg_run (sname E) (ename0 E) (ap_mach (apps E p)) (lifecycle_calls p);
  ac_entry : forall k, acts w0 true (SApp p k) = app_entry_actions p k;
  ac_exit : forall k, acts w0 false (SApp p k) = [];
  ac_end : acts w0 true (SEnd (ap_mach (apps E p))) = [];
  ac_void : forall l, pays w0 (ELife l) = None;
  ac_alone : forall p', ap_mach (apps E p') = ap_mach (apps E p) -> p' = p }.
