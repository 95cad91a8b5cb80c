(** * Demo.v: concrete environments and executions, used by the Examples and
    by the witness executions of the refuted expectations *)
From Verif Require Export Sched Lifecycle.

Definition demo_st (n : nat) : string := nth n ["A"; "B"; "C"; "D"] "S"%string.
Definition demo_ev (n : nat) : string := nth n ["e0"; "e1"; "e2"; "e3"; "_immediate_"] "e"%string.

(** a strategy of its own for machine k: own queue, executor, pool, table *)
Definition own_strat (k : nat) : strategy :=
  {| s_drop := false; s_exec := k; s_queue := k; s_pool := k; s_max := 0;
     s_unmapped := UUser 0; s_ufl := FUser 0; s_states := k |}.
Definition demo_app (p : nat) : app :=
  {| ap_mach := p; ap_exit := true; ap_subs := [0; 1]; ap_name := "app"; ap_args := [] |}.

(** client programs: API calls one after the other, results ignored *)
Fixpoint calls (l : list api) : uprog :=
  match l with [] => URet | a :: r => UDo a (fun _ => calls r) end.

Definition demo (st : stid -> strategy) (so : mid -> stid) (ap : apid -> app)
    (bh : call -> trace -> uprog) (cl : list (list api)) (nw : xid -> nat) : env :=
  {| st_name := demo_st; ev_name := demo_ev; strat_of := so; strat := st; apps := ap;
     behav := bh; clients := fun n => calls (nth n cl []); n_clients := List.length cl;
     n_execs := 10; n_workers := nw; chance := fun _ => 0 |}.

Definition demo_mem (E : env) (os : mid -> list cop) (lis : mid -> option listener)
    (ac : bool -> sid -> list action) (py : eid -> option payload) : mem :=
  {| machs := fun m => {| m_started := false; m_ended := false; m_cur := None; m_listener := lis m;
                          m_cfg := cfg_run (sname E) (ename0 E) m (os m) |};
     acts := ac; pays := py; cnames := fun _ => ""%string; ncopy := 0; pairs := fun _ => None; npair := 0;
     pools := fun _ => []; queues := fun _ => []; polled := fun _ => 0; tasks := fun _ => []; shut := fun _ => false;
     multis := fun _ => []; latches := fun _ => false; intrs := fun _ => false; subs := fun p => ap_subs (apps E p); tr := [] |}.
Lemma demo_init E os lis ac py : init_mem E (demo_mem E os lis ac py).
Proof. split; simpl; auto; try constructor. intro m. exists (os m). reflexivity. Qed.

(** execution along a schedule; [(t, n)] lets thread t make n steps *)
Definition go (l : list (tid * nat)) : list tid := flat_map (fun tn => repeat (fst tn) (snd tn)) l.
Definition after (E : env) (w0 : mem) (l : list (tid * nat)) : world := run E (init_world E w0) (go l).
Lemma after_reach E w0 l : reach E w0 (after E w0 l).
Proof. exists (go l). reflexivity. Qed.

Notation c0 := (TClient 0).
Notation c1 := (TClient 1).
Notation wk x := (TWorker x 0).

(** user code that does nothing *)
Definition quiet : call -> trace -> uprog := fun _ _ => URet.

(** A --e0--> B --e1--> C (final) *)
Definition abc : list cop :=
  [ CInit (SUser 0); CReceives (EUser 0); CTo (SUser 1);
    CWhen (SUser 1); CReceives (EUser 1); CTo (SUser 2);
    CWhen (SUser 2); CEnds ].
Definition one_act (en : bool) (s : sid) : list action :=
  match s with SUser n => [AUser (if en then 10 + n else n)] | _ => [] end.
Definition a_listener (m : mid) : option listener := Some (LLeaf (LfUser m)).

(** a machine with its own strategy, started and fired upon by one client *)
Definition E1 : env :=
  demo own_strat (fun m => m) demo_app quiet [[AStart 0; AFire 0 (EUser 0); AFire 0 (EUser 1); AQSize 0; AFire 0 (EUser 2)]] (fun _ => 1).
Definition w1 : mem := demo_mem E1 (fun _ => abc) a_listener one_act (fun _ => None).
(** the client runs to its end, then the worker *)
Definition run1 : world := after E1 w1 [(c0, 200); (wk 0, 300)].

(** search a concrete list *)
Ltac find_in := vm_compute; repeat (first [left; reflexivity | right]).

(** A --e0--> B; B: e1 does not transition, e3 --> C (final), e2 not mapped;
    the entry action of C throws if [bad] *)
Definition flow_cfg : list cop :=
  [ CInit (SUser 0); CReceives (EUser 0); CTo (SUser 1);
    CWhen (SUser 1); CReceives (EUser 1); CNoTrans;
    CWhen (SUser 1); CReceives (EUser 3); CTo (SUser 2);
    CWhen (SUser 2); CEnds ].
Definition bad_entry (bad : bool) : call -> trace -> uprog := fun c _ =>
  match c with KAct true (AUser 12) _ _ _ => if bad then UThrow (XUser 7) else URet | _ => URet end.
Definition E2 (bad : bool) : env :=
  demo own_strat (fun m => m) demo_app (bad_entry bad)
    [[AStart 0; AFire 0 (EUser 0); AFire 0 (EUser 2)]; [AFire 0 (EUser 1); AFire 0 (EUser 3); AFire 0 (EUser 0)]] (fun _ => 1).
Definition w2 (bad : bool) : mem := demo_mem (E2 bad) (fun _ => flow_cfg) a_listener one_act (fun _ => None).
(** two clients fire while the worker processes *)
Definition run2 (bad : bool) : world := after (E2 bad) (w2 bad) [(c0, 38); (wk 0, 15); (c0, 40); (c1, 40); (wk 0, 300)].

(** the entry action of B removes the listener *)
Definition E3 : env :=
  demo own_strat (fun m => m) demo_app
    (fun c _ => match c with KAct true (AUser 11) _ _ _ => UDo (ASetListener 0 None) (fun _ => URet) | _ => URet end)
    [[AStart 0; AFire 0 (EUser 0)]] (fun _ => 1).
Definition w3 : mem := demo_mem E3 (fun _ => flow_cfg) a_listener one_act (fun _ => None).
Definition run3 : world := after E3 w3 [(c0, 200); (wk 0, 300)].

(** one client exercising the API: machine 0 is an ordinary machine, machine 1
    is not configured, machine 2 has a clause without target, machine 3 is
    started in state B *)
Definition E4 : env :=
  demo own_strat (fun m => m) demo_app quiet
    [[AFire 0 (EUser 0); AStart 0; AStart 0; AStartIn 0 (SUser 1); AIsStarted 0;
      ASetPay (EUser 1) (Some 5); AFire 0 (EUser 1); ASetPay (EUser 1) (Some 6);
      AStart 1; AStart 2; AStartIn 3 (SUser 3); AStartIn 3 (SUser 1); AIsStarted 0;
      AShutdown 0; AFire 0 (EUser 0); AStop 0; AIsEnded 0; AFire 0 (EUser 0); AIsEnded 0]] (fun _ => 1).
Definition w4 : mem :=
  demo_mem E4 (fun m => match m with 1 => [] | 2 => [CInit (SUser 0); CReceives (EUser 0)] | _ => flow_cfg end)
    a_listener one_act (fun _ => None).
Definition run4 : world := after E4 w4 [(c0, 300); (wk 0, 100)].
