(** * PropsConfig.v: theorems on the configuration API (C01-C05, C34, C40) *)
From Verif Require Import Sched Lifecycle Names ConfigProofs ConfigProofs2 ConfigObs ConfigSpec.

(** ** C01: the table used is exactly the one the specification builds from
    the call history (ConfigSpec.v), for every call history. *)
Theorem C01_table_refines_spec :
  forall sn en m os spec st e, history sn en m os spec ->
    cfg_lookup sn en (Some st) e (cfg_run sn en m os) =
      if known spec (sn st)
      then Some (match table spec (sn st) (Some (en e)) with Some v => v | None => None end)
      else None.
Proof. exact lookup_table. Qed.
Print Assumptions C01_table_refines_spec.

(** Every call history has a meaning in the specification. *)
Theorem C01_spec_total : forall sn en m os, exists spec, history sn en m os spec.
Proof. exact history_total. Qed.
Print Assumptions C01_spec_total.

(** A complete accepted clause sets its pair and no other. *)
Theorem C01_clause_sets_its_pair_only :
  forall sn en m os x ev o t st e,
    ends_clause m o = Some t ->
    accepts sn en m os (CWhen x) ->
    accepts sn en m (os ++ [CWhen x]) (CReceives ev) ->
    accepts sn en m ((os ++ [CWhen x]) ++ [CReceives ev]) o ->
    target sn en m (((os ++ [CWhen x]) ++ [CReceives ev]) ++ [o]) st e =
      if andb (String.eqb (sn st) (sn x)) (String.eqb (en e) (en ev))
      then Some t else target sn en m os st e.
Proof. exact clause_sets_target. Qed.
Print Assumptions C01_clause_sets_its_pair_only.

(** A single call (of any kind, in any history) does not change the target of
    a pair unless it names the pair in the open clause. *)
Theorem C01_frame :
  forall sn en m os o st e,
    (forall spec x, history sn en m os spec -> clause spec = Some x -> sn x = sn st ->
       o <> CReceives e /\ (forall e', o = CReceives e' -> en e' <> en e) /\
       (event spec = Some (en e) -> ends_clause m o = None)) ->
    en e <> "_immediate_" ->
    target sn en m (os ++ [o]) st e = target sn en m os st e.
Proof. exact other_pairs_unchanged. Qed.
Print Assumptions C01_frame.

Example C01_example :
  let os := [CInit (SUser 0); CReceives (EUser 0); CTo (SUser 1);
             CWhen (SUser 9); CTo (SUser 0) (* accepted: entry without event *);
             CWhen (SUser 1)] in
  target ex_sn ex_en 0 os (SUser 0) (EUser 0) = Some (SUser 1) /\
  accepts ex_sn ex_en 0 os (CReceives (EUser 1)) /\
  accepts ex_sn ex_en 0 (os ++ [CReceives (EUser 1)]) (CTo (SUser 0)) /\
  target ex_sn ex_en 0 (os ++ [CReceives (EUser 1); CTo (SUser 0)]) (SUser 1) (EUser 1) = Some (SUser 0).
Proof. vm_compute. repeat split. Qed.

(** ** C02: reserved names *)
Theorem C02_reserved_names_rejected :
  forall sn en m c o,
    match o with
    | CInit s | CWhen s | CTo s => reserved_state (sn s)
    | CReceives e => reserved_event (en e)
    | _ => False
    end ->
    cfg_step sn en m o c = (c, Err (XIllegalState RReserved)).
Proof. exact reserved_rejected. Qed.
Print Assumptions C02_reserved_names_rejected.

(** No row of a reserved state has a target; a target with a reserved name is
    the machine's own END or NOOP state; _immediate_ only ever ends. *)
Theorem C02_no_reserved_name_in_table :
  forall sn en m os st e t, target sn en m os st e = Some t ->
    ~ reserved_state (sn st) /\ (t = SEnd m \/ t = SNoop m \/ ~ reserved_state (sn t)) /\
    (en e = "_immediate_" -> t = SEnd m).
Proof. exact names_ok. Qed.
Print Assumptions C02_no_reserved_name_in_table.

Example C02_example :
  cfg_step ex_sn ex_en 0 (CTo (SEnd 7)) (cfg_run ex_sn ex_en 0 [CInit (SUser 0); CReceives (EUser 0)])
  = (cfg_run ex_sn ex_en 0 [CInit (SUser 0); CReceives (EUser 0)], Err (XIllegalState RReserved)) /\
  target ex_sn ex_en 0 [CInit (SUser 0); CReceives (EUser 0); CEnds] (SUser 0) (EUser 0) = Some (SEnd 0).
Proof. vm_compute. split; reflexivity. Qed.

(** ** C03: a call that throws leaves the configuration as it was *)
Theorem C03_rejected_call_changes_nothing :
  forall sn en m os o x,
    snd (cfg_step sn en m o (cfg_run sn en m os)) = Err x ->
    fst (cfg_step sn en m o (cfg_run sn en m os)) = cfg_run sn en m os.
Proof. exact rejected_no_change. Qed.
Print Assumptions C03_rejected_call_changes_nothing.

Example C03_example :
  snd (cfg_step ex_sn ex_en 0 CEnds
        (cfg_run ex_sn ex_en 0 [CInit (SUser 0); CReceives (EUser 0); CTo (SUser 1); CWhen (SUser 0)]))
  = Err (XIllegalState RMappingsExist).
Proof. reflexivity. Qed.

(** ** C04: a call is accepted iff the call-order protocol allows it *)
Theorem C04_protocol :
  forall sn en m os spec o, history sn en m os spec ->
    (accepts sn en m os o <-> allowed sn en o spec).
Proof. exact accepts_iff. Qed.
Print Assumptions C04_protocol.

Example C04_example :
  ~ accepts ex_sn ex_en 0 [CInit (SUser 0)] (CWhen (SUser 1)) /\
  accepts ex_sn ex_en 0 [CInit (SUser 0); CReceives (EUser 0); CTo (SUser 1)] (CWhen (SUser 1)).
Proof. split; [discriminate|reflexivity]. Qed.

(** ** C05: the duplicate-mapping check never fires; re-mapping is accepted *)
Theorem C05_duplicate_mapping_never_rejected :
  forall sn en m os o,
    snd (cfg_step sn en m o (cfg_run sn en m os)) <> Err (XIllegalState RMapped).
Proof. exact never_mapped. Qed.
Print Assumptions C05_duplicate_mapping_never_rejected.

Theorem C05_remap_silently_replaces :
  forall sn en m os x ev t,
    accepts sn en m os (CWhen x) -> ~ reserved_event (en ev) -> ~ reserved_state (sn t) ->
    accepts sn en m (os ++ [CWhen x]) (CReceives ev) /\
    accepts sn en m ((os ++ [CWhen x]) ++ [CReceives ev]) (CTo t) /\
    target sn en m (((os ++ [CWhen x]) ++ [CReceives ev]) ++ [CTo t]) x ev = Some t.
Proof. exact remap_accepted. Qed.
Print Assumptions C05_remap_silently_replaces.

(** The expectation "a second mapping of an event is rejected" is false. *)
Theorem C05_second_mapping_rejected_refuted :
  exists os x ev t t',
    target ex_sn ex_en 0 os x ev = Some t /\ t <> t' /\
    accepts ex_sn ex_en 0 os (CWhen x) /\
    accepts ex_sn ex_en 0 (os ++ [CWhen x; CReceives ev]) (CTo t') /\
    target ex_sn ex_en 0 (os ++ [CWhen x; CReceives ev; CTo t']) x ev = Some t'.
Proof.
  exists [CInit (SUser 0); CReceives (EUser 0); CTo (SUser 1)], (SUser 0), (EUser 0), (SUser 1), (SUser 3).
  repeat split; discriminate.
Qed.
Print Assumptions C05_second_mapping_rejected_refuted.

(** ** C34: the lifecycle table, for every app and machine *)
Theorem C34_lifecycle_table :
  forall E m p,
    all_ok (sname E) (ename0 E) m (lifecycle_calls p) /\
    c_init (cfg_run (sname E) (ename0 E) m (lifecycle_calls p)) = Some (SApp p UNINIT) /\
    forall s e t,
      target (sname E) (ename0 E) m (lifecycle_calls p) s e = Some t <->
      In (sname E s, ename0 E e, t) (documented m p).
Proof.
  exact (fun E m p => conj (ok_from_all _ _ _ _ (life_ok E m p))
                           (conj (f_equal c_init (life_cfg E m p)) (life_table E m p))).
Qed.
Print Assumptions C34_lifecycle_table.

(** ** C40: states and events are identified by name *)
Theorem C40_equals_is_equality_of_names :
  forall (Obj : Type) (eq_obj : Obj -> Obj -> bool),
    (forall a b, eq_obj a b = true <-> a = b) ->
    forall (name : Obj -> string) a b,
      (named_equals eq_obj name a b = true <-> name a = name b).
Proof. exact @named_equals_iff. Qed.
Print Assumptions C40_equals_is_equality_of_names.

Theorem C40_equal_objects_equal_hash :
  forall (Obj : Type) (eq_obj : Obj -> Obj -> bool),
    (forall a b, eq_obj a b = true <-> a = b) ->
    forall (name : Obj -> string) a b,
      named_equals eq_obj name a b = true -> named_hash name a = named_hash name b.
Proof. exact @named_hash_eq. Qed.
Print Assumptions C40_equal_objects_equal_hash.

Theorem C40_lookup_by_name :
  forall sn en s s' e e' c,
    sn s = sn s' -> en e = en e' ->
    cfg_lookup sn en (Some s) e c = cfg_lookup sn en (Some s') e' c.
Proof. exact lookup_by_name. Qed.
Print Assumptions C40_lookup_by_name.

Example C40_example :
  SUser 1 <> SUser 2 /\ ex_sn (SUser 1) = ex_sn (SUser 2) /\ EUser 0 <> EUser 2 /\
  target ex_sn ex_en 0 [CInit (SUser 1); CReceives (EUser 0); CTo (SUser 3)] (SUser 2) (EUser 2) = Some (SUser 3).
Proof. repeat split; discriminate. Qed.
