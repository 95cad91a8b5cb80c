(** * Lang.v: what each library function can do, as languages of marks

    For every function of Machine.v, the set of (outcome, marks) pairs it can
    produce, whatever the other threads do (values read are arbitrary here;
    Truth.v says which values are read).  Used to derive the properties of
    nodes; not part of the specification. *)
From Verif Require Import Sched TreeSpec.

Definition rvx (x : option exn) : rv := match x with None => RvUnit | Some y => RvErr y end.
Notation lang := (option exn -> list obs -> Prop).
Notation R r := (ORd r).

(** sequence: the second part runs if the first did not throw *)
Definition seqx (L1 L2 : lang) : lang := fun x out =>
  (exists y, x = Some y /\ L1 (Some y) out) \/
  (exists o1 o2, out = o1 ++ o2 /\ L1 None o1 /\ L2 x o2).
Definition emit (l : list obs) : lang := fun x out => x = None /\ out = l.
Definition callL (c : call) : lang := fun x out => out = called c x.
Fixpoint callsL (cs : list call) : lang :=
  match cs with [] => emit [] | c :: r => seqx (callL c) (callsL r) end.

(** marks of user code *)
Definition user_items (out : list obs) : Prop :=
  Forall (fun o => match o with OInv _ | ORet _ _ => True | _ => False end) out.

Section Lang.
  Context (E : env).

  Definition notifyL (m : mid) (fin : bool) (f : sid) (e : eid) (t : sid) : lang := fun x out =>
    (x = None /\ out = [R (RdListener m None)]) \/
    (exists l, x = Some XNullPointer /\ out = [R (RdListener m (Some l)); R (RdListener m None)]) \/
    (exists l0 l, out = [R (RdListener m (Some l0)); R (RdListener m (Some l))] ++ called (KListen fin l m f e t) x).

  Inductive runL (en : bool) (s : sid) (e : eid) (m : mid) (n : nat) : list action -> lang :=
  | run_cme l l' : List.length l' <> n -> runL en s e m n l (Some XConcurrentMod) [R (RdActs en s l')]
  | run_done l' : List.length l' = n -> runL en s e m n [] None [R (RdActs en s l')]
  | run_throw a r l' y : List.length l' = n ->
      runL en s e m n (a :: r) (Some y) (R (RdActs en s l') :: called (KAct en a s e m) (Some y))
  | run_next a r l' x out : List.length l' = n -> runL en s e m n r x out ->
      runL en s e m n (a :: r) x (R (RdActs en s l') :: called (KAct en a s e m) None ++ out).
  Definition actsL (en : bool) (s : sid) (e : eid) (m : mid) : lang := fun x out =>
    exists l out', out = R (RdActs en s l) :: out' /\ runL en s e m (List.length l) l x out'.

  Definition updateL (m : mid) (t : sid) : lang := fun x out =>
    x = None /\
    (out = [R (RdEnded m true)] \/
     out = [if String.eqb (sname E t) nm_end then OEnded m else R (RdEnded m false); OState m t]).

  Definition st_or (m : mid) (c : option sid) : sid := match c with Some s => s | None => SNone m end.

  (** reading the current state of m, then continuing with it *)
  Definition curL (m : mid) (f : option sid -> lang) : lang := fun x out =>
    exists c out', out = R (RdCur m c) :: out' /\ f c x out'.
  Definition failL (y : exn) : lang := fun x out => x = Some y /\ out = [].
  Definition someL (f : sid -> lang) (c : option sid) : lang :=
    match c with Some s => f s | None => failL XNullPointer end.

  Definition transL (tb : mid) (e : eid) (m : mid) (t : sid) : lang :=
    curL m (fun f =>
      seqx (notifyL m false (st_or m f) e t)
     (seqx (curL m (someL (fun s1 => actsL false s1 e m)))
     (seqx (updateL m t)
     (seqx (curL m (someL (fun s2 => actsL true s2 e m)))
     (seqx (notifyL m true (st_or m f) e t)
           (fun x out => exists b out', out = R (RdFinal tb t b) :: out' /\
              if b : bool then updateL m (SEnd m) x out' else x = None /\ out' = [])))))).
  Definition noopL (e : eid) (m : mid) (t : sid) : lang :=
    seqx (curL m (fun f => notifyL m false (st_or m f) e t))
         (curL m (fun f => notifyL m true (st_or m f) e t)).
  Definition executeL (k : stid) (e : eid) (m : mid) : lang := 
    let tb := s_states (strat E k) in
    curL m (fun c x out => exists to out', out = R (RdMap tb c e to) :: out' /\
      match to with
      | None => failL XNullPointer x out'
      | Some None => callL (KUnmapped (s_unmapped (strat E k)) e m) x out'
      | Some (Some t) => if String.eqb nm_noop (sname E t) then noopL e m t x out' else transL tb e m t x out'
      end).

  (** processing of a pair with content c taken from the queue of strategy k *)
  Definition takeL (k : stid) (tm : mid) (p : pid) (c : option (eid * mid)) : lang := fun x out =>
    match c with
    | None => x = Some XNullPointer /\ out = [R (RdPair p None)]
    | Some (e, m) => exists b out1 out2,
        out = R (RdPair p (Some (e, m))) :: R (RdEnded tm b) :: out1 ++ out2 ++ [OWr (WrGive (s_pool (strat E k)) p)] /\
        if b : bool then out1 = [] /\ out2 = [] /\ x = None
        else exists y, executeL k e m y out1 /\
             match y with
             | Some z => if is_exception z
                         then out2 = called (KUflExn (s_ufl (strat E k)) e m z) x
                         else out2 = [] /\ x = Some z
             | None => out2 = [] /\ x = None
             end
    end.

  (** processEvent *)
  Definition submitL (k : stid) (m : mid) : lang := fun x out =>
    let tk := {| tk_strat := k; tk_mach := m |} in let X := s_exec (strat E k) in
    (x = None /\ out = [OSubmit X tk]) \/ (x = Some XRejected /\ out = [OWr (WrReject X tk)]).
  Definition enqueueL (k : stid) (e : eid) (m : mid) : lang := fun x out =>
    let q := s_queue (strat E k) in
    exists p out', submitL k m x out' /\
    (out = [OWr (WrGot p); R (RdPay e None); OWr (WrPair p e m); OOffer q p e m e m] ++ out' \/
     exists y nm y' e', out = [OWr (WrGot p); R (RdPay e (Some y)); R (RdName e nm); R (RdPay e y');
                               OWr (WrCopy e' nm y'); OWr (WrPair p e' m); OOffer q p e m e' m] ++ out').
  Definition full (k : stid) (n : nat) : bool :=
    andb (Z.ltb 0 (s_max (strat E k))) (Z.leb (s_max (strat E k)) (Z.of_nat n)).
  Definition defaultL (k : stid) (e : eid) (m : mid) : lang := fun x out =>
    exists c n out', out = R (RdLook (s_queue (strat E k)) c) :: R (RdSize (s_queue (strat E k)) c n) :: out' /\
      if full k n then callL (KUflExn (s_ufl (strat E k)) e m (XIllegalState (RQueueFull n))) x out'
      else enqueueL k e m x out'.
  (** inspecting the queued pairs one by one *)
  Inductive matchL (nm : string) : list pid -> (exn + bool) -> list obs -> Prop :=
  | mt_nil : matchL nm [] (inr false) []
  | mt_null p r : matchL nm (p :: r) (inl XNullPointer) [R (RdPair p None)]
  | mt_eq p r e m : matchL nm (p :: r) (inr true) [R (RdPair p (Some (e, m))); R (RdName e nm)]
  | mt_neq p r e m nm' b out : nm' <> nm -> matchL nm r b out ->
      matchL nm (p :: r) b (R (RdPair p (Some (e, m))) :: R (RdName e nm') :: out).
  Inductive scanL (nm : string) (q : qid) : nat -> nat -> (exn + bool) -> list obs -> Prop :=
  | sc_rest c ps b out : matchL nm ps b out -> scanL nm q 0 c b (R (RdRest q c ps) :: out)
  | sc_end f c : scanL nm q (S f) c (inr false) [R (RdNext q c None)]
  | sc_null f c p c' fin : scanL nm q (S f) c (inl XNullPointer) [R (RdNext q c (Some (p, c', fin))); R (RdPair p None)]
  | sc_eq f c p c' fin e m : scanL nm q (S f) c (inr true) [R (RdNext q c (Some (p, c', fin))); R (RdPair p (Some (e, m))); R (RdName e nm)]
  | sc_last f c p c' e m nm' : nm' <> nm ->
      scanL nm q (S f) c (inr false) [R (RdNext q c (Some (p, c', true))); R (RdPair p (Some (e, m))); R (RdName e nm')]
  | sc_more f c p c' e m nm' b out : nm' <> nm -> scanL nm q f c' b out ->
      scanL nm q (S f) c b (R (RdNext q c (Some (p, c', false))) :: R (RdPair p (Some (e, m))) :: R (RdName e nm') :: out).
  Definition processL (k : stid) (e : eid) (m : mid) : lang := fun x out =>
    if s_drop (strat E k) then
      exists c nm b out1 out2, out = R (RdIter (s_queue (strat E k)) c) :: R (RdName e nm) :: out1 ++ out2 /\
        scanL nm (s_queue (strat E k)) (snd c) (fst c) b out1 /\
        match b with
        | inl y => x = Some y /\ out2 = []
        | inr true => x = None /\ out2 = [OLog ("Event [" ++ show_event nm ++ "] already in queue, will drop it")%string]
        | inr false => defaultL k e m x out2
        end
    else defaultL k e m x out.

  (** fire *)
  Definition fireL (m : mid) (e : eid) : lang := fun x out =>
    (out = R (RdStarted m false) :: called (KUflBeforeStart (ufl_of E m) e m) x) \/
    (out = [R (RdStarted m true); R (RdStarted m true); R (RdEnded m true)]
             ++ called (KUflAfterEnd (ufl_of E m) e m) x) \/
    (exists out', (out = [R (RdStarted m true); R (RdStarted m true); R (RdEnded m false)] ++ out' \/
                   out = [R (RdStarted m true); R (RdStarted m false)] ++ out') /\
       processL (strat_of E m) e m x out').

  (** start, startInState *)
  Definition startL (m : mid) : lang := fun x out =>
    exists i out', out = R (RdInit m i) :: out' /\
    match i with
    | None => failL (XIllegalState RNoInit) x out'
    | Some init => exists b out'', out' = R (RdMapEmpty m b) :: out'' /\
      if b : bool then failL (XIllegalState RNoTransitions) x out'' else
      exists d out3, out'' = R (RdDangling m d) :: out3 /\
      if d : bool then failL (XIllegalState RDangling) x out3 else
      (x = Some (XIllegalState RAlreadyStarted) /\ out3 = [R (RdStarted m true)]) \/
      (exists out4, out3 = [OStarted m; OState m init] ++ out4 /\
         seqx (notifyL m false (SNone m) (EImm m) init)
        (seqx (actsL true init (EImm m) m)
        (seqx (notifyL m true (SNone m) (EImm m) init) (emit [OUnended m]))) x out4)
    end.
  Definition startInL (m : mid) (s : sid) : lang := fun x out =>
    (x = Some (XIllegalState RNotConfigured) /\ out = [R (RdHas m s false)]) \/
    (x = Some (XIllegalState RAlreadyStarted) /\ out = [R (RdHas m s true); R (RdStarted m true)]) \/
    (x = None /\ out = [R (RdHas m s true); OStarted m; OState m s; OUnended m]).

  (** app service *)
  Definition appStopL (p : apid) : lang :=
    let A := apps E p in
    curL (ap_mach A) (fun c =>
      if orb (is_name E c "STARTED") (andb (negb (ap_exit A)) (is_name E c "STOPPED"))
      then fireL (ap_mach A) (ELife LStop)
      else if andb (ap_exit A) (is_name E c "STOPPED") then emit []
      else failL (XIllegalState (RAppStop (app_state_name E c)))).
  Definition awaitL (p : apid) : lang := fun x out =>
    x = None /\ (out = [OWr (WrAwait p false)] \/
                 out = [OWr (WrAwait p true); OLog "Main latch was interrupted"; OWr (WrIntr None)]).
  Definition finStopL (p : apid) : lang := fun x out =>
    exists b out', out = R (RdEnded (ap_mach (apps E p)) b) :: out' /\
      if b : bool then x = None /\ out' = [] else appStopL p x out'.
  Definition appStartL (p : apid) : lang :=
    let A := apps E p in
    curL (ap_mach A) (fun c x out =>
      (exists out', out = R (RdStarted (ap_mach A) false) :: out' /\
         seqx (startL (ap_mach A)) (seqx (fireL (ap_mach A) (ELife LStart)) (seqx (awaitL p) (finStopL p))) x out') \/
      (exists out', out = R (RdStarted (ap_mach A) true) :: out' /\
         (if andb (negb (ap_exit A)) (is_name E c "STOPPED") then fireL (ap_mach A) (ELife LStart)
          else failL (XIllegalState (RAppStart (app_state_name E c)))) x out')).
  Definition appErrorL (p : apid) : lang :=
    seqx (emit [OLog (ap_name (apps E p) ++ " has an error")%string]) (fireL (ap_mach (apps E p)) (ELife LError)).

  Definition subsL (start : bool) (p : apid) : lang :=
    fun x out => exists l out', out = R (RdSubs p l) :: out' /\
      callsL (map (KSub start p) (if start then l else rev l)) x out'.

  (** a walk over the consumers of multi-consumer listener k *)
  Fixpoint walkL (cl : leaf -> call) (k : nat) (c : list (leaf * bool)) (fuel : nat) (vs : list nat) (pend : list leaf) : lang :=
    match fuel with
    | 0 => fun x out => exists ls out', out = R (RdMRest k c vs ls) :: out' /\ callsL (map cl (pend ++ map snd ls)) x out'
    | S n => fun x out => exists v out', out = R (RdMNext k c vs v) :: out' /\
        seqx (callsL (map cl pend)) (match v with None => emit [] | Some (i, l) => walkL cl k c n (i :: vs) [l] end) x out'
    end.
  (** the code of callbacks *)
  Definition userL : lang := fun x out => user_items out.
  Definition handleL (c : call) (h : handler) (e : eid) (m : mid) : lang := fun x out =>
    exists y, match y with
              | Some z => if is_exception z then out = called c y ++ called (KHandler h e m z) x
                          else out = called c y /\ x = y
              | None => out = called c None /\ x = None
              end.
  Definition actL (a : action) (e : eid) (m : mid) : lang :=
    match a with
    | AUser _ => userL
    | AHandle a' h => handleL (KInner a' e m) h e m
    | AAppStarting p =>
        seqx (emit [OLog ("Starting " ++ ap_name (apps E p) ++ " with args [" ++ String.concat ", " (ap_args (apps E p)) ++ "]")%string])
       (seqx (subsL true p) (fireL (ap_mach (apps E p)) (ELife LComplete)))
    | AAppStarted p => emit []
    | AAppStopping p =>
        seqx (emit [OLog ("Stopping " ++ ap_name (apps E p))%string])
       (seqx (subsL false p) (fireL (ap_mach (apps E p)) (ELife LComplete)))
    | AAppStopped p =>
        seqx (emit [OLog ("Stopped " ++ ap_name (apps E p))%string])
          (if ap_exit (apps E p)
           then seqx (fireL (ap_mach (apps E p)) (ELife LStop)) (emit [OWr (WrLatch p)])
           else emit [])
    end.
  Definition leafL (fin : bool) (l : leaf) (m : mid) (f : sid) (e : eid) (t : sid) : lang :=
    match l with
    | LfUser _ => userL
    | LfLog _ nm => fun x out => exists en,
        x = None /\ out = [R (RdName e en); OLog (log_format nm fin (sname E f) en (sname E t))]
    end.
  Definition callCode (c : call) : lang :=
    match c with
    | KAct _ a _ e m => actL a e m
    | KInner a e m => actL a e m
    | KHandler (HUser _) _ _ _ => userL
    | KHandler (HApp p) e m y => curL m (fun c =>
        seqx (emit [OLog ("Error while " ++ ap_name (apps E p) ++ " is in [" ++ show_state E c ++ "] state")%string])
             (fireL (ap_mach (apps E p)) (ELife LError)))
    | KListen fin (LLeaf l) m f e t => leafL fin l m f e t
    | KListen fin (LMulti k) m f e t => fun x out => exists c out',
        out = R (RdMulti k c) :: out' /\ walkL (fun l => KListen fin (LLeaf l) m f e t) k (fst c) (snd c) [] [] x out'
    | KUnmapped (UUser _) _ _ => userL
    | KUnmapped UDefault e m => fun x out => exists nm c out',
        out = R (RdName e nm) :: R (RdCur m c) :: out' /\
        match c with
        | None => failL XNullPointer x out'
        | Some s => emit [OLog ("StateEvent [" ++ nm ++ "] not mapped for state [" ++ sname E s ++ "], ignoring")%string] x out'
        end
    | KUflExn (FUser _) _ _ _ | KUflAfterEnd (FUser _) _ _ | KUflBeforeStart (FUser _) _ _ => userL
    | KUflExn FDefault e m _ => fun x out => exists nm c, x = None /\
        out = [R (RdName e nm); R (RdCur m c);
               OLog ("Unhandled exception while processing event " ++ show_event nm ++ " while in state " ++ show_state E c)%string]
    | KUflAfterEnd FDefault e _ => fun x out => exists nm, x = None /\
        out = [R (RdName e nm); OLog ("Event " ++ show_event nm ++ " received after state machine has ended")%string]
    | KUflBeforeStart FDefault e _ => fun x out => exists nm, x = None /\
        out = [R (RdName e nm); OLog ("Event " ++ show_event nm ++ " received before state machine has started")%string]
    | KSub _ _ _ => userL
    end.

  (** the public API *)
  Definition apiL (a : api) (v : rv) (out : list obs) : Prop :=
    match a with
    | AFire m e => exists x, v = rvx x /\ fireL m e x out
    | AStart m => exists x, v = rvx x /\ startL m x out
    | AStartIn m s => exists x, v = rvx x /\ startInL m s x out
    | AStop m => exists x, v = rvx x /\ updateL m (SEnd m) x out
    | AIsStarted m => exists b, v = RvBool b /\ out = [R (RdStarted m b)]
    | AIsEnded m => exists b, v = RvBool b /\ out = [R (RdEnded m b)]
    | AGetCur m => exists s, v = RvState s /\ out = [R (RdCur m s)]
    | AQSize m => exists c n, v = RvNat n /\ out = [R (RdLook (s_queue (strat E (strat_of E m))) c); R (RdSize (s_queue (strat E (strat_of E m))) c n)]
    | ASetListener m l => v = RvUnit /\ out = [OWr (WrListener m l)]
    | ACfg m o => exists x, v = rvx x /\ out = [OWr (WrCfg m o x)]
    | AAppend en s l => v = RvUnit /\
        out = [OWr (WrActs en s (flat_map (fun o => match o with Some a => [a] | None => [] end) l))]
    | AGetPay e => exists p, v = RvPay p /\ out = [R (RdPay e p)]
    | ASetPay e p => v = RvUnit /\ out = [OWr (WrPay e p)]
    | AMultiAdd k l => exists b, v = RvBool b /\ out = [OWr (WrMulti true k l b)]
    | AMultiRem k l => exists b, v = RvBool b /\ out = [OWr (WrMulti false k l b)]
    | AAppStart p => exists x, v = rvx x /\ appStartL p x out
    | AAppStop p => exists x, v = rvx x /\ appStopL p x out
    | AAppError p => exists x, v = rvx x /\ appErrorL p x out
    | AInterrupt n => v = RvUnit /\ out = [OWr (WrIntr (Some n))]
    | AShutdown x => v = RvUnit /\ out = [OWr (WrShut x)]
    | AGetSubs p => exists l, v = RvSubs l /\ out = [R (RdSubs p l)]
    | ASetSubs p l => v = RvUnit /\ out = [OWr (WrSubs p l)]
    end.

  (** what a completed bracket of thread [t] looks like *)
  Definition node_ok (t : tid) (n : node) : Prop :=
    match n with
    | (FApi a, its, ORet a' v) => a' = a /\ apiL a v its
    | (FCall c, its, OBack c' x) => c' = c /\ callCode c x its
    | (FTake q p c, its, ODone q' p' x) => q' = q /\ p' = p /\
        exists tm i, let k := strat_of E tm in
          t = TWorker (s_exec (strat E k)) i /\ q = s_queue (strat E k) /\ takeL k tm p c x its
    | _ => False
    end.
End Lang.
