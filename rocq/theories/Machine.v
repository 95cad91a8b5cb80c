(** * Machine.v: the Java methods as programs *)
From Verif Require Export Mem.

Section Machine.
  Context (E : env).

  (** ** Invoking callback objects *)
  Definition thrown {A : Set} (r : res A) : option exn :=
    match r with Ok _ => None | Err x => Some x end.
  (** a callback object implemented by the user: record the call, run its
      code, record how it ended (the recording is not in the code) *)
  Definition call_user (c : call) : prog unit :=
    op (IMark (OCall c)) ;;; r <- op (ICall c) ;; op (IMark (OBack c (thrown r))) ;;; of_res r.
  (** a callback object implemented by the library: the same with code [p] *)
  Definition call_lib (c : call) (p : prog unit) : prog unit :=
    op (IMark (OCall c)) ;;; then_res p (fun r => op (IMark (OBack c (thrown r))) ;;; of_res r).
  Definition log_line (s : string) : prog unit := op (IMark (OLog s)).

  (** toString of NamedState (NamedState.java:77-80), of null, of NamedStateEvent *)
  Definition show_state (s : option sid) : string :=
    match s with None => "null" | Some s => "NamedState[" ++ sname E s ++ "]" end%string.
  Definition show_event (nm : string) : string := ("NamedStateEvent[" ++ nm ++ "]")%string.

  (** The methods of strategy/DefaultUnexpectedFlowListener.java:18-33.  (The
      thread name and the exception are left out of the first line.) *)
  Definition ufl_default (c : call) : prog unit :=
    match c with
    | KUflExn _ e m _ =>
        nm <- op (IGetName e) ;; s <- op (IGetCur m) ;;
        log_line ("Unhandled exception while processing event " ++ show_event nm ++ " while in state " ++ show_state s)
    | KUflAfterEnd _ e _ =>
        nm <- op (IGetName e) ;; log_line ("Event " ++ show_event nm ++ " received after state machine has ended")
    | KUflBeforeStart _ e _ =>
        nm <- op (IGetName e) ;; log_line ("Event " ++ show_event nm ++ " received before state machine has started")
    | _ => skip
    end%string.
  (** UnexpectedFlowListener callbacks *)
  Definition call_ufl (u : ufl) (c : call) : prog unit :=
    match u with
    | FUser _ => call_user c
    | FDefault => call_lib c (ufl_default c)
    end.

  (** The unmapped event handler: a user BiConsumer, or the default lambda of
      strategy/EventProcessingStrategyFactory.java:107-113 *)
  Definition call_unmapped (h : uhandler) (e : eid) (m : mid) : prog unit :=
    match h with
    | UUser _ => call_user (KUnmapped h e m)
    | UDefault =>
        call_lib (KUnmapped h e m)
          (nm <- op (IGetName e) ;;
           c <- op (IGetCur m) ;;
           match c with
           | None => Throw XNullPointer
           | Some s => log_line ("StateEvent [" ++ nm ++ "] not mapped for state ["
                                  ++ sname E s ++ "], ignoring")
           end)
    end%string.

  (** LoggingStateMachineListener.java:43-60 *)
  Definition log_format (nm : option string) (fin : bool) (f e t : string) : string :=
    match nm with
    | Some (String c r) =>
        let n := String c r in
        if fin then n ++ " transitioned to " ++ t
        else "Begin " ++ n ++ " transition: " ++ f ++ " + " ++ e ++ " = " ++ t
    | _ =>
        if fin then "Transitioned to " ++ t
        else "Begin transition: " ++ f ++ " + " ++ e ++ " = " ++ t
    end%string.

  (** a non-composite listener *)
  Definition call_leaf (fin : bool) (l : leaf) (m : mid) (f : sid) (e : eid) (t : sid) : prog unit :=
    match l with
    | LfUser _ => call_user (KListen fin (LLeaf l) m f e t)
    | LfLog _ nm =>
        call_lib (KListen fin (LLeaf l) m f e t)
          (en <- op (IGetName e) ;; log_line (log_format nm fin (sname E f) en (sname E t)))
    end.

  (** the loop over consumers.values() in MultiConsumerStateMachineListener.java:48-50
      and 55-57.  The iterator looks for the next consumer before the loop body
      is entered with the one it found before ([pend]).  The loop may go round
      any number of times; [fuel] times one by one (an arbitrary number, see
      [chance]), then for all consumers left. *)
  Fixpoint each_consumer (call1 : leaf -> prog unit) (k : nat) (c : list (leaf * bool)) (fuel : nat) (vs : list nat)
      (pend : list leaf) : prog unit :=
    match fuel with
    | 0 => ls <- op (IMultiRest k c vs) ;; foreach (pend ++ map snd ls) call1
    | S n =>
        v <- op (IMultiNext k c vs) ;;
        foreach pend call1 ;;;
        match v with
        | None => skip
        | Some (i, l) => each_consumer call1 k c n (i :: vs) [l]
        end
    end.

  (** onStateChangeBegin / onStateChangeEnd;
      MultiConsumerStateMachineListener.java:46-58 for [LMulti] *)
  Definition call_listener (fin : bool) (l : listener) (m : mid) (f : sid) (e : eid) (t : sid) : prog unit :=
    match l with
    | LLeaf lf => call_leaf fin lf m f e t
    | LMulti k =>
        call_lib (KListen fin l m f e t)
          (c <- op (IMultiIter k) ;; each_consumer (fun lf => call_leaf fin lf m f e t) k (fst c) (snd c) [] [])
    end.

  (** notifyStateMachineListener: GenericStateMachine.java:187-205.  The
      listener field is read twice.  Callers never pass a null event or
      to-state. *)
  Definition notify (m : mid) (fin : bool) (f : option sid) (e : eid) (t : sid) : prog unit :=
    l1 <- op (IGetListener m) ;;
    match l1 with
    | None => skip
    | Some _ =>
        let f' := match f with Some s => s | None => SNone m end in
        l2 <- op (IGetListener m) ;;
        match l2 with
        | None => Throw XNullPointer
        | Some l => call_listener fin l m f' e t
        end
    end.

  (** updateCurrentState: GenericStateMachine.java:318-322 *)
  Definition update_current (m : mid) (s : sid) : prog unit :=
    b <- op (ICasEnded m (String.eqb (sname E s) nm_end)) ;;
    if b then op (ISetCur m s) else skip.

  (** stop: GenericStateMachine.java:251-254 *)
  Definition stop (m : mid) : prog unit := update_current m (SEnd m).

  (** ** fire and the strategies *)
  (** EventMachinePairPool.take: strategy/EventMachinePairPool.java:20-26 *)
  Definition pool_take (l : plid) : prog pid :=
    p <- op (IPoolPoll l) ;;
    match p with Some p => Ret p | None => op INewPair end.

  (** getEventQueueSize: strategy/DefaultEventStrategy.java:65-67 (also called at
      line 71).  eventQueue.size() of a ConcurrentLinkedQueue walks over the
      queue while others add and remove. *)
  Definition queue_size (q : qid) : prog nat := c <- op (IQLook q) ;; op (IQSize q c).

  (** DefaultEventStrategy.processEvent up to executor.execute:
      strategy/DefaultEventStrategy.java:70-87 *)
  Definition default_process (k : stid) (e : eid) (m : mid) : prog unit :=
    let s := strat E k in
    n <- queue_size (s_queue s) ;;
    if andb (Z.ltb 0 (s_max s)) (Z.leb (s_max s) (Z.of_nat n))
    then call_ufl (s_ufl s) (KUflExn (s_ufl s) e m (XIllegalState (RQueueFull n)))
    else
      p <- pool_take (s_pool s) ;;
      py <- op (IGetPay e) ;;
      e' <- match py with
      | Some _ => (* new NamedStateEvent<>(stateEvent): NamedStateEvent.java:23-25 *)
          nm <- op (IGetName e) ;;
          py' <- op (IGetPay e) ;;
          c <- op (INewCopy nm py') ;;
          op (ISetPair p c m) ;;; Ret c
      | None => op (ISetPair p e m) ;;; Ret e
      end ;;
      op (IQOffer (s_queue s) p e m e') ;;;
      ok <- op (IExecute (s_exec s) {| tk_strat := k; tk_mach := m |}) ;;
      if (ok : bool) then skip else Throw XRejected.

  (** en -> en.getStateEvent().equals(stateEvent):
      strategy/DropDuplicateEventStrategy.java:45 *)
  Definition same_event (nm : string) (p : pid) : prog bool :=
    c <- op (IGetPair p) ;;
    match c with
    | None => Throw XNullPointer
    | Some (e', _) => nm' <- op (IGetName e') ;; Ret (String.eqb nm' nm)
    end.
  Fixpoint any_match (nm : string) (ps : list pid) : prog bool :=
    match ps with
    | [] => Ret false
    | p :: r => d <- same_event nm p ;; if (d : bool) then Ret true else any_match nm r
    end.
  (** eventQueue.stream().anyMatch(..): strategy/DropDuplicateEventStrategy.java:45.
      The walk visits what is in the queue when it gets there.  It may visit
      any number of pairs; [fuel] of them one by one (an arbitrary number, see
      [chance]) and those after them in one step. *)
  Fixpoint any_next (nm : string) (q : qid) (fuel c : nat) : prog bool :=
    match fuel with
    | 0 => ps <- op (IQRest q c) ;; any_match nm ps
    | S f =>
        v <- op (IQNext q c) ;;
        match v with
        | None => Ret false
        | Some (p, c', fin) =>
            d <- same_event nm p ;;
            if (d : bool) then Ret true else if (fin : bool) then Ret false else any_next nm q f c'
        end
    end.

  (** processEvent of the machine's strategy:
      strategy/DropDuplicateEventStrategy.java:43-50 or
      strategy/DefaultEventStrategy.java:70 *)
  Definition process_event (k : stid) (e : eid) (m : mid) : prog unit :=
    let s := strat E k in
    if s_drop s then
      c <- op (IQIter (s_queue s)) ;;
      nm <- op (IGetName e) ;;
      dup <- any_next nm (s_queue s) (snd c) (fst c) ;;
      if dup then log_line ("Event [" ++ show_event nm ++ "] already in queue, will drop it")%string
      else default_process k e m
    else default_process k e m.

  (** The unexpected flow listener of a machine is its strategy's:
      GenericStateMachine.java:58 *)
  Definition ufl_of (m : mid) : ufl := s_ufl (strat E (strat_of E m)).

  (** fire: GenericStateMachine.java:285-293 *)
  Definition fire (m : mid) (e : eid) : prog unit :=
    st <- op (IGetStarted m) ;;
    if negb st then call_ufl (ufl_of m) (KUflBeforeStart (ufl_of m) e m)
    else
      st2 <- op (IGetStarted m) ;;
      en <- (if (st2 : bool) then op (IGetEnded m) else Ret false) ;;
      if (en : bool) then call_ufl (ufl_of m) (KUflAfterEnd (ufl_of m) e m)
      else process_event (strat_of E m) e m.

  (** ** State actions *)
  (** ExceptionHandler.onException; [HApp] is the lambda of
      service/AbstractAppService.java:71-74 *)
  Definition call_handler (h : handler) (e : eid) (m : mid) (x : exn) : prog unit :=
    match h with
    | HUser _ => call_user (KHandler h e m x)
    | HApp p =>
        call_lib (KHandler h e m x)
          (c <- op (IGetCur m) ;;
           log_line ("Error while " ++ ap_name (apps E p) ++ " is in [" ++ show_state c ++ "] state") ;;;
           fire (ap_mach (apps E p)) (ELife LError))
    end%string.

  (** The code of a StateAction object; [c] is the call to record. *)
  Fixpoint act_code (c : call) (a : action) (e : eid) (m : mid) : prog unit :=
    match a with
    | AUser _ => call_user c
    | AHandle a' h => (** HandleExceptionAction.java:29-36 *)
        call_lib c (try_catch (act_code (KInner a' e m) a' e m) (fun x => call_handler h e m x))
    | AAppStarting p => (** service/AbstractAppService.java:77-83 *)
        call_lib c
          (log_line ("Starting " ++ ap_name (apps E p) ++ " with args [" ++ String.concat ", " (ap_args (apps E p)) ++ "]") ;;;
           l <- op (IGetSubs p) ;;
           foreach l (fun i => call_user (KSub true p i)) ;;;
           fire (ap_mach (apps E p)) (ELife LComplete))
    | AAppStarted p => call_lib c skip (** service/AbstractAppService.java:85-86 *)
    | AAppStopping p => (** service/AbstractAppService.java:88-96 *)
        call_lib c
          (log_line ("Stopping " ++ ap_name (apps E p)) ;;;
           l <- op (IGetSubs p) ;;
           foreach (rev l) (fun i => call_user (KSub false p i)) ;;;
           fire (ap_mach (apps E p)) (ELife LComplete))
    | AAppStopped p => (** service/AbstractAppService.java:97-103 *)
        call_lib c
          (log_line ("Stopped " ++ ap_name (apps E p)) ;;;
           if ap_exit (apps E p)
           then fire (ap_mach (apps E p)) (ELife LStop) ;;; op (ILatchDown p)
           else skip)
    end%string.

  (** ArrayList.forEach on the action list (NamedState.java:33-40): the list
      is checked for concurrent modification before every element and at the
      end.  Lists only grow, so an unchanged length means no modification. *)
  Fixpoint run_acts (entry : bool) (s : sid) (n : nat) (l : list action) (e : eid) (m : mid) : prog unit :=
    cur <- op (IGetActs entry s) ;;
    if negb (Nat.eqb (List.length cur) n) then Throw XConcurrentMod
    else match l with
         | [] => skip
         | a :: r => act_code (KAct entry a s e m) a e m ;;; run_acts entry s n r e m
         end.
  (** onEntry (entry = true) / onExit: NamedState.java:32-40 *)
  Definition on_acts (entry : bool) (s : sid) (e : eid) (m : mid) : prog unit :=
    l <- op (IGetActs entry s) ;; run_acts entry s (List.length l) l e m.

  (** ** start: GenericStateMachine.java:216-241 *)
  Definition start (m : mid) : prog unit :=
    i <- op (IGetInit m) ;;
    match i with
    | None => Throw (XIllegalState RNoInit)
    | Some init =>
        emp <- op (IMapEmpty m) ;;
        if (emp : bool) then Throw (XIllegalState RNoTransitions) else
        d <- op (IDangling m) ;;
        if (d : bool) then Throw (XIllegalState RDangling) else
        ok <- op (ICasStarted m) ;;
        if (ok : bool) then
          op (ISetCur m init) ;;;
          notify m false (Some (SNone m)) (EImm m) init ;;;
          on_acts true init (EImm m) m ;;;
          notify m true (Some (SNone m)) (EImm m) init ;;;
          op (ISetEndedFalse m)
        else Throw (XIllegalState RAlreadyStarted)
    end.

  (** startInState: GenericStateMachine.java:257-267 *)
  Definition start_in (m : mid) (s : sid) : prog unit :=
    h <- op (IHasState m s) ;;
    if negb h then Throw (XIllegalState RNotConfigured) else
    ok <- op (ICasStarted m) ;;
    if (ok : bool) then op (ISetCur m s) ;;; op (ISetEndedFalse m)
    else Throw (XIllegalState RAlreadyStarted).

  (** ** TransitionTask.execute: strategy/TransitionTask.java:26-48.  The
      table is the one the strategy holds, the machine the pair's. *)
  Definition execute (k : stid) (e : eid) (m : mid) : prog unit :=
    let tb := s_states (strat E k) in
    c <- op (IGetCur m) ;;
    to <- op (IMapGet tb c e) ;;
    match to with
    | None => Throw XNullPointer
    | Some None => call_unmapped (s_unmapped (strat E k)) e m
    | Some (Some t) =>
        if String.eqb nm_noop (sname E t) then
          c1 <- op (IGetCur m) ;; notify m false c1 e t ;;;
          c2 <- op (IGetCur m) ;; notify m true c2 e t
        else
          f <- op (IGetCur m) ;;
          notify m false f e t ;;;
          c1 <- op (IGetCur m) ;;
          match c1 with None => Throw XNullPointer | Some s1 => on_acts false s1 e m end ;;;
          update_current m t ;;;
          c2 <- op (IGetCur m) ;;
          match c2 with None => Throw XNullPointer | Some s2 => on_acts true s2 e m end ;;;
          notify m true f e t ;;;
          b <- op (IEndsAt tb t) ;;
          if (b : bool) then stop m else skip
    end.

  (** One iteration of the loop of the submitted task:
      strategy/DefaultEventStrategy.java:88-102.  Result true: iterate again.
      (A pair taken from the queue with null fields cannot occur: theorem
      C24; the model throws outside the try in that case.) *)
  Definition drain_iter (tk : task) : prog bool :=
    let s := strat E (tk_strat tk) in
    emp <- op (IQEmpty (s_queue s)) ;;
    if (emp : bool) then Ret false else
    p <- op (IQPoll (s_queue s)) ;;
    match p with
    | None => Throw XNullPointer
    | Some p =>
        then_res
          (c <- op (IGetPair p) ;;
           match c with
           | None => Throw XNullPointer
           | Some (e, m) =>
               try_finally
                 (try_catch
                    (en <- op (IGetEnded (tk_mach tk)) ;;
                     if (en : bool) then skip else execute (tk_strat tk) e m)
                    (fun x => call_ufl (s_ufl s) (KUflExn (s_ufl s) e m x)))
                 (op (IPoolOffer (s_pool s) p))
           end)
          (fun r => op (IMark (ODone (s_queue s) p (thrown r))) ;;; of_res r) ;;;
        Ret true
    end.

  (** ** AbstractAppService *)
  Definition app_state_name (c : option sid) : option string :=
    match c with None => None | Some s => Some (sname E s) end.
  Definition is_name (c : option sid) (n : string) : bool :=
    match c with None => false | Some s => String.eqb n (sname E s) end.

  (** stop: service/AbstractAppService.java:149-160 *)
  Definition app_stop (p : apid) : prog unit :=
    let A := apps E p in
    c <- op (IGetCur (ap_mach A)) ;;
    if orb (is_name c "STARTED") (andb (negb (ap_exit A)) (is_name c "STOPPED"))
    then fire (ap_mach A) (ELife LStop)
    else if negb (andb (ap_exit A) (is_name c "STOPPED"))
    then Throw (XIllegalState (RAppStop (app_state_name c)))
    else skip.

  (** start: service/AbstractAppService.java:120-143 *)
  Definition app_start (p : apid) : prog unit :=
    let A := apps E p in
    c <- op (IGetCur (ap_mach A)) ;;
    st <- op (IGetStarted (ap_mach A)) ;;
    if negb st then
      start (ap_mach A) ;;;
      fire (ap_mach A) (ELife LStart) ;;;
      try_finally
        (i <- op (ILatchAwait p) ;;
         if (i : bool) then log_line "Main latch was interrupted" ;;; op ISelfInterrupt else skip)
        (en <- op (IGetEnded (ap_mach A)) ;; if (en : bool) then skip else app_stop p)
    else if andb (negb (ap_exit A)) (is_name c "STOPPED")
    then fire (ap_mach A) (ELife LStart)
    else Throw (XIllegalState (RAppStart (app_state_name c))).

  (** error: service/AbstractAppService.java:163-167 *)
  Definition app_error (p : apid) : prog unit :=
    log_line (ap_name (apps E p) ++ " has an error")%string ;;;
    fire (ap_mach (apps E p)) (ELife LError).

  (** ** The public API *)
  Definition api_prog (a : api) : prog (ares a) :=
    match a return prog (ares a) with
    | AFire m e => fire m e
    | AStart m => start m
    | AStartIn m s => start_in m s
    | AStop m => stop m
    | AIsStarted m => op (IGetStarted m)          (** GenericStateMachine.java:270 *)
    | AIsEnded m => op (IGetEnded m)              (** GenericStateMachine.java:275 *)
    | AGetCur m => op (IGetCur m)                 (** GenericStateMachine.java:296 *)
    | AQSize m => queue_size (s_queue (strat E (strat_of E m))) (** strategy/DefaultEventStrategy.java:65-67 *)
    | ASetListener m l => op (ISetListener m l)   (** GenericStateMachine.java:314 *)
    | ACfg m o => r <- op (ICfg m o) ;; of_res r
    | AAppend en s l =>                           (** NamedState.java:42-52 *)
        op (IAddActs en s (flat_map (fun o => match o with Some a => [a] | None => [] end) l))
    | AGetPay e => op (IGetPay e)                 (** NamedStateEvent.java:38 *)
    | ASetPay e p => op (ISetPay e p)             (** NamedStateEvent.java:43 *)
    | AMultiAdd k l => op (IMultiAdd k l)         (** MultiConsumerStateMachineListener.java:34 *)
    | AMultiRem k l => op (IMultiRem k l)         (** MultiConsumerStateMachineListener.java:42 *)
    | AAppStart p => app_start p
    | AAppStop p => app_stop p
    | AAppError p => app_error p
    | AInterrupt n => op (IInterrupt n)           (** Thread.interrupt *)
    | AShutdown x => op (IShutdown x)             (** ExecutorService.shutdown *)
    | AGetSubs p => op (IGetSubs p)               (** service/AbstractAppContext.java:64-67 *)
    | ASetSubs p l => op (ISetSubs p l)           (** service/AbstractAppContext.java:41-45 *)
    end.

  (** A user program runs its API calls one after the other. *)
  Fixpoint interp (u : uprog) : prog unit :=
    match u with
    | URet => Ret tt
    | UThrow x => Throw x
    | UDo a k =>
        op (IMark (OInv a)) ;;;
        then_res (api_prog a) (fun r =>
          op (IMark (ORet a (erase a r))) ;;; interp (k r))
    end.
End Machine.
