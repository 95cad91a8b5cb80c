(** * Marks.v: which marks can appear directly inside which bracket *)
From Verif Require Import Sched TreeSpec Lang Logic Neutral OwnSpec Own Tree Nodes.

Definition only (L : lang) (P : obs -> Prop) : Prop := forall x out, L x out -> Forall P out.
Ltac fall := repeat (apply Forall_cons || apply Forall_nil).
Ltac pick := first [ solve [eauto 4] | left; solve [eauto 4] | right; pick ].
Notation "L <<= P" := (only L P) (at level 70).

Lemma only_mono L (P Q : obs -> Prop) : (forall o, P o -> Q o) -> L <<= P -> L <<= Q.
Proof. intros H HL x out Ho. eapply Forall_impl; [exact H|eauto]. Qed.
Lemma only_seqx L1 L2 (P : obs -> Prop) : L1 <<= P -> L2 <<= P -> seqx L1 L2 <<= P.
Proof.
  intros H1 H2 x out [(y & -> & H)|(o1 & o2 & -> & Ha & Hb)]; [eauto|].
  apply Forall_app. split; eauto.
Qed.
Lemma only_emit l (P : obs -> Prop) : Forall P l -> emit l <<= P.
Proof. intros H x out [-> ->]. exact H. Qed.
Lemma only_fail y (P : obs -> Prop) : failL y <<= P.
Proof. intros x out [-> ->]. constructor. Qed.
Definition mcall (c : call) (o : obs) : Prop := o = OCall c \/ exists x, o = OBack c x.
Lemma only_call c : callL c <<= mcall c.
Proof. intros x out ->. unfold called, mcall. fall; eauto. Qed.
Lemma called_mcall c x : Forall (mcall c) (called c x).
Proof. unfold called, mcall. fall; eauto. Qed.
Lemma only_calls cs (P : obs -> Prop) : (forall c o, In c cs -> mcall c o -> P o) -> callsL cs <<= P.
Proof.
  induction cs as [|c cs IH]; intro H; simpl; [apply only_emit; constructor|].
  apply only_seqx; [|apply IH; intros; eapply H; [right; eassumption|assumption]].
  eapply only_mono; [|apply only_call]. intros o. apply H. left; reflexivity.
Qed.

Section Marks.
  Context (E : env).

  Definition mnotify (m : mid) (fin : bool) (f : sid) (e : eid) (t : sid) (o : obs) : Prop :=
    (exists l, o = R (RdListener m l)) \/ (exists l, mcall (KListen fin l m f e t) o).
  Definition macts (en : bool) (s : sid) (e : eid) (m : mid) (o : obs) : Prop :=
    (exists l, o = R (RdActs en s l)) \/ (exists a, mcall (KAct en a s e m) o).
  Definition mupdate (m : mid) (t : sid) (o : obs) : Prop :=
    (exists b, o = R (RdEnded m b)) \/ (o = OEnded m /\ sname E t = nm_end) \/ o = OState m t.
  Definition mcur (m : mid) (o : obs) : Prop := exists c, o = R (RdCur m c).
  Definition mtrans (tb : mid) (e : eid) (m : mid) (t : sid) (o : obs) : Prop :=
    mcur m o \/ (exists fin f, mnotify m fin f e t o) \/ (exists en s, macts en s e m o) \/ mupdate m t o \/
    mupdate m (SEnd m) o \/ (exists b, o = R (RdFinal tb t b)).
  Definition mexec (k : stid) (e : eid) (m : mid) (o : obs) : Prop :=
    let tb := s_states (strat E k) in
    (exists c r, o = R (RdMap tb c e r)) \/ mcall (KUnmapped (s_unmapped (strat E k)) e m) o \/
    exists t, mtrans tb e m t o.
  Definition mtake (k : stid) (tm : mid) (p : pid) (c : option (eid * mid)) (o : obs) : Prop :=
    o = R (RdPair p c) \/ (exists e m, c = Some (e, m) /\
      ((exists b, o = R (RdEnded tm b)) \/ mexec k e m o \/ (exists x, mcall (KUflExn (s_ufl (strat E k)) e m x) o) \/
       o = OWr (WrGive (s_pool (strat E k)) p))).
  Definition mfire (m : mid) (e : eid) (o : obs) : Prop :=
    let k := strat_of E m in
    (exists b, o = R (RdStarted m b)) \/ (exists b, o = R (RdEnded m b)) \/
    mcall (KUflBeforeStart (ufl_of E m) e m) o \/ mcall (KUflAfterEnd (ufl_of E m) e m) o \/
    (exists c, o = R (RdLook (qof E m) c)) \/ (exists c n, o = R (RdSize (qof E m) c n)) \/
    (exists n, mcall (KUflExn (ufl_of E m) e m (XIllegalState (RQueueFull n))) o) \/
    (exists c, o = R (RdIter (qof E m) c)) \/ (exists c v, o = R (RdNext (qof E m) c v)) \/ (exists c ps, o = R (RdRest (qof E m) c ps)) \/ (exists e1 nm, o = R (RdName e1 nm)) \/
    (exists p c, o = R (RdPair p c)) \/ (exists s, o = OLog ("Event [" ++ s)%string) \/ (exists p, o = OWr (WrGot p)) \/
    (exists y, o = R (RdPay e y)) \/ (exists e' nm y, o = OWr (WrCopy e' nm y)) \/
    (exists p e', o = OWr (WrPair p e' m) \/ o = OOffer (qof E m) p e m e' m) \/
    (o = OSubmit (s_exec (strat E k)) {| tk_strat := k; tk_mach := m |}) \/
    (o = OWr (WrReject (s_exec (strat E k)) {| tk_strat := k; tk_mach := m |})).
  Definition mstart (m : mid) (o : obs) : Prop :=
    (exists i, o = R (RdInit m i)) \/ (exists b, o = R (RdMapEmpty m b)) \/ (exists b, o = R (RdDangling m b)) \/
    o = R (RdStarted m true) \/ o = OStarted m \/ (exists s, o = OState m s) \/ o = OUnended m \/
    (exists fin t, mnotify m fin (SNone m) (EImm m) t o) \/ (exists s, macts true s (EImm m) m o).
  Definition mstartin (m : mid) (s : sid) (o : obs) : Prop :=
    (exists b, o = R (RdHas m s b)) \/ o = R (RdStarted m true) \/ o = OStarted m \/ o = OState m s \/ o = OUnended m.
  Definition mappstop (p : apid) (o : obs) : Prop :=
    mcur (ap_mach (apps E p)) o \/ mfire (ap_mach (apps E p)) (ELife LStop) o.
  Definition mappstart (p : apid) (o : obs) : Prop :=
    let m := ap_mach (apps E p) in
    mstart m o \/ mfire m (ELife LStart) o \/ mappstop p o \/ (exists b, o = OWr (WrAwait p b)) \/ o = OWr (WrIntr None) \/ o = OLog "Main latch was interrupted".
  Definition muser (o : obs) : Prop := exists a, o = OInv a \/ exists v, o = ORet a v.
  Definition mact (a : action) (e : eid) (m : mid) (o : obs) : Prop :=
    match a with
    | AUser _ => muser o
    | AHandle a' h => mcall (KInner a' e m) o \/ exists x, mcall (KHandler h e m x) o
    | AAppStarting p | AAppStopping p =>
        (exists s, o = OLog s) \/ (exists b i, mcall (KSub b p i) o) \/ mfire (ap_mach (apps E p)) (ELife LComplete) o \/ (exists l, o = R (RdSubs p l))
    | AAppStarted p => False
    | AAppStopped p => (exists s, o = OLog s) \/ mfire (ap_mach (apps E p)) (ELife LStop) o \/ (o = OWr (WrLatch p) /\ ap_exit (apps E p) = true)
    end.
  Definition mcode (c : call) (o : obs) : Prop :=
    match c with
    | KAct _ a _ e m | KInner a e m => mact a e m o
    | KHandler (HUser _) _ _ _ => muser o
    | KHandler (HApp p) e m _ => mcur m o \/ (exists s, o = OLog s) \/ mfire (ap_mach (apps E p)) (ELife LError) o
    | KListen _ (LLeaf (LfUser _)) _ _ _ _ => muser o
    | KListen _ (LLeaf (LfLog _ _)) _ _ _ _ => (exists e1 nm, o = R (RdName e1 nm)) \/ exists s, o = OLog s
    | KListen fin (LMulti k) m f e t => (exists c, o = R (RdMulti k c)) \/ (exists c vs v, o = R (RdMNext k c vs v)) \/ (exists c vs v, o = R (RdMRest k c vs v)) \/ exists l, mcall (KListen fin (LLeaf l) m f e t) o
    | KUnmapped (UUser _) _ _ => muser o
    | KUnmapped UDefault e m => mcur m o \/ (exists nm, o = R (RdName e nm)) \/ exists s, o = OLog s
    | KUflExn (FUser _) _ _ _ | KUflAfterEnd (FUser _) _ _ | KUflBeforeStart (FUser _) _ _ => muser o
    | KUflExn FDefault e m _ => mcur m o \/ (exists nm, o = R (RdName e nm)) \/ exists s, o = OLog s
    | KUflAfterEnd FDefault e _ | KUflBeforeStart FDefault e _ => (exists nm, o = R (RdName e nm)) \/ exists s, o = OLog s
    | KSub _ _ _ => muser o
    end.
  Definition mapi (a : api) (o : obs) : Prop :=
    match a with
    | AFire m e => mfire m e o
    | AStart m => mstart m o
    | AStartIn m s => mstartin m s o
    | AStop m => mupdate m (SEnd m) o
    | AIsStarted m => exists b, o = R (RdStarted m b)
    | AIsEnded m => exists b, o = R (RdEnded m b)
    | AGetCur m => mcur m o
    | AQSize m => (exists c, o = R (RdLook (qof E m) c)) \/ (exists c n, o = R (RdSize (qof E m) c n))
    | ASetListener m l => o = OWr (WrListener m l)
    | ACfg m c => exists x, o = OWr (WrCfg m c x)
    | AAppend en s l => exists l', o = OWr (WrActs en s l')
    | AGetPay e => exists p, o = R (RdPay e p)
    | ASetPay e p => o = OWr (WrPay e p)
    | AMultiAdd k l => exists b, o = OWr (WrMulti true k l b)
    | AMultiRem k l => exists b, o = OWr (WrMulti false k l b)
    | AAppStart p => mappstart p o
    | AAppStop p => mappstop p o
    | AAppError p => (exists s, o = OLog s) \/ mfire (ap_mach (apps E p)) (ELife LError) o
    | AInterrupt n => o = OWr (WrIntr (Some n))
    | AShutdown x => o = OWr (WrShut x)
    | AGetSubs p => exists l, o = R (RdSubs p l)
    | ASetSubs p l => o = OWr (WrSubs p l)
    end.
  Definition mroot (t : tid) (o : obs) : Prop :=
    match t with TClient _ => muser o | TWorker _ _ => witem o end.
  (** item [o] directly inside a bracket of kind [k] of thread [t] *)
  Definition may (t : tid) (k : fkind) (o : obs) : Prop :=
    match k with
    | FRoot => mroot t o
    | FApi a => mapi a o
    | FCall c => mcode c o
    | FTake q p c => exists tm i, t = TWorker (s_exec (strat E (strat_of E tm))) i /\ q = qof E tm /\ mtake (strat_of E tm) tm p c o
    end.

  Lemma only_notify m fin f e t : notifyL m fin f e t <<= mnotify m fin f e t.
  Proof.
    intros x out [[-> ->]|[(l & -> & ->)|(l0 & l & ->)]]; unfold mnotify.
    - fall; eauto.
    - fall; eauto.
    - apply Forall_app. split; [fall; eauto|].
      eapply Forall_impl; [|apply called_mcall]. eauto.
  Qed.
  Lemma only_acts en s e m : actsL en s e m <<= macts en s e m.
  Proof.
    intros x out (l & out' & -> & Hr). constructor; [left; eauto|]. revert Hr. generalize (List.length l) as n.
    intros n Hr. induction Hr; unfold macts.
    - fall; eauto.
    - fall; eauto.
    - constructor; [eauto|]. eapply Forall_impl; [|apply called_mcall]. eauto.
    - constructor; [eauto|]. apply Forall_app. split; [|assumption].
      eapply Forall_impl; [|apply called_mcall]. eauto.
  Qed.
  Lemma only_update m t : updateL E m t <<= mupdate m t.
  Proof.
    intros x out (-> & [->| ->]); unfold mupdate; [fall; eauto|].
    destruct (String.eqb_spec (sname E t) nm_end); fall; eauto.
  Qed.
  Lemma only_cur m f (P : obs -> Prop) : (forall o, mcur m o -> P o) -> (forall c, f c <<= P) -> curL m f <<= P.
  Proof. intros H1 H2 x out (c & out' & -> & H). constructor; [apply H1; unfold mcur; eauto|eapply H2; eauto]. Qed.
  Lemma only_some f c (P : obs -> Prop) : (forall s, f s <<= P) -> someL f c <<= P.
  Proof. intro H. destruct c; simpl; [apply H|apply only_fail]. Qed.
  Lemma only_trans tb e m t : transL E tb e m t <<= mtrans tb e m t.
  Proof.
    unfold transL. apply only_cur; [unfold mtrans; auto|]. intro f.
    repeat (apply only_seqx || (apply only_cur; [unfold mtrans; auto|intro; apply only_some; intro])).
    - eapply only_mono; [|apply only_notify]. intros; right; left; eauto.
    - eapply only_mono; [|apply only_acts]. intros; right; right; left; eauto.
    - eapply only_mono; [|apply only_update]. intros; right; right; right; left; eauto.
    - eapply only_mono; [|apply only_acts]. intros; right; right; left; eauto.
    - eapply only_mono; [|apply only_notify]. intros; right; left; eauto.
    - intros x out (b & out' & -> & H). constructor; [unfold mtrans; pick|].
      destruct b; [|destruct H as [_ ->]; constructor].
      eapply Forall_impl; [|eapply only_update; exact H]. unfold mtrans; intros; pick.
  Qed.
  Lemma only_noop tb e m t : noopL e m t <<= mtrans tb e m t.
  Proof.
    unfold noopL. apply only_seqx; (apply only_cur; [unfold mtrans; auto|]; intro f;
      eapply only_mono; [|apply only_notify]; intros; right; left; eauto).
  Qed.
  Lemma only_execute k e m : executeL E k e m <<= mexec k e m.
  Proof.
    unfold executeL. apply only_cur; [intros o H; right; right; exists (SNone m); left; exact H|].
    intros c x out (to & out' & -> & H). constructor; [left; eauto|].
    destruct to as [[t|]|].
    - destruct (String.eqb nm_noop (sname E t)).
      + eapply Forall_impl; [|eapply only_noop; exact H]. intros; right; right; eauto.
      + eapply Forall_impl; [|eapply only_trans; exact H]. intros; right; right; eauto.
    - eapply Forall_impl; [|eapply only_call; exact H]. intros; right; left; eauto.
    - destruct H as [_ ->]. constructor.
  Qed.
  Lemma only_take k tm p c : takeL E k tm p c <<= mtake k tm p c.
  Proof.
    intros x out H. unfold takeL in H. destruct c as [[e m]|].
    - destruct H as (b & out1 & out2 & -> & H). constructor; [left; reflexivity|].
      constructor; [right; eauto 10|]. 
      assert (Hd : Forall (mtake k tm p (Some (e, m))) out1 /\ Forall (mtake k tm p (Some (e, m))) out2).
      { destruct b; [destruct H as (-> & -> & _); auto|]. destruct H as (y & H1 & H2). split.
        - eapply Forall_impl; [|eapply only_execute; exact H1]. intros; right; eauto 10.
        - destruct y as [z|]; [|destruct H2 as [-> _]; constructor].
          destruct (is_exception z); [subst|destruct H2 as [-> _]; constructor].
          eapply Forall_impl; [|apply called_mcall]. intros; right; eauto 10. }
      apply Forall_app. split; [apply Hd|]. apply Forall_app. split; [apply Hd|].
      fall. right; eauto 10.
    - destruct H as [_ ->]. fall; left; reflexivity.
  Qed.

  Ltac mf := first [ left; solve [eauto 6] | right; mf ].
  Lemma only_fire m e : fireL E m e <<= mfire m e.
  Proof.
    intros x out H.
    assert (Hsub : forall x out, submitL E (strat_of E m) m x out -> Forall (mfire m e) out).
    { intros x' out' [[_ ->]|[_ ->]]; fall; unfold mfire; tauto. }
    assert (Henq : forall x out, enqueueL E (strat_of E m) e m x out -> Forall (mfire m e) out).
    { intros x' out' (p & o2 & Hs & [->|(y & nm & y' & e' & ->)]); apply Forall_app; (split; [|eapply Hsub; exact Hs]);
        fall; unfold mfire; fold (qof E m); pick. }
    assert (Hdef : forall x out, defaultL E (strat_of E m) e m x out -> Forall (mfire m e) out).
    { intros x' out' (c & n & o2 & -> & Hd). constructor; [unfold mfire; fold (qof E m); pick|]. constructor; [unfold mfire; fold (qof E m); pick|].
      destruct (full E (strat_of E m) n); [|eapply Henq; exact Hd].
      eapply Forall_impl; [|eapply only_call; exact Hd]. unfold mfire, ufl_of; intros; pick. }
    assert (Hmat : forall nm ps b out, matchL nm ps b out -> Forall (mfire m e) out).
    { intros nm ps b out' Hm. induction Hm; fall; auto; unfold mfire; pick. }
    assert (Hscan : forall nm f c b out, scanL nm (s_queue (strat E (strat_of E m))) f c b out -> Forall (mfire m e) out).
    { intros nm f c b out' Hm. induction Hm; fall; eauto; unfold mfire; fold (qof E m); pick. }
    assert (Hpro : forall x out, processL E (strat_of E m) e m x out -> Forall (mfire m e) out).
    { intros x' out' Hp. unfold processL in Hp. destruct (s_drop (strat E (strat_of E m))); [|eapply Hdef; exact Hp].
      destruct Hp as (ps & nm & b & o1 & o2 & -> & Hm & Hb).
      constructor; [unfold mfire; fold (qof E m); pick|]. constructor; [unfold mfire; pick|].
      apply Forall_app. split; [eapply Hscan; exact Hm|].
      destruct b as [y|[|]]; [destruct Hb as [_ ->]; constructor|destruct Hb as [_ ->]; fall; unfold mfire; pick|eapply Hdef; exact Hb]. }
    assert (Hs : forall b, mfire m e (R (RdStarted m b))) by (left; eauto).
    assert (He : forall b, mfire m e (R (RdEnded m b))) by (right; left; eauto).
    destruct H as [->|[->|(out' & H & Hp)]].
    - constructor; [apply Hs|]. eapply Forall_impl; [|apply called_mcall]. unfold mfire; intros; pick.
    - apply Forall_app. split; [fall; auto|]. eapply Forall_impl; [|apply called_mcall]. unfold mfire; intros; pick.
    - destruct H as [->| ->]; apply Forall_app; (split; [fall; auto|eapply Hpro; exact Hp]).
  Qed.
  Lemma only_start m : startL m <<= mstart m.
  Proof.
    intros x out (i & out' & -> & H). constructor; [unfold mstart; pick|].
    destruct i as [init|]; [|destruct H as [_ ->]; constructor].
    destruct H as (b & out2 & -> & H). constructor; [unfold mstart; pick|].
    destruct b; [destruct H as [_ ->]; constructor|].
    destruct H as (d & out3 & -> & H). constructor; [unfold mstart; pick|].
    destruct d; [destruct H as [_ ->]; constructor|].
    destruct H as [[_ ->]|(out4 & -> & H)]; [fall; unfold mstart; auto|].
    apply Forall_app. split; [fall; unfold mstart; pick|].
    revert H. match goal with |- ?L x out4 -> _ => enough (L <<= mstart m) as Hh by apply Hh end.
    repeat apply only_seqx.
    - eapply only_mono; [|apply only_notify]. intros; unfold mstart; pick.
    - eapply only_mono; [|apply only_acts]. intros; unfold mstart; pick.
    - eapply only_mono; [|apply only_notify]. intros; unfold mstart; pick.
    - apply only_emit. fall. unfold mstart; pick.
  Qed.
  Lemma only_startin m s : startInL m s <<= mstartin m s.
  Proof.
    intros x out [[_ ->]|[[_ ->]|[_ ->]]]; fall; unfold mstartin; pick.
  Qed.
  Lemma only_appstop p : appStopL E p <<= mappstop p.
  Proof.
    unfold appStopL. apply only_cur; [unfold mappstop; auto|]. intro c.
    destruct (orb _ _); [eapply only_mono; [|apply only_fire]; unfold mappstop; auto|].
    destruct (andb _ _); [apply only_emit; constructor|apply only_fail].
  Qed.
  Lemma only_appstart p : appStartL E p <<= mappstart p.
  Proof.
    unfold appStartL. apply only_cur; [unfold mappstart, mappstop; auto|].
    assert (Hs : forall b, mappstart p (R (RdStarted (ap_mach (apps E p)) b))).
    { intro b. right. left. left. eauto. }
    assert (Hst : appStopL E p <<= mappstart p).
    { eapply only_mono; [|apply only_appstop]. unfold mappstart; auto. }
    assert (Hf : fireL E (ap_mach (apps E p)) (ELife LStart) <<= mappstart p).
    { eapply only_mono; [|apply only_fire]. unfold mappstart; auto. }
    intros c x out [(out' & -> & H)|(out' & -> & H)]; (constructor; [apply Hs|]).
    - revert H. match goal with |- ?L x out' -> _ => enough (L <<= mappstart p) as Hh by apply Hh end.
      repeat apply only_seqx; auto.
      + eapply only_mono; [|apply only_start]. unfold mappstart; auto.
      + intros x' o2 [_ [->| ->]]; fall; unfold mappstart; eauto 7.
      + intros x' o2 (b & o3 & -> & H). constructor; [right; left; right; left; eauto|].
        destruct b; [destruct H as [_ ->]; constructor|eapply Hst; exact H].
    - destruct (andb _ _); [eapply Hf; exact H|destruct H as [_ ->]; constructor].
  Qed.
  Lemma only_user (P : obs -> Prop) : (forall o, muser o -> P o) -> userL <<= P.
  Proof.
    intros H x out Hu. eapply Forall_impl; [|exact Hu]. intros o Ho. apply H. unfold muser.
    destruct o; try contradiction; eauto.
  Qed.
  Lemma only_act a e m : actL E a e m <<= mact a e m.
  Proof.
    assert (Hlog : forall s (P : obs -> Prop), P (OLog s) -> emit [OLog s] <<= P).
    { intros. apply only_emit. fall; assumption. }
    destruct a as [n|a' h|p|p|p|p]; simpl.
    - apply only_user. auto.
    - intros x out [y H]. destruct y as [z|].
      + destruct (is_exception z).
        * subst. apply Forall_app. split; (eapply Forall_impl; [|apply called_mcall]); intros; simpl; pick.
        * destruct H as [-> _]. eapply Forall_impl; [|apply called_mcall]; intros; simpl; pick.
      + destruct H as [-> _]. eapply Forall_impl; [|apply called_mcall]; intros; simpl; pick.
    - repeat apply only_seqx; [apply Hlog; simpl; pick| |eapply only_mono; [|apply only_fire]; intros; simpl; pick].
      intros x out (l & out' & -> & H). constructor; [simpl; pick|]. revert x out' H. apply only_calls. intros c o Hin Hc. apply in_map_iff in Hin. destruct Hin as (i & <- & _). simpl; pick.
    - apply only_emit. constructor.
    - repeat apply only_seqx; [apply Hlog; simpl; pick| |eapply only_mono; [|apply only_fire]; intros; simpl; pick].
      intros x out (l & out' & -> & H). constructor; [simpl; pick|]. revert x out' H. apply only_calls. intros c o Hin Hc. apply in_map_iff in Hin. destruct Hin as (i & <- & _). simpl; pick.
    - apply only_seqx; [apply Hlog; simpl; pick|]. destruct (ap_exit (apps E p)) eqn:Ex; [|apply only_emit; constructor].
      apply only_seqx. { eapply only_mono; [|apply only_fire]. intros o Ho; simpl; pick. } apply only_emit. fall. simpl; auto.
  Qed.
  Lemma only_walk cl k c (P : obs -> Prop) : (forall vs v, P (R (RdMNext k c vs v))) -> (forall vs v, P (R (RdMRest k c vs v))) ->
    (forall l o, mcall (cl l) o -> P o) -> forall n vs pend, walkL cl k c n vs pend <<= P.
  Proof.
    intros H1 H2 H3. assert (Hc : forall ls, callsL (map cl ls) <<= P).
    { intro ls. apply only_calls. intros c' o Hin Hm. apply in_map_iff in Hin. destruct Hin as (l & <- & _). eapply H3. exact Hm. }
    induction n as [|n IH]; intros vs pend x out.
    - intros (ls & out' & -> & H). constructor; [auto|]. eapply Hc. exact H.
    - intros (v & out' & -> & H). constructor; [auto|]. revert H. apply only_seqx; [apply Hc|].
      destruct v as [[i l]|]; [apply IH|apply only_emit; constructor].
  Qed.
  Lemma only_code c : callCode E c <<= mcode c.
  Proof.
    destruct c; simpl; try apply only_act; try (apply only_user; auto).
    - destruct h; simpl; [apply only_user; auto|]. apply only_cur; [intros; simpl; pick|]. intro c.
      apply only_seqx; [apply only_emit; fall; simpl; pick|]. eapply only_mono; [|apply only_fire]. intros; simpl; pick.
    - destruct l as [[n|n nm]|k]; simpl; [apply only_user; auto| |].
      + intros x out (en & _ & ->). fall; simpl; pick.
      + intros x out (c & out' & -> & H). constructor; [simpl; pick|]. revert H.
        match goal with |- ?L x out' -> Forall ?P _ => enough (L <<= P) as Hh by apply Hh end.
        apply only_walk; intros; simpl; pick.
    - destruct h; simpl; [apply only_user; auto|].
      intros x out (nm & c & out' & -> & H). constructor; [simpl; pick|]. constructor; [simpl; unfold mcur; pick|].
      destruct c; [destruct H as [_ ->]; fall; simpl; pick|destruct H as [_ ->]; constructor].
    - destruct u; simpl; [apply only_user; auto|]. intros y out (nm & c & _ & ->). fall; simpl; unfold mcur; pick.
    - destruct u; simpl; [apply only_user; auto|]. intros y out (nm & _ & ->). fall; simpl; pick.
    - destruct u; simpl; [apply only_user; auto|]. intros y out (nm & _ & ->). fall; simpl; pick.
  Qed.
  Lemma only_api a v out : apiL E a v out -> Forall (mapi a) out.
  Proof.
    destruct a; simpl; intro H;
      first [ destruct H as (c & n & _ & ->); solve [fall; simpl; unfold qof; eauto]
            | destruct H as (x & _ & ->); solve [fall; simpl; unfold mcur; eauto]
            | destruct H as (_ & ->); solve [fall; simpl; unfold mcur; eauto]
            | destruct H as (x & _ & H) ].
    - eapply only_fire; exact H.
    - eapply only_start; exact H.
    - eapply only_startin; exact H.
    - eapply only_update; exact H.
    - eapply only_appstart; exact H.
    - eapply only_appstop; exact H.
    - revert x out H. match goal with |- forall x out, ?L x out -> Forall ?P _ => change (L <<= P) end.
      unfold appErrorL. apply only_seqx; [apply only_emit; fall; simpl; pick|].
      eapply only_mono; [|apply only_fire]. intros; simpl; pick.
  Qed.
  Lemma node_may t k its o : node_ok E t (k, its, o) -> Forall (may t k) its.
  Proof.
    intro H. destruct k as [|a|c|q p c]; simpl in H; destruct o; try contradiction.
    - destruct H as [_ H]. eapply only_api; exact H.
    - destruct H as [_ H]. eapply only_code; exact H.
    - destruct H as (_ & _ & tm & i & Ht & Hq & H). eapply Forall_impl; [|eapply only_take; exact H].
      intros o Ho. exists tm, i. auto.
  Qed.
  Lemma frame_may t k its : frame_ok E t (k, its) -> Forall (may t k) its.
  Proof.
    assert (Hext : forall ext, Forall (may t k) (its ++ ext) -> Forall (may t k) its).
    { intros ext H. apply Forall_app in H. apply H. }
    unfold frame_ok. destruct k as [|a|c|q p c].
    - intros [ext H]. apply (Hext ext). unfold root_ok in H. simpl. unfold mroot. destruct t; [|exact H].
      eapply Forall_impl; [|exact H]. intros o Ho. unfold muser. destruct o; try contradiction; eexists; eauto.
    - intros (ext & o & H). apply (Hext ext). eapply node_may; exact H.
    - intros (ext & o & H). apply (Hext ext). eapply node_may; exact H.
    - intros (ext & o & H). apply (Hext ext). eapply node_may; exact H.
  Qed.

  (** every mark of a trace lies directly inside some bracket that may contain it *)
  Theorem placed w0 w t o : init_mem E w0 -> reach E w0 w -> In (t, o) (tr (wm w)) ->
    exists k its, In o its /\ may t k o /\
      (opened t (tr (wm w)) k its \/ exists z, closed t (tr (wm w)) k its z).
  Proof.
    intros H0 Hr Hin. destruct (tree_ok E w0 w H0 Hr) as [Hc Ho].
    assert (Hst : exists u its, fst (scan0 (thread_obs t (tr (wm w)))) = u ++ [(FRoot, its)]).
    { apply root_stays. apply Forall_forall. intros [[k its] z] Hn. simpl. intros ->.
      apply (Hc t FRoot its z) in Hn. contradiction. }
    destruct Hst as (u & its & Hs). apply scan_perm in Hs.
    apply thread_obs_in in Hin. eapply Permutation.Permutation_in in Hin; [|exact Hs].
    unfold items_of in Hin. apply in_app_or in Hin. destruct Hin as [Hin|Hin]; apply in_concat in Hin.
    - destruct Hin as (i & Hi & Hoi). apply in_map_iff in Hi. destruct Hi as ([k i'] & <- & Hf).
      exists k, i'. split; [exact Hoi|]. split; [|left; exact Hf].
      specialize (Ho t k i' Hf). apply frame_may in Ho. rewrite Forall_forall in Ho. auto.
    - destruct Hin as (i & Hi & Hoi). apply in_map_iff in Hi. destruct Hi as ([[k i'] z] & <- & Hf).
      exists k, i'. split; [exact Hoi|]. split; [|right; exists z; exact Hf].
      specialize (Hc t k i' z Hf). apply node_may in Hc. rewrite Forall_forall in Hc. auto.
  Qed.
End Marks.

(** open up a [may] hypothesis *)
Ltac dmay := repeat match goal with
    | H : _ \/ _ |- _ => destruct H
    | H : exists _, _ |- _ => destruct H
    | H : _ /\ _ |- _ => destruct H
    | H : mcall _ _ |- _ => unfold mcall in H
    | H : mnotify _ _ _ _ _ _ |- _ => unfold mnotify in H
    | H : macts _ _ _ _ _ |- _ => unfold macts in H
    | H : mupdate _ _ _ _ |- _ => unfold mupdate in H
    | H : mcur _ _ |- _ => unfold mcur in H
    | H : mtrans _ _ _ _ _ _ |- _ => unfold mtrans in H
    | H : mexec _ _ _ _ _ |- _ => unfold mexec in H
    | H : mtake _ _ _ _ _ _ |- _ => unfold mtake in H
    | H : mfire _ _ _ _ |- _ => unfold mfire in H
    | H : mstart _ _ |- _ => unfold mstart in H
    | H : mstartin _ _ _ |- _ => unfold mstartin in H
    | H : mappstop _ _ _ |- _ => unfold mappstop in H
    | H : mappstart _ _ _ |- _ => unfold mappstart in H
    | H : muser _ |- _ => unfold muser in H
    end.
