(** * Tree.v: every completed bracket of every execution is one of its language *)
From Verif Require Import Sched Logic MemInv TreeSpec Lang OwnSpec Own.

Definition scan_st (st : stack) (o : obs) : stack := fst (scan1 (st, []) o).
Definition addl (out : list obs) (st : stack) : stack :=
  match st with (k, its) :: r => (k, its ++ out) :: r | [] => [] end.

Lemma scan1_fst st ns o : fst (scan1 (st, ns) o) = scan_st st o.
Proof.
  unfold scan_st, scan1. destruct (closes o).
  - destruct st as [|[k its] r]; reflexivity.
  - destruct (opens o); reflexivity.
Qed.
Lemma thread_obs_snoc t tr t' o :
  thread_obs t (tr ++ [(t', o)]) = if tid_eq_dec t' t then thread_obs t tr ++ [o] else thread_obs t tr.
Proof.
  unfold thread_obs. rewrite filter_app, map_app. simpl. unfold tid_eqb.
  destruct (tid_eq_dec t' t); simpl; rewrite ?app_nil_r; reflexivity.
Qed.
Lemma scan_snoc t tr t' o :
  scan t (tr ++ [(t', o)]) = if tid_eq_dec t' t then scan1 (scan t tr) o else scan t tr.
Proof.
  unfold scan. rewrite thread_obs_snoc. destruct (tid_eq_dec t' t); [|reflexivity].
  rewrite fold_left_app. reflexivity.
Qed.

Local Arguments wp : simpl never.
Section Tree.
  Context (E : env).

  (** mark recorded by an instruction, besides brackets *)
  Definition emitsf (i : instr) : iret i -> list obs :=
    match i return iret i -> list obs with
    | IGetStarted m => fun v => [ORd (RdStarted m v)]
    | ICasStarted m => fun v => [if v : bool then OStarted m else ORd (RdStarted m true)]
    | IGetEnded m => fun v => [ORd (RdEnded m v)]
    | ICasEnded m b => fun v => [if v : bool then (if b then OEnded m else ORd (RdEnded m false)) else ORd (RdEnded m true)]
    | ISetEndedFalse m => fun _ => [OUnended m]
    | IGetCur m => fun v => [ORd (RdCur m v)]
    | ISetCur m s => fun _ => [OState m s]
    | IGetListener m => fun v => [ORd (RdListener m v)]
    | ISetListener m l => fun _ => [OWr (WrListener m l)]
    | IGetInit m => fun v => [ORd (RdInit m v)]
    | IMapEmpty m => fun v => [ORd (RdMapEmpty m v)]
    | IDangling m => fun v => [ORd (RdDangling m v)]
    | IHasState m s => fun v => [ORd (RdHas m s v)]
    | IMapGet m s e => fun v => [ORd (RdMap m s e v)]
    | IEndsAt m s => fun v => [ORd (RdFinal m s v)]
    | ICfg m o => fun v => [OWr (WrCfg m o (thrown v))]
    | IGetActs en s => fun v => [ORd (RdActs en s v)]
    | IAddActs en s l => fun _ => [OWr (WrActs en s l)]
    | IGetName e => fun v => [ORd (RdName e v)]
    | IGetPay e => fun v => [ORd (RdPay e v)]
    | ISetPay e p => fun _ => [OWr (WrPay e p)]
    | INewCopy nm p => fun v => [OWr (WrCopy v nm p)]
    | INewPair => fun v => [OWr (WrGot v)]
    | ISetPair p e m => fun _ => [OWr (WrPair p e m)]
    | IGetPair p => fun v => [ORd (RdPair p v)]
    | IPoolPoll _ => fun v => match v with Some p => [OWr (WrGot p)] | None => [] end
    | IPoolOffer l p => fun _ => [OWr (WrGive l p)]
    | IQLook q => fun v => [ORd (RdLook q v)]
    | IQSize q c => fun v => [ORd (RdSize q c v)]
    | IQEmpty q => fun v => [ORd (RdEmpty q v)]
    | IQOffer q p e m e' => fun _ => [OOffer q p e m e' m]
    | IQIter q => fun v => [ORd (RdIter q v)]
    | IQNext q c => fun v => [ORd (RdNext q c v)]
    | IQRest q c => fun v => [ORd (RdRest q c v)]
    | IExecute x tk => fun v => [if v : bool then OSubmit x tk else OWr (WrReject x tk)]
    | IShutdown x => fun _ => [OWr (WrShut x)]
    | IMultiAdd k l => fun v => [OWr (WrMulti true k l v)]
    | IMultiRem k l => fun v => [OWr (WrMulti false k l v)]
    | IMultiIter k => fun v => [ORd (RdMulti k v)]
    | IMultiNext k c vs => fun v => [ORd (RdMNext k c vs v)]
    | IMultiRest k c vs => fun v => [ORd (RdMRest k c vs v)]
    | ILatchDown p => fun _ => [OWr (WrLatch p)]
    | ILatchAwait p => fun v => [OWr (WrAwait p v)]
    | IInterrupt n => fun _ => [OWr (WrIntr (Some n))]
    | ISelfInterrupt => fun _ => [OWr (WrIntr None)]
    | IGetSubs p => fun v => [ORd (RdSubs p v)]
    | ISetSubs p l => fun _ => [OWr (WrSubs p l)]
    | IMark o => fun _ => [o]
    | _ => fun _ => []
    end.

  Definition task_ok (x : xid) (tk : task) : Prop :=
    tk_strat tk = strat_of E (tk_mach tk) /\ x = s_exec (strat E (tk_strat tk)).

  Definition tpre (t : tid) (g : stack) (i : instr) : Prop :=
    match i with
    | IMark o =>
        if closes o then match g with (k, its) :: _ :: _ => node_ok E t (k, its, o) | _ => False end
        else public o
    | IExecute x tk => task_ok x tk
    | ICall _ => g <> []
    | _ => True
    end.
  Definition tpost (t : tid) (g : stack) (i : instr) : iret i -> stack -> Prop :=
    match i return iret i -> stack -> Prop with
    | IMark o => fun _ g' => g' = scan_st g o
    | ICall c => fun _ g' => exists out, user_items out /\ g' = addl out g
    | IQPoll q => fun v g' =>
        match v with
        | None => g' = g
        | Some p => exists c, g' = (FTake q p c, []) :: add_item (OTake q p c) g
        end
    | IGetPair p => fun v g' => g' = addl [ORd (RdPair p v)] g /\
        match g with (FTake _ p' c, []) :: _ => p' = p -> v = c | _ => True end
    | i => fun v g' => g' = addl (emitsf i v) g
    end.
  Notation WP := (wp tpre tpost).

  (** ** Invariant *)
  Record tinv (w : mem) (gs : tid -> stack) : Prop := {
    ti_scan : forall t, gs t = fst (scan t (tr w));
    ti_nodes : forall t, Forall (node_ok E t) (snd (scan t (tr w)));
    ti_tasks : forall x tk, In tk (tasks w x) -> task_ok x tk }.

  Lemma tinv_log w w' gs t o :
    tinv w gs -> tr w' = tr w ++ [(t, o)] ->
    (closes o = true -> match gs t with (k, its) :: _ :: _ => node_ok E t (k, its, o) | _ => False end) ->
    (forall x tk, In tk (tasks w' x) -> task_ok x tk) ->
    tinv w' (gupd gs t (scan_st (gs t) o)).
  Proof.
    intros [H1 H2 H3] Htr Hc Ht. split; [| |exact Ht].
    - intro t'. rewrite Htr, scan_snoc. unfold gupd.
      destruct (tid_eq_dec t t') as [->|N].
      + destruct (tid_eq_dec t' t'); [|congruence]. rewrite H1.
        destruct (scan t' (tr w)) as [st ns]. simpl fst. symmetry. apply scan1_fst.
      + destruct (tid_eq_dec t' t); [congruence|]. apply H1.
    - intro t'. rewrite Htr, scan_snoc. destruct (tid_eq_dec t t') as [->|N]; [|apply H2].
      specialize (H2 t'). rewrite H1 in Hc. destruct (scan t' (tr w)) as [st ns]. simpl in *.
      destruct (closes o) eqn:Eo.
      + specialize (Hc eq_refl). destruct st as [|[k its] [|f r]]; try contradiction. simpl.
        apply Forall_app. auto.
      + destruct (opens o); simpl; exact H2.
  Qed.
  Lemma tinv_same w w' gs t :
    tinv w gs -> tr w' = tr w -> (forall x tk, In tk (tasks w' x) -> task_ok x tk) ->
    tinv w' (gupd gs t (gs t)).
  Proof.
    intros [H1 H2 H3] Htr Ht. split; auto; intro t'; rewrite Htr; auto.
    unfold gupd. destruct (tid_eq_dec t' t); subst; auto.
  Qed.
  Lemma tinv_ext w gs gs' : (forall t, gs t = gs' t) -> tinv w gs -> tinv w gs'.
  Proof. intros H [H1 H2 H3]. split; auto. intro t. rewrite <- H. auto. Qed.

  Lemma addl_nil st : addl [] st = st.
  Proof. destruct st as [|[k its] r]; simpl; rewrite ?app_nil_r; reflexivity. Qed.
  Lemma addl_one o st : closes o = false -> opens o = None -> addl [o] st = scan_st st o.
  Proof. intros H1 H2. unfold scan_st, scan1. rewrite H1, H2. destruct st as [|[k its] r]; reflexivity. Qed.

  Lemma exec_tree w gs t i v w' :
    tinv w gs -> tpre t (gs t) i ->
    (forall q p c r, gs t = (FTake q p c, []) :: r -> pairs w p = c) ->
    (forall q p e m e', i = IQOffer q p e m e' -> pairs w p = Some (e', m)) ->
    exec E w t i = Some (v, w') ->
    exists g', tpost t (gs t) i v g' /\ tinv w' (gupd gs t g').
  Proof.
    intros Hi Hp Hpair Hoff Hx. pose proof (ti_tasks _ _ Hi) as Ht.
    destruct i; simpl in Hx;
      try (repeat match type of Hx with
             | (if ?b then _ else _) = _ => destruct b
             | match ?b with _ => _ end = _ => destruct b eqn:?
             end; try discriminate; injection Hx as <- <-;
           eexists; (split; [reflexivity|]); cbn [emitsf thrown];
           first [ rewrite addl_one by reflexivity; eapply tinv_log; [exact Hi|reflexivity|discriminate|exact Ht]
                 | rewrite addl_nil; eapply tinv_same; [exact Hi|reflexivity|exact Ht] ]).
    - (* ICasEnded *)
      destruct (m_ended (machs w m)); injection Hx as <- <-; eexists; (split; [reflexivity|]).
      + simpl emitsf. rewrite addl_one by reflexivity. eapply tinv_log; [exact Hi|reflexivity|discriminate|exact Ht].
      + simpl emitsf. destruct b; rewrite addl_one by reflexivity; (eapply tinv_log; [exact Hi|reflexivity|discriminate|exact Ht]).
    - (* IGetPair *)
      injection Hx as <- <-. eexists. split.
      + split; [reflexivity|]. destruct (gs t) as [|[k its] r] eqn:Eg; [exact I|].
        destruct k; auto. destruct its; auto. intros ->. eapply Hpair. reflexivity.
      + rewrite addl_one by reflexivity. eapply tinv_log; [exact Hi|reflexivity|discriminate|exact Ht].
    - (* IQOffer *)
      rewrite (Hoff _ _ _ _ _ eq_refl) in Hx. injection Hx as <- <-. eexists. split; [reflexivity|].
      simpl emitsf. rewrite addl_one by reflexivity. eapply tinv_log; [exact Hi|reflexivity|discriminate|exact Ht].
    - (* IQPoll *)
      destruct (queues w q) as [|p r]; injection Hx as <- <-.
      + exists (gs t). split; [reflexivity|]. eapply tinv_same; [exact Hi|reflexivity|exact Ht].
      + eexists. split; [exists (pairs w p); reflexivity|].
        change ((FTake q p (pairs w p), []) :: add_item (OTake q p (pairs w p)) (gs t))
          with (scan_st (gs t) (OTake q p (pairs w p))).
        eapply tinv_log; [exact Hi|reflexivity|discriminate|exact Ht].
    - (* IExecute *)
      destruct (shut w x); injection Hx as <- <-; eexists; (split; [reflexivity|]); simpl emitsf; rewrite addl_one by reflexivity.
      + eapply tinv_log; [exact Hi|reflexivity|discriminate|exact Ht].
      + eapply tinv_log; [exact Hi|reflexivity|discriminate|]. simpl. intros x' tk'. unfold upd.
        destruct (Nat.eqb_spec x' x) as [->|]; [|apply Ht]. intro Hin. apply in_app_or in Hin.
        destruct Hin as [Hin|[<-|[]]]; [auto|exact Hp].
    - (* IMark *)
      injection Hx as <- <-. eexists. split; [reflexivity|].
      eapply tinv_log; [exact Hi|reflexivity| |exact Ht]. simpl in Hp. intro Hc. rewrite Hc in Hp. exact Hp.
  Qed.

  (** ** What programs emit *)
  Definition W {A : Set} (p : prog A) (L : res A -> list obs -> Prop) : Prop :=
    forall t k its st, WP t p (fun r g' => exists out, g' = (k, its ++ out) :: st /\ L r out) ((k, its) :: st).
  Definition LW {A : Set} (p : prog A) (L : lang) : Prop := W p (fun r out => L (thrown r) out).

  Lemma W_mono {A : Set} (p : prog A) (L L' : res A -> list obs -> Prop) :
    (forall r out, L r out -> L' r out) -> W p L -> W p L'.
  Proof.
    intros H Hp t k its st. eapply wp_mono; [|apply Hp]. simpl. intros r g' (out & -> & Hl). eauto.
  Qed.
  Lemma W_ret {A : Set} (a : A) (L : res A -> list obs -> Prop) : L (Ok a) [] -> W (Ret a) L.
  Proof. intros H t k its st. exists []. rewrite app_nil_r. auto. Qed.
  Lemma W_throw {A : Set} x (L : res A -> list obs -> Prop) : L (Err x) [] -> W (Throw x) L.
  Proof. intros H t k its st. exists []. rewrite app_nil_r. auto. Qed.
  Lemma W_of_res {A : Set} (r : res A) (L : res A -> list obs -> Prop) : L r [] -> W (of_res r) L.
  Proof. destruct r; [apply W_ret|apply W_throw]. Qed.
  Lemma W_skip (L : res unit -> list obs -> Prop) : L (Ok tt) [] -> W skip L.
  Proof. apply W_ret. Qed.
  Lemma W_then_res {A B : Set} (p : prog A) (k : res A -> prog B) L1 (L : res B -> list obs -> Prop) :
    W p L1 -> (forall r o1, L1 r o1 -> W (k r) (fun r' out => L r' (o1 ++ out))) -> W (then_res p k) L.
  Proof.
    intros Hp Hk t f its st. apply wp_then_res. eapply wp_mono; [|apply Hp]. simpl.
    intros r g' (o1 & -> & H1). eapply wp_mono; [|apply (Hk r o1 H1)]. simpl.
    intros r' g'' (o2 & -> & H2). exists (o1 ++ o2). rewrite app_assoc. auto.
  Qed.
  Lemma W_bind {A B : Set} (p : prog A) (f : A -> prog B) L1 (L : res B -> list obs -> Prop) :
    W p L1 -> (forall a o1, L1 (Ok a) o1 -> W (f a) (fun r' out => L r' (o1 ++ out))) ->
    (forall x o1, L1 (Err x) o1 -> L (Err x) o1) -> W (bind p f) L.
  Proof.
    intros Hp Hf Hx. eapply W_then_res; [exact Hp|]. intros [a|x] o1 H1; [auto|].
    apply W_throw. rewrite app_nil_r. auto.
  Qed.
  Lemma W_try_catch {A : Set} (p : prog A) h L1 (L : res A -> list obs -> Prop) :
    W p L1 -> (forall a o1, L1 (Ok a) o1 -> L (Ok a) o1) ->
    (forall x o1, L1 (Err x) o1 -> is_exception x = true -> W (h x) (fun r out => L r (o1 ++ out))) ->
    (forall x o1, L1 (Err x) o1 -> is_exception x = false -> L (Err x) o1) -> W (try_catch p h) L.
  Proof.
    intros Hp H1 H2 H3. eapply W_then_res; [exact Hp|]. intros [a|x] o1 Ho.
    - apply W_ret. rewrite app_nil_r. auto.
    - destruct (is_exception x) eqn:Ex; [auto|]. apply W_throw. rewrite app_nil_r. auto.
  Qed.
  Lemma W_try_finally {A : Set} (p : prog A) f L1 (L : res A -> list obs -> Prop) :
    W p L1 ->
    (forall r o1, L1 r o1 -> W f (fun r' out => match r' with Ok _ => L r (o1 ++ out) | Err x => L (Err x) (o1 ++ out) end)) ->
    W (try_finally p f) L.
  Proof.
    intros Hp H1. eapply W_then_res; [exact Hp|]. intros r o1 Ho.
    eapply W_bind; [apply H1; exact Ho| |].
    - simpl. intros _ o2 H2. apply W_of_res. rewrite app_nil_r. exact H2.
    - simpl. auto.
  Qed.
  (** instructions *)
  Definition gen (i : instr) : Prop :=
    match i with IMark (OLog _) => True | IMark _ | ICall _ | IQPoll _ | IExecute _ _ => False | _ => True end.
  Lemma gen_wp i t k its st (Q : res (iret i) -> stack -> Prop) : gen i ->
    (forall v, Q (Ok v) ((k, its ++ emitsf i v) :: st)) -> WP t (op i) Q ((k, its) :: st).
  Proof.
    intros Hi HQ. apply wp_op.
    - destruct i; try exact I; try contradiction. destruct o; try contradiction; exact I.
    - intros v g' H. destruct i; simpl in H; try contradiction; try (subst g'; apply HQ).
      + destruct H as [-> _]. apply HQ.
      + destruct o; try contradiction. subst g'. apply HQ.
  Qed.
  Lemma W_op i (L : res (iret i) -> list obs -> Prop) : gen i ->
    (forall v, L (Ok v) (emitsf i v)) -> W (op i) L.
  Proof. intros Hi HL t k its st. apply gen_wp; eauto. Qed.
  Lemma W_opb {B : Set} i (f : iret i -> prog B) (L : res B -> list obs -> Prop) : gen i ->
    (forall v, W (f v) (fun r out => L r (emitsf i v ++ out))) -> W (bind (op i) f) L.
  Proof.
    intros Hi Hf. eapply W_bind with (L1 := fun r o => exists v, r = Ok v /\ o = emitsf i v).
    - apply W_op; eauto.
    - intros a o1 (v & [= <-] & ->). apply Hf.
    - intros x o1 (v & [= ] & _).
  Qed.
  Lemma W_exec (x : xid) (tk : task) (L : res bool -> list obs -> Prop) : task_ok x tk ->
    (forall v : bool, L (Ok v) [if v then OSubmit x tk else OWr (WrReject x tk)]) -> W (op (IExecute x tk)) L.
  Proof.
    intros Hi HL t k its st. apply wp_op; [exact Hi|]. intros v g' H. simpl in H. subst g'. simpl. eauto.
  Qed.

  (** callbacks *)
  Lemma W_call_lib c p (L : res unit -> list obs -> Prop) :
    LW p (callCode E c) -> (forall r, L r (called c (thrown r))) -> W (call_lib c p) L.
  Proof.
    intros Hp HL t k its st. unfold call_lib. apply wp_bind, wp_op; [exact I|].
    intros u g' H. simpl in H. subst g'. unfold scan_st. simpl.
    apply wp_then_res. eapply wp_mono; [|apply Hp]. simpl. intros r g' (out & -> & Ho).
    apply wp_bind, wp_op; [simpl; auto|]. intros _ g' ->. unfold scan_st. simpl.
    eapply wp_mono; [|apply (W_of_res r (fun r' o => r' = r /\ o = [])); auto]. simpl.
    intros r' g' (o & -> & -> & ->). exists (called c (thrown r)). rewrite app_nil_r, <- app_assoc. auto.
  Qed.
  Lemma W_call_user c (L : res unit -> list obs -> Prop) :
    (forall x out, user_items out -> callCode E c x out) -> (forall r, L r (called c (thrown r))) -> W (call_user c) L.
  Proof.
    intros Hp HL t k its st. unfold call_user. apply wp_bind, wp_op; [exact I|].
    intros u g' H. simpl in H. subst g'. unfold scan_st. simpl.
    apply wp_bind, wp_op; [discriminate|]. intros r g' (out & Hu & ->). simpl addl.
    apply wp_bind, wp_op; [simpl; auto|]. intros _ g' ->. unfold scan_st. simpl.
    eapply wp_mono; [|apply (W_of_res r (fun r' o => r' = r /\ o = [])); auto]. simpl.
    intros r' g' (o & -> & -> & ->). exists (called c (thrown r)). rewrite app_nil_r, <- app_assoc. auto.
  Qed.

  Ltac wop := first [ apply W_op; [exact I|intros ?] | apply W_opb; [exact I|intros ?] ]; cbn [emitsf List.app].
  Ltac fin := first [ apply W_skip | apply W_throw | apply W_ret | apply W_of_res ]; cbn [List.app thrown].

  (** a function that emits exactly the call of c *)
  Definition CW (p : prog unit) (c : call) : Prop := LW p (callL c).
  Lemma CW_lib c p : LW p (callCode E c) -> CW (call_lib c p) c.
  Proof. intro H. apply W_call_lib; [exact H|]. intro r. reflexivity. Qed.
  Lemma CW_user c : (forall x out, user_items out -> callCode E c x out) -> CW (call_user c) c.
  Proof. intro H. apply W_call_user; [exact H|]. intro r. reflexivity. Qed.

  Definition is_ufl (u : ufl) (c : call) : Prop :=
    match c with KUflExn u' _ _ _ | KUflAfterEnd u' _ _ | KUflBeforeStart u' _ _ => u' = u | _ => False end.
  Lemma W_call_ufl u c : is_ufl u c -> CW (call_ufl E u c) c.
  Proof.
    intro H. destruct u; simpl.
    - apply CW_user. intros x out Hu. destruct c; try contradiction; simpl in H; subst; exact Hu.
    - apply CW_lib. destruct c; try contradiction; simpl in H; subst; simpl; wop; wop; try wop; simpl; eauto.
  Qed.
  Lemma W_call_unmapped h e m : CW (call_unmapped E h e m) (KUnmapped h e m).
  Proof.
    destruct h; simpl; [apply CW_user; intros x out Hu; exact Hu|].
    apply CW_lib. wop. wop. destruct v0 as [s|]; [wop|fin]; (exists v; eexists; eexists; split; [reflexivity|]; split; reflexivity).
  Qed.
  Lemma W_call_leaf fin0 l m f e t : CW (call_leaf E fin0 l m f e t) (KListen fin0 (LLeaf l) m f e t).
  Proof.
    destruct l; simpl; [apply CW_user; intros x out Hu; exact Hu|].
    apply CW_lib. wop. wop. simpl. eauto.
  Qed.
  Lemma W_foreach {X : Set} (l : list X) (f : X -> prog unit) (c : X -> call) :
    (forall x, In x l -> CW (f x) (c x)) -> LW (foreach l f) (callsL (map c l)).
  Proof.
    intro H. induction l as [|x r IH]; simpl.
    - fin. split; reflexivity.
    - eapply W_bind; [apply H; left; reflexivity| |].
      + simpl. intros _ o1 ->. eapply W_mono; [|apply IH; intros; apply H; right; assumption].
        simpl. intros r' out Ho. right. exists (called (c x) None), out. split; [reflexivity|]. split; [reflexivity|exact Ho].
      + simpl. intros y o1 ->. left. exists y. split; reflexivity.
  Qed.
  Lemma W_each_consumer (f : leaf -> prog unit) (cl : leaf -> call) k c : (forall l, CW (f l) (cl l)) ->
    forall fuel vs pend, LW (each_consumer f k c fuel vs pend) (walkL cl k c fuel vs pend).
  Proof.
    intro H. induction fuel as [|n IH]; intros vs pend; simpl.
    - wop. eapply W_mono; [|apply (W_foreach _ _ cl); intros; apply H]. simpl. intros r out Ho. eauto.
    - wop. eapply W_bind; [apply (W_foreach _ _ cl); intros; apply H| |].
      + simpl. intros _ o1 Ho1. destruct v as [[i l]|].
        * eapply W_mono; [|apply IH]. simpl. intros r' out Ho. exists (Some (i, l)). eexists. split; [reflexivity|].
          right. exists o1, out. auto.
        * fin. exists None. eexists. split; [reflexivity|]. right. exists o1, []. repeat split; auto.
      + simpl. intros y o1 Ho1. exists v. eexists. split; [reflexivity|]. left. exists y. auto.
  Qed.
  Lemma W_call_listener fin0 l m f e t : CW (call_listener E fin0 l m f e t) (KListen fin0 l m f e t).
  Proof.
    destruct l as [lf|k]; simpl; [apply W_call_leaf|].
    apply CW_lib. wop. eapply W_mono; [|apply (W_each_consumer _ (fun lf => KListen fin0 (LLeaf lf) m f e t)); intros; apply W_call_leaf].
    simpl. intros r out Ho. eauto.
  Qed.
  Lemma W_notify m fin0 f e t : LW (notify E m fin0 f e t) (notifyL m fin0 (st_or m f) e t).
  Proof.
    unfold notify. wop. destruct v as [l0|]; [|fin; left; auto].
    wop. destruct v as [l|]; [|fin; right; left; eauto].
    eapply W_mono; [|apply W_call_listener]. simpl. intros r out ->. right. right. exists l0, l. reflexivity.
  Qed.
  Lemma W_update m s : LW (update_current E m s) (updateL E m s).
  Proof.
    unfold update_current. wop. destruct v; [wop|fin]; simpl; split; auto.
  Qed.
  Lemma W_default k e m : k = strat_of E m -> LW (default_process E k e m) (defaultL E k e m).
  Proof.
    intro Hk. unfold default_process.
    match goal with |- LW (bind (queue_size ?q) ?f) ?L => change (LW (c <- op (IQLook q) ;; n <- op (IQSize q c) ;; f n) L) end.
    wop. rename v into c. wop. destruct (andb _ _) eqn:Ef.
    - eapply W_mono; [|apply W_call_ufl; reflexivity]. simpl. intros r out Ho.
      exists c, v. eexists. split; [reflexivity|]. unfold full. rewrite Ef. exact Ho.
    - assert (Hrest : forall p pre0,
        (forall x out, enqueueL E k e m x out -> exists out0, out = OWr (WrGot p) :: out0 -> True) ->
        W (py <- op (IGetPay e) ;;
           e' <- match py with
           | Some _ => nm <- op (IGetName e) ;; py' <- op (IGetPay e) ;; c <- op (INewCopy nm py') ;; op (ISetPair p c m) ;;; Ret c
           | None => op (ISetPair p e m) ;;; Ret e
           end ;;
           op (IQOffer (s_queue (strat E k)) p e m e') ;;;
           ok <- op (IExecute (s_exec (strat E k)) {| tk_strat := k; tk_mach := m |}) ;;
           if (ok : bool) then skip else Throw XRejected)
          (fun r out => pre0 = [OWr (WrGot p)] -> enqueueL E k e m (thrown r) (pre0 ++ out))).
      { intros p pre0 _.
        assert (Hsub : forall q e' o1, (forall out', (o1 ++ [OOffer q p e m e' m]) ++ out' = o1 ++ [OOffer q p e m e' m] ++ out') ->
          W (op (IQOffer q p e m e') ;;;
             ok <- op (IExecute (s_exec (strat E k)) {| tk_strat := k; tk_mach := m |}) ;;
             if (ok : bool) then skip else Throw XRejected)
            (fun r out => exists out', out = OOffer q p e m e' m :: out' /\ submitL E k m (thrown r) out')).
        { intros q e' o1 _. wop.
          eapply W_bind; [apply W_exec with (L := fun r o => exists v : bool, r = Ok v /\ o = [if v then OSubmit (s_exec (strat E k)) {| tk_strat := k; tk_mach := m |} else OWr (WrReject (s_exec (strat E k)) {| tk_strat := k; tk_mach := m |})])| |].
          - split; [exact Hk|reflexivity].
          - eauto.
          - intros b o2 (b' & [= <-] & ->). destruct b; fin; eexists; (split; [reflexivity|]); [left|right]; auto.
          - intros x o2 (b' & [= ] & _). }
        wop. eapply W_bind with (L1 := fun r o =>
            match r with
            | Ok e' => (v0 = None /\ e' = e /\ o = [OWr (WrPair p e m)]) \/
                       exists y nm y', v0 = Some y /\ o = [R (RdName e nm); R (RdPay e y'); OWr (WrCopy e' nm y'); OWr (WrPair p e' m)]
            | Err _ => False
            end).
        - destruct v0 as [y|].
          + wop. wop. wop. wop. fin. right. exists y, v0, v1. auto.
          + wop. fin. left. auto.
        - intros e' o1 Ho. eapply W_mono; [|apply (Hsub _ _ []); reflexivity]. simpl.
          intros r out (out' & -> & Hs) ->. exists p, out'. split; [exact Hs|].
          destruct Ho as [(-> & -> & ->)|(y & nm & y' & -> & ->)]; [left; reflexivity|].
          right. exists y, nm, y', e'. reflexivity.
        - intros x o1 []. }
      eapply W_bind with (L1 := fun r o => match r with Ok p => o = [OWr (WrGot p)] | Err _ => False end).
      + unfold pool_take. wop. destruct v0 as [p|]; [fin; reflexivity|]. wop. reflexivity.
      + intros p o1 ->. eapply W_mono; [|apply (Hrest p [OWr (WrGot p)]); intros; exists []; auto].
        simpl. intros r out Ho. exists c, v. eexists. split; [reflexivity|]. unfold full. rewrite Ef. exact (Ho eq_refl).
      + intros x o1 [].
  Qed.
  Lemma W_same nm p : W (same_event nm p) (fun r out => match r with
    | Ok d => exists e' m' nm', out = [R (RdPair p (Some (e', m'))); R (RdName e' nm')] /\ d = String.eqb nm' nm
    | Err y => y = XNullPointer /\ out = [R (RdPair p None)]
    end).
  Proof.
    unfold same_event. wop. destruct v as [[e' m']|]; [|fin; auto]. wop. fin. eauto 6.
  Qed.
  Lemma W_any_match nm ps : W (any_match nm ps) (fun r out => matchL nm ps (match r with Ok b => inr b | Err y => inl y end) out).
  Proof.
    induction ps as [|p r IH]; simpl.
    - fin. constructor.
    - eapply W_bind; [apply W_same| |].
      + intros d o1 (e' & m' & nm' & -> & ->). destruct (String.eqb_spec nm' nm) as [->|N].
        * fin. constructor.
        * eapply W_mono; [|exact IH]. simpl. intros. constructor; auto.
      + intros y o1 [-> ->]. constructor.
  Qed.
  Lemma W_any_next nm q f : forall c, W (any_next nm q f c) (fun r out => scanL nm q f c (match r with Ok b => inr b | Err y => inl y end) out).
  Proof.
    induction f as [|f IH]; intro c; simpl.
    - wop. eapply W_mono; [|apply W_any_match]. simpl. intros. constructor. auto.
    - wop. destruct v as [[[p c'] fi]|]; [|fin; constructor].
      eapply W_bind; [apply W_same| |].
      + intros d o1 (e' & m' & nm' & -> & ->). destruct (String.eqb_spec nm' nm) as [->|N].
        * fin. constructor.
        * destruct fi; [fin; constructor; exact N|]. eapply W_mono; [|apply IH]. simpl. intros. constructor; auto.
      + intros y o1 [-> ->]. constructor.
  Qed.
  Lemma W_process k e m : k = strat_of E m -> LW (process_event E k e m) (processL E k e m).
  Proof.
    intro Hk. unfold process_event, processL, LW. destruct (s_drop (strat E k)); [|apply W_default; exact Hk].
    wop. wop. eapply W_bind; [apply W_any_next| |].
    - simpl. intros b o1 Hm. destruct b.
      + wop. eexists _, _, _, _, _. split; [reflexivity|]. split; [exact Hm|]. split; reflexivity.
      + eapply W_mono; [|apply W_default; exact Hk]. simpl. intros r out Ho.
        eexists _, _, _, _, _. split; [reflexivity|]. split; [exact Hm|]. exact Ho.
    - simpl. intros y o1 Hm. eexists _, _, _, o1, []. rewrite app_nil_r. split; [reflexivity|]. split; [exact Hm|]. split; reflexivity.
  Qed.
  Lemma W_fire m e : LW (fire E m e) (fireL E m e).
  Proof.
    unfold fire. wop. destruct v; simpl negb; cbn iota.
    - wop. destruct v.
      + wop. destruct v.
        * eapply W_mono; [|apply W_call_ufl; reflexivity]. simpl. intros r out ->. right. left. reflexivity.
        * eapply W_mono; [|apply W_process; reflexivity]. simpl. intros r out Ho. right. right. exists out. split; [left; reflexivity|exact Ho].
      + simpl. eapply W_mono; [|apply W_process; reflexivity]. simpl. intros r out Ho. right. right. exists out. split; [right; reflexivity|exact Ho].
    - eapply W_mono; [|apply W_call_ufl; reflexivity]. simpl. intros r out ->. left. reflexivity.
  Qed.

  (** sequencing of languages *)
  Lemma LW_seq {B : Set} (p : prog unit) (q : prog B) (L1 L2 : lang) :
    LW p L1 -> LW q L2 -> LW (p ;;; q) (seqx L1 L2).
  Proof.
    intros H1 H2. eapply W_bind; [exact H1| |].
    - simpl. intros _ o1 Ho. eapply W_mono; [|exact H2]. simpl. intros r out Ho'. right. eauto 6.
    - simpl. intros x o1 Ho. left. eauto.
  Qed.
  Lemma LW_emit i : iret i = unit -> gen i -> LW (op i) (fun x out => x = None /\ exists v, out = emitsf i v).
  Proof. intros Hu Hg. apply W_op; [exact Hg|]. intro v. simpl. eauto. Qed.
  Lemma LW_mono {A : Set} (p : prog A) (L L' : lang) : (forall x out, L x out -> L' x out) -> LW p L -> LW p L'.
  Proof. intros H. apply W_mono. auto. Qed.
  Lemma LW_cur {A : Set} m (f : option sid -> prog A) (L : option sid -> lang) :
    (forall c, LW (f c) (L c)) -> LW (c <- op (IGetCur m) ;; f c) (curL m L).
  Proof.
    intro H. apply W_opb; [exact I|]. intro c. eapply W_mono; [|apply H]. simpl. intros r out Ho.
    exists c, out. auto.
  Qed.
  Lemma LW_log s : LW (log_line s) (emit [OLog s]).
  Proof. apply W_op; [exact I|]. intro v. split; reflexivity. Qed.

  Lemma W_call_handler h e m x : CW (call_handler E h e m x) (KHandler h e m x).
  Proof.
    destruct h; simpl; [apply CW_user; intros y out Hu; exact Hu|].
    apply CW_lib. simpl. apply LW_cur. intro c. apply LW_seq; [apply LW_log|apply W_fire].
  Qed.
  Lemma W_subs start p : LW (l <- op (IGetSubs p) ;; foreach (if start : bool then l else rev l)
                        (fun i => call_user (KSub start p i))) (subsL start p).
  Proof.
    wop. eapply W_mono; [|apply W_foreach; intros i _; apply CW_user; intros x out H; exact H].
    simpl. intros r out H. exists v, out. split; [reflexivity|exact H].
  Qed.
  Lemma W_act_code a : forall c e m, (forall x out, actL E a e m x out -> callCode E c x out) -> CW (act_code E c a e m) c.
  Proof.
    induction a; intros c e m Hc; simpl.
    - apply CW_user. intros x out Hu. apply Hc. exact Hu.
    - apply CW_lib. eapply LW_mono; [apply Hc|]. simpl.
      eapply W_try_catch; [apply IHa; auto| | |].
      + intros u o1 ->. exists None. simpl. auto.
      + intros x o1 -> Hx. eapply W_mono; [|apply W_call_handler]. simpl. intros r out ->.
        exists (Some x). rewrite Hx. reflexivity.
      + intros x o1 -> Hx. exists (Some x). rewrite Hx. auto.
    - apply CW_lib. eapply LW_mono; [apply Hc|]. simpl.
      apply LW_seq; [apply LW_log|]. apply (LW_seq _ (fire E (ap_mach (apps E p)) (ELife LComplete)) _ _ (W_subs true p)). apply W_fire.
    - apply CW_lib. eapply LW_mono; [apply Hc|]. fin. split; reflexivity.
    - apply CW_lib. eapply LW_mono; [apply Hc|]. simpl.
      apply LW_seq; [apply LW_log|]. apply (LW_seq _ (fire E (ap_mach (apps E p)) (ELife LComplete)) _ _ (W_subs false p)). apply W_fire.
    - apply CW_lib. eapply LW_mono; [apply Hc|]. simpl.
      apply LW_seq; [apply LW_log|]. destruct (ap_exit (apps E p)).
      + apply LW_seq; [apply W_fire|]. apply W_op; [exact I|]. intro v. split; reflexivity.
      + fin. split; reflexivity.
  Qed.
  Lemma W_run_acts en s n l e m : LW (run_acts E en s n l e m) (runL en s e m n l).
  Proof.
    induction l as [|a r IH]; simpl; wop; destruct (Nat.eqb_spec (List.length v) n) as [Hn|Hn]; simpl negb; cbn iota.
    - fin. constructor. exact Hn.
    - fin. constructor. exact Hn.
    - eapply W_bind; [apply W_act_code; simpl; auto| |].
      + simpl. intros _ o1 ->. eapply W_mono; [|exact IH]. simpl. intros r' out Ho.
        apply (run_next en s e m n a r v (thrown r') out Hn Ho).
      + simpl. intros x o1 ->. apply (run_throw en s e m n a r v x Hn).
    - fin. constructor. exact Hn.
  Qed.
  Lemma W_on_acts en s e m : LW (on_acts E en s e m) (actsL en s e m).
  Proof. unfold on_acts. wop. eapply W_mono; [|apply W_run_acts]. simpl. intros r out Ho. exists v, out. auto. Qed.

  Lemma W_start m : LW (start E m) (startL m).
  Proof.
    unfold start. wop. destruct v as [init|]; [|fin; eexists _, _; split; [reflexivity|split; reflexivity]].
    wop. destruct v; [fin; eexists _, _; (split; [reflexivity|]); eexists _, _; split; [reflexivity|split; reflexivity]|].
    wop. destruct v; [fin; eexists _, _; (split; [reflexivity|]); eexists _, _; (split; [reflexivity|]); eexists _, _; split; [reflexivity|split; reflexivity]|].
    wop. destruct v.
    - wop. eapply W_mono; [|eapply LW_seq; [apply W_notify|];
        eapply LW_seq; [apply W_on_acts|];
        eapply LW_seq; [apply W_notify|];
        apply W_op with (L := fun r out => emit [OUnended m] (thrown r) out); [exact I|split; reflexivity]].
      simpl. intros r out Ho. eexists _, _; (split; [reflexivity|]); eexists _, _; (split; [reflexivity|]); eexists _, _; (split; [reflexivity|]).
      right. eexists. split; [reflexivity|exact Ho].
    - fin. eexists _, _; (split; [reflexivity|]); eexists _, _; (split; [reflexivity|]); eexists _, _; (split; [reflexivity|]). left. auto.
  Qed.
  Lemma W_start_in m s : LW (start_in m s) (startInL m s).
  Proof.
    unfold start_in. wop. destruct v; simpl negb; cbn iota; [|fin; left; auto].
    wop. destruct v; [|fin; right; left; auto]. wop. wop. right. right. auto.
  Qed.
  Lemma W_some (f : sid -> prog unit) L c : (forall s, LW (f s) (L s)) ->
    LW (match c with None => Throw XNullPointer | Some s => f s end) (someL L c).
  Proof. intro H. destruct c; simpl; [apply H|]. fin. split; reflexivity. Qed.
  Lemma LW_cur_seq {B : Set} m (f : option sid -> prog unit) (q : prog B) (L : option sid -> lang) L2 :
    (forall c, LW (f c) (L c)) -> LW q L2 -> LW (c <- op (IGetCur m) ;; f c ;;; q) (seqx (curL m L) L2).
  Proof.
    intros H Hq. apply W_opb; [exact I|]. intro c. simpl. eapply W_bind; [apply H| |].
    - simpl. intros _ o1 Ho. eapply W_mono; [|exact Hq]. simpl. intros r out Ho'. right.
      exists (R (RdCur m c) :: o1), out. repeat split; auto. exists c, o1. auto.
    - simpl. intros x o1 Ho. left. exists x. split; auto. exists c, o1. auto.
  Qed.
  Lemma W_execute k e m : LW (execute E k e m) (executeL E k e m).
  Proof.
    unfold execute. apply LW_cur. intro c. wop.
    eapply W_mono; [intros r out Ho; eexists _, _; (split; [reflexivity|]); exact Ho|].
    destruct v as [[t|]|]; [|apply W_call_unmapped|fin; split; reflexivity].
    destruct (String.eqb nm_noop (sname E t)).
    - apply LW_cur_seq; [intro; apply W_notify|]. apply LW_cur. intro. apply W_notify.
    - apply LW_cur. intro f.
      apply LW_seq; [apply W_notify|].
      apply LW_cur_seq; [intro; apply W_some; intro; apply W_on_acts|].
      apply LW_seq; [apply W_update|].
      apply LW_cur_seq; [intro; apply W_some; intro; apply W_on_acts|].
      apply LW_seq; [apply W_notify|].
      wop. destruct v.
      + eapply W_mono; [|apply W_update]. simpl. intros r out Ho. exists true, out. auto.
      + fin. exists false, []. auto.
  Qed.

  Lemma W_app_stop p : LW (app_stop E p) (appStopL E p).
  Proof.
    unfold app_stop. apply LW_cur. intro c. destruct (orb _ _); [apply W_fire|].
    destruct (andb _ _); simpl; fin; split; reflexivity.
  Qed.
  Lemma W_app_start p : LW (app_start E p) (appStartL E p).
  Proof.
    unfold app_start. apply LW_cur. intro c. wop. destruct v; simpl negb; cbn iota.
    - destruct (andb _ _) eqn:Ea.
      + eapply W_mono; [|apply W_fire]. simpl. intros r out Ho. right. eexists. split; [reflexivity|]. exact Ho.
      + fin. right. eexists. split; [reflexivity|]. split; reflexivity.
    - eapply W_mono; [|eapply LW_seq; [apply W_start|];
                       eapply LW_seq; [apply W_fire|];
                       apply W_try_finally with (L1 := fun r out => awaitL p (thrown r) out)
                         (L := fun r out => seqx (awaitL p) (finStopL E p) (thrown r) out)].
      + simpl. intros r out Ho. left. eexists. split; [reflexivity|exact Ho].
      + wop. destruct v.
        * wop. wop. split; auto.
        * fin. split; auto.
      + intros r o1 Ho. assert (Hr : r = Ok tt) by (destruct r as [[]|]; [reflexivity|destruct Ho; discriminate]).
        subst r. assert (Ht : LW (en <- op (IGetEnded (ap_mach (apps E p))) ;; if (en : bool) then skip else app_stop E p) (finStopL E p)).
        { wop. destruct v; [fin; eexists _, _; split; [reflexivity|split; reflexivity]|].
          eapply W_mono; [|apply W_app_stop]. simpl. intros r out Ho'. eexists _, _. split; [reflexivity|exact Ho']. }
        eapply W_mono; [|exact Ht]. intros r out Ho'. destruct r; simpl in *; right; eauto 6.
  Qed.
  Lemma W_app_error p : LW (app_error E p) (appErrorL E p).
  Proof. unfold app_error. apply LW_seq; [apply LW_log|apply W_fire]. Qed.

  Lemma W_api a : W (api_prog E a) (fun r out => apiL E a (erase a r) out).
  Proof.
    destruct a; simpl;
      try (eapply W_mono; [|first [apply W_fire|apply W_start|apply W_start_in|apply W_update|apply W_app_start|apply W_app_stop|apply W_app_error]];
           simpl; intros [[]|x] out Ho; [exists None|exists (Some x)]; split; auto; fail);
      try (wop; simpl; eauto; fail).
    { unfold queue_size. wop. wop. simpl. eauto. }
    wop. fin. destruct v as [[]|x]; simpl; [exists None|exists (Some x)]; auto.
  Qed.
  Lemma W_interp u : W (interp E u) (fun r out => user_items out).
  Proof.
    induction u as [|x|a k IH]; simpl.
    - apply W_ret. constructor.
    - apply W_throw. constructor.
    - intros t f its st. apply wp_bind, wp_op; [exact I|]. intros u g' ->. unfold scan_st. simpl.
      apply wp_then_res. eapply wp_mono; [|apply W_api]. simpl. intros r g' (out & -> & Ho).
      apply wp_bind, wp_op; [simpl; auto|]. intros _ g' ->. unfold scan_st. simpl.
      eapply wp_mono; [|apply IH]. simpl. intros r' g' (out' & -> & Hu).
      exists (OInv a :: ORet a (erase a r) :: out'). split; [rewrite <- !app_assoc; reflexivity|].
      repeat constructor; exact Hu.
  Qed.

  (** one iteration of a drain task: its items at the level of the worker *)
  Definition drainL (k : stid) (tm : mid) (r : res bool) (out : list obs) : Prop :=
    let q := s_queue (strat E k) in
    (r = Ok false /\ out = [R (RdEmpty q true)]) \/
    (r = Err XNullPointer /\ out = [R (RdEmpty q false)]) \/
    (exists p c x, r = match x with None => Ok true | Some y => Err y end /\
       out = [R (RdEmpty q false); OTake q p c; ODone q p x]).
  Lemma wp_drain_tree tk x i f its st :
    task_ok x tk ->
    WP (TWorker x i) (drain_iter E tk)
      (fun r g' => exists out, g' = (f, its ++ out) :: st /\ drainL (tk_strat tk) (tk_mach tk) r out) ((f, its) :: st).
  Proof.
    intros [Hk Hx]. unfold drain_iter. set (s := strat E (tk_strat tk)) in *.
    apply wp_bind, gen_wp; [exact I|]. intros [|]; cbv beta iota; cbn [emitsf].
    { eexists. split; [reflexivity|]. left. auto. }
    apply wp_bind, wp_op; [exact I|]. intros [p|] g'; [intros (c & ->)|intros ->].
    2:{ eexists. split; [reflexivity|]. right. left. auto. }
    simpl add_item. apply wp_bind. apply wp_then_res. apply wp_bind. apply wp_op; [exact I|].
    simpl tpost. intros v g' [-> Hv]. rewrite (Hv eq_refl). clear Hv v. simpl addl.
    assert (Hend : forall r its' (HT : takeL E (tk_strat tk) (tk_mach tk) p c (thrown r) its'),
      WP (TWorker x i) (op (IMark (ODone (s_queue s) p (thrown r))) ;;; of_res r)
       (fun (r0 : res unit) g' => match r0 with
          | Ok _ => WP (TWorker x i) (Ret true) (fun r1 g'' => exists out, g'' = (f, its ++ out) :: st /\ drainL (tk_strat tk) (tk_mach tk) r1 out) g'
          | Err y => exists out, g' = (f, its ++ out) :: st /\ drainL (tk_strat tk) (tk_mach tk) (Err y) out
          end)
       ((FTake (s_queue s) p c, its') :: (f, (its ++ [R (RdEmpty (s_queue s) false)]) ++ [OTake (s_queue s) p c]) :: st)).
    { intros r its' HT. apply wp_bind, wp_op.
      - simpl. split; [reflexivity|]. split; [reflexivity|]. exists (tk_mach tk), i. rewrite <- Hk. fold s. rewrite Hx. auto.
      - intros u g' ->. unfold scan_st. simpl.
        assert (Hd : forall r0 : res bool, r0 = match thrown r with None => Ok true | Some y => Err y end ->
           exists out, ((f, ((its ++ [R (RdEmpty (s_queue s) false)]) ++ [OTake (s_queue s) p c]) ++ [ODone (s_queue s) p (thrown r)]) :: st = (f, its ++ out) :: st) /\
             drainL (tk_strat tk) (tk_mach tk) r0 out).
        { intros r0 ->. exists [R (RdEmpty (s_queue s) false); OTake (s_queue s) p c; ODone (s_queue s) p (thrown r)].
          rewrite <- !app_assoc. split; [reflexivity|]. right. right. exists p, c, (thrown r). auto. }
        destruct r; apply (Hd _ eq_refl). }
    destruct c as [[e m]|].
    2:{ apply (Hend (Err XNullPointer)). simpl. auto. }
    assert (HW : W (try_finally
                 (try_catch
                    (en <- op (IGetEnded (tk_mach tk)) ;;
                     if (en : bool) then skip else execute E (tk_strat tk) e m)
                    (fun x => call_ufl E (s_ufl s) (KUflExn (s_ufl s) e m x)))
                 (op (IPoolOffer (s_pool s) p)))
              (fun r out => takeL E (tk_strat tk) (tk_mach tk) p (Some (e, m)) (thrown r) (R (RdPair p (Some (e, m))) :: out))).
    { eapply W_try_finally with (L1 := fun r out => exists b out1 out2, out = R (RdEnded (tk_mach tk) b) :: out1 ++ out2 /\
         if b : bool then out1 = [] /\ out2 = [] /\ thrown r = None
        else exists y, executeL E (tk_strat tk) e m y out1 /\
             match y with
             | Some z => if is_exception z
                         then out2 = called (KUflExn (s_ufl s) e m z) (thrown r)
                         else out2 = [] /\ thrown r = Some z
             | None => out2 = [] /\ thrown r = None
             end).
      - eapply W_try_catch with (L1 := fun r out => exists b out1, out = R (RdEnded (tk_mach tk) b) :: out1 /\
          if b : bool then out1 = [] /\ thrown r = None else executeL E (tk_strat tk) e m (thrown r) out1).
        + wop. destruct v; [fin; exists true, []; auto|].
          eapply W_mono; [|apply W_execute]. simpl. intros r out Ho. exists false, out. auto.
        + intros u o1 (b & out1 & -> & Ho). exists b, out1, []. rewrite app_nil_r. split; [reflexivity|].
          destruct b; [intuition|]. exists None. auto.
        + intros z o1 (b & out1 & -> & Ho) Hz. eapply W_mono; [|apply W_call_ufl; reflexivity].
          simpl. intros r out ->. destruct b; [destruct Ho; discriminate|].
          exists false, out1, (called (KUflExn (s_ufl s) e m z) (thrown r)). split; [reflexivity|].
          exists (Some z). rewrite Hz. auto.
        + intros z o1 (b & out1 & -> & Ho) Hz. destruct b; [destruct Ho; discriminate|].
          exists false, out1, []. rewrite app_nil_r. split; [reflexivity|]. exists (Some z). rewrite Hz. auto.
      - intros r o1 (b & out1 & out2 & -> & Ho). wop. exists b, out1, out2. split; [|exact Ho].
        rewrite <- app_assoc. reflexivity. }
    eapply wp_mono; [|apply (HW _ (FTake (s_queue s) p (Some (e, m))) ([] ++ [R (RdPair p (Some (e, m)))]))].
    cbv beta iota. intros r g' (out & -> & HT). apply Hend. exact HT.
  Qed.

  (** ** Open brackets can be completed *)
  Definition witem (o : obs) : Prop :=
    match o with ORd (RdEmpty _ _) | OTake _ _ _ | ODone _ _ _ | OUncaught _ _ => True | _ => False end.
  Definition root_ok (t : tid) (its : list obs) : Prop :=
    match t with TClient _ => user_items its | TWorker _ _ => Forall witem its end.
  Definition frame_ok (t : tid) (f : frame) : Prop :=
    match f with
    | (FRoot, its) => exists ext, root_ok t (its ++ ext)
    | (k, its) => exists ext o, node_ok E t (k, its ++ ext, o)
    end.

  Lemma frame_app t k its ext : frame_ok t (k, its ++ ext) -> frame_ok t (k, its).
  Proof.
    destruct k; simpl; [intros (x & H)|intros (x & o & H)..]; rewrite <- app_assoc in H; eauto.
  Qed.

  (** every frame survives an instruction or is closed correctly *)
  Lemma tpost_frames t g i v g' : tpre t g i -> tpost t g i v g' ->
    forall f, In f g -> (exists ext, In (fst f, snd f ++ ext) g') \/ (exists o, node_ok E t (fst f, snd f, o)).
  Proof.
    assert (Hadd : forall out f, In f g -> exists ext, In (fst f, snd f ++ ext) (addl out g)).
    { intros out f Hf. destruct g as [|[k its] r]; [contradiction|]. destruct Hf as [<-|Hf]; simpl.
      - exists out. auto.
      - exists []. rewrite app_nil_r. right. destruct f; exact Hf. }
    assert (Hadd1 : forall o f, In f g -> exists ext, In (fst f, snd f ++ ext) (add_item o g)).
    { intros o f Hf. destruct (Hadd [o] f Hf) as [ext H]. exists ext. destruct g as [|[k its] r]; exact H. }
    intros Hp Ht f Hf. destruct i; try (left; simpl in Ht; subst g'; apply Hadd; exact Hf; fail).
    - destruct Ht as [-> _]. left. apply Hadd. exact Hf.
    - destruct v as [p|]; simpl in Ht.
      + destruct Ht as [c ->]. left. destruct (Hadd1 (OTake q p c) f Hf) as [ext H]. exists ext. right. exact H.
      + subst. left. exists []. rewrite app_nil_r. destruct f; exact Hf.
    - destruct Ht as (out & _ & ->). left. apply Hadd. exact Hf.
    - simpl in Ht, Hp. subst g'. unfold scan_st, scan1. destruct (closes o) eqn:Ec.
      + destruct g as [|[k its] [|f' r]]; try contradiction. destruct Hf as [<-|Hf].
        * right. exists o. exact Hp.
        * left. simpl. destruct f' as [k' its']. destruct Hf as [<-|Hf]; simpl.
          -- exists [o]. auto.
          -- exists []. rewrite app_nil_r. right. destruct f; exact Hf.
      + left. destruct (opens o); simpl; [|apply Hadd1; exact Hf].
        destruct (Hadd1 o f Hf) as [ext H]. exists ext. right. exact H.
  Qed.
  (** ** The invariant, together with pair ownership *)
  Definition link1 (g : held * stack) : Prop := forall q p c r,
    snd g = (FTake q p c, []) :: r -> exists g0, fst g = (p, (true, c)) :: g0.
  Definition link (gs : tid -> held * stack) : Prop := forall t, link1 (gs t).
  Definition inv2 (w : mem) (gs : tid -> held * stack) : Prop :=
    inv E w (fun t => fst (gs t)) /\ tinv w (fun t => snd (gs t)) /\ link gs.

  Definition rooted (t : tid) (g : stack) : Prop := exists its, g = [(FRoot, its)] /\ root_ok t its.

  Lemma fst_gupd (gs : tid -> held * stack) t g t' : gupd (fun t => fst (gs t)) t (fst g) t' = fst (gupd gs t g t').
  Proof. unfold gupd. destruct (tid_eq_dec t' t); reflexivity. Qed.
  Lemma snd_gupd (gs : tid -> held * stack) t g t' : gupd (fun t => snd (gs t)) t (snd g) t' = snd (gupd gs t g t').
  Proof. unfold gupd. destruct (tid_eq_dec t' t); reflexivity. Qed.
  Lemma inv2_upd w (gs : tid -> held * stack) t g :
    inv E w (gupd (fun t => fst (gs t)) t (fst g)) -> tinv w (gupd (fun t => snd (gs t)) t (snd g)) ->
    link gs -> link1 g ->
    inv2 w (gupd gs t g).
  Proof.
    intros H1 H2 Hl H3. split; [|split].
    - eapply inv_ext; [|exact H1]. intro. apply fst_gupd.
    - eapply tinv_ext; [|exact H2]. intro. apply snd_gupd.
    - intros t'. unfold gupd. destruct (tid_eq_dec t' t); [apply H3|apply Hl].
  Qed.

  Lemma link_post t (g : held * stack) i v g1 g2 :
    link1 g -> tpre t (snd g) i -> post t (fst g) i v g1 -> tpost t (snd g) i v g2 ->
    (forall q p c1 c2 (r : stack), i = IQPoll q -> g1 = (p, (true, Some c1)) :: fst g ->
       g2 = (FTake q p c2, []) :: add_item (OTake q p c2) (snd g) -> c2 = Some c1) ->
    link1 (g1, g2).
  Proof.
    intros Hl Hp2 Hpost1 Hpost2 HQ q p c r Hg. simpl in *.
    assert (Hold : snd g = g2 -> fst g = g1 -> exists g0, g1 = (p, (true, c)) :: g0).
    { intros E1 <-. apply (Hl q p c r). rewrite E1. exact Hg. }
    assert (Hno : forall o, addl [o] (snd g) <> (FTake q p c, []) :: r).
    { intros o H. destruct (snd g) as [|[k its] r0]; [discriminate|]. injection H as _ H _. destruct its; discriminate. }
    assert (Hno1 : forall o st, add_item o st <> (FTake q p c, []) :: r).
    { intros o st H. destruct st as [|[k its] r0]; [discriminate|]. injection H as _ H _. destruct its; discriminate. }
    destruct i; simpl in Hpost1, Hpost2;
      try (exfalso; subst g2; eapply Hno; eassumption);
      try (rewrite addl_nil in Hpost2; apply Hold; auto; fail).
    - exfalso. destruct Hpost2 as [-> _]. eapply Hno; eassumption.
    - (* IPoolPoll *) destruct v as [p'|].
      + exfalso. subst g2. eapply Hno. eassumption.
      + rewrite addl_nil in Hpost2. apply Hold; auto.
    - (* IQPoll *) destruct v as [p'|]; [|subst; apply Hold; auto].
      destruct Hpost2 as [c2 ->]. injection Hg as -> -> -> <-. destruct Hpost1 as [c1 ->].
      rewrite (HQ q p c1 c [] eq_refl eq_refl eq_refl). eauto.
    - (* ICall *) destruct Hpost2 as (out & Hu & ->). destruct out as [|o out].
      + rewrite addl_nil in *. apply Hold; auto.
      + exfalso. destruct (snd g) as [|[k its] r0]; [discriminate|]. injection Hg as _ Hg _. destruct its; discriminate.
    - (* IMark *) subst g1. subst g2. unfold scan_st, scan1 in *. destruct (closes o) eqn:Ec.
      + destruct (snd g) as [|[k its] r0]; [discriminate|]. simpl in *. exfalso. eapply Hno1. eassumption.
      + simpl in Hp2. destruct (opens o) eqn:Eo; simpl in *.
        * destruct o; try discriminate Eo; try contradiction; injection Eo as <-; discriminate.
        * exfalso. eapply Hno1. eassumption.
  Qed.

  Lemma exec_inv2 w gs t i v w' :
    inv2 w gs -> pre12 (pre E) tpre t (gs t) i -> exec E w t i = Some (v, w') ->
    exists g', post12 post tpost t (gs t) i v g' /\ inv2 w' (gupd gs t g').
  Proof.
    intros (Hi1 & Hi2 & Hl) [Hp1 Hp2] Hx.
    destruct (exec_own E w (fun t => fst (gs t)) t i v w' Hi1 Hp1 Hx) as (g1 & Hpost1 & Hi1').
    destruct (i_loc _ _ _ Hi1) as [loc HL].
    destruct (exec_tree w (fun t => snd (gs t)) t i v w' Hi2 Hp2) as (g2 & Hpost2 & Hi2').
    { intros q p c r Hg. destruct (Hl _ _ _ _ _ Hg) as [g0 Hg0]. eapply il_cont with (t := t) (b := true); [exact HL|]. cbv beta. rewrite Hg0. left. reflexivity. }
    { intros q p e m e' ->. destruct Hp1 as (g0 & Hg & _). eapply il_cont with (t := t) (b := false); [exact HL|].
      cbv beta. rewrite Hg. left. reflexivity. }
    { exact Hx. }
    exists (g1, g2). split; [split; [exact Hpost1|exact Hpost2]|].
    apply inv2_upd; auto. eapply link_post; [apply Hl|exact Hp2|exact Hpost1|exact Hpost2|].
    intros q p c1 c2 r -> E1 E2. simpl in Hx. destruct (queues w q) as [|p0 r0].
    { injection Hx as <- <-. simpl in Hpost1. exfalso. rewrite Hpost1 in E1.
      apply (f_equal (@List.length _)) in E1. simpl in E1. lia. }
    injection Hx as <- <-. destruct Hpost1 as [c1' Hpost1]. simpl in E1. rewrite Hpost1 in E1. injection E1 as <- <-.
    assert (E1 : g1 = (p0, (true, Some c1')) :: fst (gs t)) by exact Hpost1. clear Hpost1.
    simpl in E1, E2. subst g1 g2.
    pose proof (ti_scan _ _ Hi2' t) as Hs. rewrite gupd_eq in Hs. simpl tr in Hs. rewrite scan_snoc in Hs.
    destruct (tid_eq_dec t t); [|congruence].
    destruct (scan t (tr w)) as [st ns]. simpl in Hs. injection Hs as -> _.
    destruct (i_loc _ _ _ Hi1') as [loc' HL'].
    assert (Hc : pairs (log t (OTake q p0 (pairs w p0)) (set_polled (upd (polled w) q (S (polled w q))) (set_queues (upd (queues w) q r0) w))) p0 = Some c1').
    { eapply il_cont with (t := t) (b := true); [exact HL'|]. rewrite gupd_eq. left. reflexivity. }
    simpl in Hc. congruence.
  Qed.

  (** both kinds of ghost state can always move on together *)
  Lemma post12_total t g i : link1 g -> pre12 (pre E) tpre t g i ->
    exists v g', post12 post tpost t g i v g' /\ link1 g'.
  Proof.
    intros Hl [Hp1 Hp2].
    assert (H : exists v g', post12 post tpost t g i v g' /\ (forall q, i = IQPoll q -> g' = g)).
    { destruct i;
        try (first [ exists tt | exists true | exists None | exists [] | exists 0 | exists (0, 0) | exists "" | exists ([], 0) ];
             eexists (_, _); split; [split; simpl; reflexivity|congruence]).
      - exists (Ok tt). eexists (_, _); split; [split; simpl; reflexivity|congruence].
      - exists (ECopy 0). eexists (_, _); split; [split; simpl; reflexivity|congruence].
      - (* IGetPair *)
        assert (Hv : exists v, (forall c g0, fst g = (p, (true, c)) :: g0 -> v = c) /\
                  match snd g with (FTake _ p' c, []) :: _ => p' = p -> v = c | _ => True end).
        { destruct (snd g) as [|[k its] r] eqn:E2.
          - destruct (fst g) as [|[p0 [b0 c0]] g0]; [exists None|exists c0]; split; auto; intros; congruence.
          - assert (Hd : match k, its with FTake _ p' c, [] => p' = p -> fst g = (p, (true, c)) :: tl (fst g) | _, _ => True end).
            { destruct k, its; auto. intros ->. destruct (Hl _ _ _ _ E2) as [g0 ->]. reflexivity. }
            destruct (fst g) as [|[p0 [b0 c0]] g0]; [exists None|exists c0]; (split; [intros; congruence|]);
              destruct k, its; auto; intros Hq; specialize (Hd Hq); congruence. }
        destruct Hv as (v & H1 & H2). exists v. eexists (_, _). split; [|congruence].
        split; simpl; (split; [reflexivity|]); assumption.
      - exists None. exists g. destruct g. split; [split; simpl; reflexivity|auto].
      - exists (Ok tt). eexists (_, _); split; [split; simpl; [reflexivity|]|congruence].
        exists []. split; [constructor|reflexivity]. }
    destruct H as (v & g' & [H1 H2] & Hq). exists v, g'. split; [split; assumption|].
    destruct g as [a b], g' as [a' b'].
    eapply (link_post t (a, b)); [exact Hl|exact Hp2|exact H1|exact H2|].
    intros q p c1 c2 r -> E1 E2. specialize (Hq q eq_refl). injection Hq as -> ->.
    exfalso. apply (f_equal (@List.length _)) in E2. simpl in E2. destruct b as [|[k its] b']; simpl in E2; lia.
  Qed.
  Lemma complete {A : Set} t (p : prog A) Q g : link1 g ->
    wp (pre12 (pre E) tpre) (post12 post tpost) t p Q g -> (forall r g', Q r g' -> Forall (frame_ok t) (snd g')) ->
    Forall (frame_ok t) (snd g).
  Proof.
    intros Hl Hp HQ. revert g Hl Hp. induction p as [a|x|i k IH]; intros g Hl Hp; [exact (HQ _ _ Hp)|exact (HQ _ _ Hp)|].
    destruct Hp as [Hpre Hk]. destruct (post12_total t g i Hl Hpre) as (v & g' & Hpost & Hl').
    specialize (IH v g' Hl' (Hk v g' Hpost)). rewrite Forall_forall in *. intros f Hf.
    destruct (tpost_frames _ _ _ _ _ (proj2 Hpre) (proj2 Hpost) f Hf) as [[ext H]|[o H]].
    - destruct f as [fk its]. eapply frame_app. apply (IH _ H).
    - destruct f as [fk its]. simpl in H. destruct fk; [destruct H|exists [], o; rewrite app_nil_r; exact H..].
  Qed.

  Definition Qd (t : tid) (g : held * stack) : Prop := fst g = [] /\ rooted t (snd g).

  Lemma wp_drain2 x i tk g : task_ok x tk -> Qd (TWorker x i) g ->
    wp (pre12 (pre E) tpre) (post12 post tpost) (TWorker x i) (drain_iter E tk) (fun _ g => Qd (TWorker x i) g) g.
  Proof.
    intros Ht [H1 (its & H2 & H3)]. destruct g as [g1 g2]. simpl in *. subst.
    eapply wp_mono; [|apply wp_pair; [apply wp_drain|apply wp_drain_tree; exact Ht]].
    simpl. intros r [g1 g2]. simpl. intros [-> (out & -> & Ho)]. split; [reflexivity|].
    exists (its ++ out). split; [reflexivity|]. apply Forall_app. split; [exact H3|].
    destruct Ho as [[_ ->]|[[_ ->]|(p & c & y & _ & ->)]]; repeat constructor.
  Qed.

  Lemma tree_wp w0 w : init_mem E w0 -> reach E w0 w ->
    exists gs, inv2 (wm w) gs /\
      (forall n, wp (pre12 (pre E) tpre) (post12 post tpost) (TClient n) (wc w n) (fun _ g => rooted (TClient n) (snd g)) (gs (TClient n))) /\
      forall x i, match ww w x i with
                  | WIdle => rooted (TWorker x i) (snd (gs (TWorker x i)))
                  | WRun _ p => wp (pre12 (pre E) tpre) (post12 post tpost) (TWorker x i) p (fun _ g => rooted (TWorker x i) (snd g)) (gs (TWorker x i))
                  end.
  Proof.
    intros H0 [sched ->].
    destruct (sound E (pre12 (pre E) tpre) (post12 post tpost) inv2 (fun t _ g => rooted t (snd g))
                (fun t tk _ g => Qd t g /\ match t with TWorker x _ => task_ok x tk | _ => True end) Qd) with
      (w := init_world E w0) (gs := fun _ : tid => (@nil (pid * (bool * content)), [(FRoot, [])] : stack)) (sched := sched) as [gs Hok].
    - intros. eapply exec_inv2; eauto.
    - intros t [g1 g2] c h [_ Hn]. simpl in Hn. destruct g2 as [|[k its] st]; [congruence|].
      eapply wp_mono; [|apply wp_pair; [apply (J_interp_all E _ t g1 I)|apply W_interp]].
      simpl. intros r [g1' g2'] [[E1 _] (out & E2 & Hu)]. split; [exact E1|]. simpl in *. eauto.
    - intros w gs x i tk r (Hi1 & Hi2 & Hl) Hlt Hd Et. exists (gs (TWorker x i)).
      assert (Htk : task_ok x tk) by (apply (ti_tasks _ _ Hi2 x); rewrite Et; left; reflexivity).
      split.
      + apply inv2_upd; [| |exact Hl|apply Hl].
        * apply (inv_same E w); try reflexivity; auto. left. reflexivity.
        * apply (tinv_same w); auto. simpl. intros x' tk'. unfold upd.
          destruct (Nat.eqb_spec x' x) as [->|]; [|apply (ti_tasks _ _ Hi2)].
          intro Hin. apply (ti_tasks _ _ Hi2). rewrite Et. right. exact Hin.
      + eapply wp_mono; [|apply wp_drain2; eauto]. simpl. auto.
    - intros w gs x i tk (Hi1 & Hi2 & Hl) Hlt [Hd Htk]. exists (gs (TWorker x i)). split.
      + apply inv2_upd; [| |exact Hl|apply Hl].
        * eapply inv_ext; [apply gupd_same|exact Hi1].
        * apply (tinv_same w); auto. apply (ti_tasks _ _ Hi2).
      + eapply wp_mono; [|apply wp_drain2; eauto]. simpl. auto.
    - intros w gs x i tk (Hi1 & Hi2 & Hl) Hlt [Hd Htk]. exists (gs (TWorker x i)). split; [|exact Hd].
      apply inv2_upd; [| |exact Hl|apply Hl].
      + eapply inv_ext; [apply gupd_same|exact Hi1].
      + apply (tinv_same w); auto. apply (ti_tasks _ _ Hi2).
    - intros w gs x i tk e (Hi1 & Hi2 & Hl) Hlt [[Hd1 (its & Hd2 & Hd3)] Htk].
      exists (fst (gs (TWorker x i)), scan_st (snd (gs (TWorker x i))) (OUncaught tk e)). split.
      + apply inv2_upd; auto.
        * apply (inv_same E w); try reflexivity; auto. right. eexists _, _. split; [reflexivity|exact I].
        * eapply tinv_log; [exact Hi2|reflexivity|discriminate|apply (ti_tasks _ _ Hi2)].
        * intros q p c r. simpl. rewrite Hd2. discriminate.
      + split; [exact Hd1|]. simpl. rewrite Hd2. exists (its ++ [OUncaught tk e]). split; [reflexivity|].
        apply Forall_app. split; [exact Hd3|]. repeat constructor.
    - destruct H0. split; [|split].
      + split; [|split].
        * split; simpl.
          -- exists (fun _ => PFresh). simpl. split; simpl; intros; rewrite ?im_pools, ?im_queues, ?im_npair in *; simpl in *;
              try constructor; try easy; try lia.
          -- intro q. simpl. rewrite im_tr, im_queues. reflexivity.
          -- intros t q p e m e' m'. simpl. rewrite im_tr. intros [].
          -- intros t p. simpl. rewrite im_tr. simpl. split; [intros []|intros [c []]].
          -- simpl. rewrite im_tr. constructor.
        * split; simpl.
          -- intro t. rewrite im_tr. reflexivity.
          -- intro t. rewrite im_tr. constructor.
          -- intros x tk. rewrite im_tasks. intros [].
        * intros t q p c r. discriminate.
      + intro n. simpl. destruct (Nat.ltb n (n_clients E)).
        * eapply wp_mono; [|apply wp_pair; [apply (J_interp_all E _ _ _ I)|apply W_interp]].
          simpl. intros r [g1 g2] [_ (out & E2 & Hu)]. simpl in *. exists out. auto.
        * exists []. split; [reflexivity|constructor].
      + intros x i. split; [reflexivity|]. exists []. split; [reflexivity|constructor].
    - exists gs. destruct Hok as (Hi & Hc & Hw). split; [exact Hi|]. split; [exact Hc|].
      intros x i. specialize (Hw x i). destruct (ww _ x i) as [|tk p]; [apply Hw|].
      eapply wp_mono; [|exact Hw]. intros r g' [[_ Hd] _]. exact Hd.
  Qed.
  Lemma rooted_ok t g : rooted t g -> Forall (frame_ok t) g.
  Proof. intros (its & -> & Hr). constructor; [|constructor]. simpl. exists []. rewrite app_nil_r. exact Hr. Qed.
  Theorem tree_world w0 w : init_mem E w0 -> reach E w0 w ->
    exists gs, inv2 (wm w) gs /\ forall t, Forall (frame_ok t) (snd (gs t)).
  Proof.
    intros H0 Hr. destruct (tree_wp w0 w H0 Hr) as (gs & Hi & Hc & Hw). exists gs. split; [exact Hi|]. intros [n|x i].
    - eapply complete; [apply Hi|apply Hc|]. intros r g'. apply rooted_ok.
    - specialize (Hw x i). destruct (ww _ x i) as [|tk p]; [apply rooted_ok, Hw|].
      eapply complete; [apply Hi|exact Hw|]. intros r g'. apply rooted_ok.
  Qed.

  (** every completed bracket is one of its language; every open bracket can
      be completed to one *)
  Theorem tree_ok w0 w : init_mem E w0 -> reach E w0 w ->
    (forall t k its o, closed t (tr (wm w)) k its o -> node_ok E t (k, its, o)) /\
    (forall t k its, opened t (tr (wm w)) k its -> frame_ok t (k, its)).
  Proof.
    intros H0 Hr. destruct (tree_world w0 w H0 Hr) as (gs & (_ & Hi & _) & Hf). split.
    - intros t k its o Hc. pose proof (ti_nodes _ _ Hi t) as Hn. rewrite Forall_forall in Hn. apply Hn. exact Hc.
    - intros t k its Ho. specialize (Hf t). rewrite (ti_scan _ _ Hi t) in Hf. rewrite Forall_forall in Hf. apply Hf. exact Ho.
  Qed.
End Tree.
