(** * Neutral.v: programs that preserve a relation on the ghost state *)
From Verif Require Import Sched Logic.

(** API calls a user program may make. *)
Fixpoint uok (allowed : api -> Prop) (u : uprog) : Prop :=
  match u with
  | URet | UThrow _ => True
  | UDo a k => allowed a /\ forall r, uok allowed (k r)
  end.

(** Instructions that only read, call back, or touch interrupt flags and latches. *)
Definition boring (i : instr) : bool :=
  match i with
  | IGetStarted _ | IGetEnded _ | IGetCur _ | IGetListener _ | IGetInit _ | IMapEmpty _
  | IDangling _ | IHasState _ _ | IMapGet _ _ _ | IEndsAt _ _ | IGetActs _ _ | IGetName _
  | IGetPay _ | IMultiIter _ | IMultiNext _ _ _ | IMultiRest _ _ _ | ILatchDown _ | ILatchAwait _ | IInterrupt _ | ISelfInterrupt | IGetSubs _ | ISetSubs _ _
  | IQLook _ | IQSize _ _ | IQIter _ | IQNext _ _ | IQRest _ _
  | ICall _ => true
  | IMark (OCall _) | IMark (OBack _ _) | IMark (OLog _) | IMark (OInv _) => true
  | _ => false
  end.

Section Neutral.
  Context (E : env) {G : Type}.
  Context (pre : tid -> G -> instr -> Prop).
  Context (post : tid -> G -> forall i, iret i -> G -> Prop).
  Context (ok : tid -> G -> Prop) (rel : tid -> G -> G -> Prop).
  Context (rel_refl : forall t g, rel t g g).
  Context (rel_trans : forall t a b c, rel t a b -> rel t b c -> rel t a c).
  Notation WP := (wp pre post).

  Definition J {A : Set} (p : prog A) : Prop :=
    forall t g, ok t g -> WP t p (fun _ g' => rel t g g' /\ ok t g') g.

  Lemma J_ret {A : Set} (a : A) : J (Ret a).
  Proof. intros t g H; simpl; auto. Qed.
  Lemma J_throw {A : Set} x : J (@Throw A x).
  Proof. intros t g H; simpl; auto. Qed.
  Lemma J_skip : J skip.
  Proof. apply J_ret. Qed.
  Lemma J_then_res {A B : Set} (p : prog A) (k : res A -> prog B) :
    J p -> (forall r, J (k r)) -> J (then_res p k).
  Proof.
    intros Hp Hk t g H. apply wp_then_res. eapply wp_mono; [|apply Hp; exact H].
    simpl. intros r g' [Hr Ho]. eapply wp_mono; [|apply Hk; exact Ho].
    simpl. intros r' g'' [Hr' Ho']. eauto.
  Qed.
  Lemma J_bind {A B : Set} (p : prog A) (f : A -> prog B) :
    J p -> (forall a, J (f a)) -> J (bind p f).
  Proof. intros Hp Hf. apply J_then_res; [exact Hp|]. intros [a|x]; [apply Hf|apply J_throw]. Qed.
  Lemma J_try_catch {A : Set} (p : prog A) h : J p -> (forall x, J (h x)) -> J (try_catch p h).
  Proof.
    intros Hp Hh. apply J_then_res; [exact Hp|]. intros [a|x]; [apply J_ret|].
    destruct (is_exception x); [apply Hh|apply J_throw].
  Qed.
  Lemma J_try_finally {A : Set} (p : prog A) f : J p -> J f -> J (try_finally p f).
  Proof.
    intros Hp Hf. apply J_then_res; [exact Hp|]. intros r. apply J_bind; [exact Hf|].
    intros _. destruct r; [apply J_ret|apply J_throw].
  Qed.
  Lemma J_of_res {A : Set} (r : res A) : J (of_res r).
  Proof. destruct r; [apply J_ret|apply J_throw]. Qed.
  Lemma J_foreach {X : Set} (l : list X) f : (forall x, J (f x)) -> J (foreach l f).
  Proof. intro H. induction l; simpl; [apply J_ret|]. apply J_bind; auto. Qed.
  Lemma J_if {A : Set} (b : bool) (p q : prog A) : J p -> J q -> J (if b then p else q).
  Proof. destruct b; auto. Qed.

  Context (Hboring : forall i, boring i = true -> J (op i)).

  Ltac jstep :=
    first
      [ apply J_ret | apply J_throw | apply J_of_res | apply J_skip
      | apply J_bind; [|intros ?] | apply J_try_catch; [|intros ?] | apply J_try_finally
      | apply J_foreach; intros ?
      | apply Hboring; reflexivity
      | match goal with
        | |- J (if ?b then _ else _) => destruct b
        | |- J (match ?x with _ => _ end) => destruct x
        end ].
  Ltac jauto := repeat (first [solve [auto] | match goal with H : _ |- _ => solve [apply H] end | jstep]).

  Lemma J_call_user c : J (call_user c).
  Proof. unfold call_user. jauto. Qed.
  Lemma J_call_lib c p : J p -> J (call_lib c p).
  Proof. intro. unfold call_lib. apply J_bind; [jauto|]. intros _. apply J_then_res; [assumption|intros r; jauto]. Qed.
  Lemma J_log_line s : J (log_line s).
  Proof. unfold log_line. jauto. Qed.
  Hint Resolve J_call_user J_call_lib J_log_line J_skip : core.
  Lemma J_call_ufl u c : J (call_ufl E u c).
  Proof. unfold call_ufl, ufl_default. destruct u; auto. apply J_call_lib. destruct c; jauto. Qed.
  Lemma J_call_unmapped h e m : J (call_unmapped E h e m).
  Proof. unfold call_unmapped. destruct h; auto. apply J_call_lib. jauto. Qed.
  Lemma J_call_leaf fin l m f e s : J (call_leaf E fin l m f e s).
  Proof. unfold call_leaf. destruct l; auto. apply J_call_lib. jauto. Qed.
  Hint Resolve J_call_ufl J_call_unmapped J_call_leaf : core.
  Lemma J_each_consumer f k c : (forall l, J (f l)) -> forall n vs pend, J (each_consumer f k c n vs pend).
  Proof. intro H. induction n as [|n IH]; intros vs pend; simpl; jauto. Qed.
  Lemma J_call_listener fin l m f e s : J (call_listener E fin l m f e s).
  Proof. pose proof J_each_consumer. unfold call_listener. destruct l; auto. apply J_call_lib. jauto. Qed.
  Hint Resolve J_call_listener : core.
  Lemma J_notify m fin f e s : J (notify E m fin f e s).
  Proof. unfold notify. jauto. Qed.
  Hint Resolve J_notify : core.

  Section WithProc.
  Context (Hproc : forall e m, J (process_event E (strat_of E m) e m)).
  Hint Resolve Hproc : core.
  Lemma J_fire m e : J (fire E m e).
  Proof. unfold fire. jauto. Qed.
  Hint Resolve J_fire : core.
  Lemma J_call_handler h e m x : J (call_handler E h e m x).
  Proof. unfold call_handler. destruct h; auto. apply J_call_lib. jauto. Qed.
  Hint Resolve J_call_handler : core.
  Lemma J_act_code c a e m : J (act_code E c a e m).
  Proof.
    revert c. induction a; intros c; simpl; auto; apply J_call_lib; jauto.
  Qed.
  Hint Resolve J_act_code : core.
  Lemma J_run_acts en s n l e m : J (run_acts E en s n l e m).
  Proof. induction l; simpl; jauto. Qed.
  Hint Resolve J_run_acts : core.
  Lemma J_on_acts en s e m : J (on_acts E en s e m).
  Proof. unfold on_acts. jauto. Qed.
  Hint Resolve J_on_acts : core.

  Section WithUpd.
  Context (Hupd : forall m s, J (update_current E m s)).
  Hint Resolve Hupd : core.
  Lemma J_stop m : J (stop E m).
  Proof. apply Hupd. Qed.
  Hint Resolve J_stop : core.
  Lemma J_execute k e m : J (execute E k e m).
  Proof. unfold execute. jauto. Qed.
  End WithUpd.

  Lemma J_app_stop p : J (app_stop E p).
  Proof. unfold app_stop. jauto. Qed.
  Hint Resolve J_app_stop : core.
  Lemma J_app_error p : J (app_error E p).
  Proof. unfold app_error. jauto. Qed.

  Section WithStart.
  Context (Hstart : forall m, J (start E m)).
  Hint Resolve Hstart : core.
  Lemma J_app_start p : J (app_start E p).
  Proof. unfold app_start. jauto. Qed.
  End WithStart.
  End WithProc.

  (** start from its pieces *)
  Lemma J_start (Hproc : forall e m, J (process_event E (strat_of E m) e m))
    (H1 : forall m, J (op (ICasStarted m))) (H2 : forall m s, J (op (ISetCur m s)))
    (H3 : forall m, J (op (ISetEndedFalse m))) m : J (start E m).
  Proof. pose proof (J_on_acts Hproc). unfold start. jauto. Qed.
  Lemma J_start_in
    (H1 : forall m, J (op (ICasStarted m))) (H2 : forall m s, J (op (ISetCur m s)))
    (H3 : forall m, J (op (ISetEndedFalse m))) m s : J (start_in m s).
  Proof. unfold start_in. jauto. Qed.
  Lemma J_update_current (H1 : forall m b, J (op (ICasEnded m b))) (H2 : forall m s, J (op (ISetCur m s))) m s :
    J (update_current E m s).
  Proof. unfold update_current. jauto. Qed.
  Lemma J_any_match (H : forall p, J (op (IGetPair p))) nm ps : J (any_match nm ps).
  Proof. induction ps; simpl; unfold same_event; jauto. Qed.
  Lemma J_any_next (H : forall p, J (op (IGetPair p))) nm q f : forall c, J (any_next nm q f c).
  Proof.
    pose proof (J_any_match H) as Hm. induction f as [|f IH]; intro c; simpl; unfold same_event; jauto.
  Qed.
  Lemma J_process_event (H : forall p, J (op (IGetPair p)))
    k e m (Hd : J (default_process E k e m)) : J (process_event E k e m).
  Proof. pose proof (J_any_next H). unfold process_event. jauto. Qed.

  (** An API call and the record of its return. *)
  Definition Jret (a : api) : Prop :=
    forall t g, ok t g ->
      WP t (api_prog E a) (fun r g' => WP t (op (IMark (ORet a (erase a r)))) (fun _ g'' => rel t g g'' /\ ok t g'') g') g.

  Lemma Jret_J a : J (api_prog E a) -> (forall v, J (op (IMark (ORet a v)))) -> Jret a.
  Proof.
    intros H1 H2 t g Ho. eapply wp_mono; [|apply H1; exact Ho]. intros r g' [Hr Ho'].
    eapply wp_mono; [|apply H2; exact Ho']. simpl. intros _ g'' [Hr' Ho'']. eauto.
  Qed.

  Lemma J_interp (allowed : api -> Prop) u : (forall a, allowed a -> Jret a) -> uok allowed u -> J (interp E u).
  Proof.
    intros Ha. induction u as [|x|a k IH]; intros Hu.
    - apply J_ret.
    - apply J_throw.
    - destruct Hu as [Hal Hk]. cbn [interp]. apply J_bind; [apply Hboring; reflexivity|]. intros _.
      intros t g Ho. apply wp_then_res. eapply wp_mono; [|apply (Ha a Hal); exact Ho].
      cbv beta. intros r g' H. apply wp_bind. eapply wp_mono; [|exact H].
      intros [[]|x] g''; [|auto]. intros [Hr Ho'']. eapply wp_mono; [|apply IH; [apply Hk|exact Ho'']].
      simpl. intros _ g3 [Hr3 Ho3]. eauto.
  Qed.

  (** API calls other than fire/start/startInState/stop and the app calls. *)
  Definition user_op (a : api) : option instr :=
    match a with
    | ASetListener m l => Some (ISetListener m l)
    | ACfg m o => Some (ICfg m o)
    | AAppend en s l => Some (IAddActs en s (flat_map (fun o => match o with Some a => [a] | None => [] end) l))
    | ASetPay e p => Some (ISetPay e p)
    | AMultiAdd k l => Some (IMultiAdd k l)
    | AMultiRem k l => Some (IMultiRem k l)
    | AShutdown x => Some (IShutdown x)
    | _ => None
    end.
  Lemma J_api
    (Hproc : forall e m, J (process_event E (strat_of E m) e m))
    (Hupd : forall m s, J (update_current E m s))
    (Hstart : forall m, J (start E m)) (Hstart_in : forall m s, J (start_in m s)) a :
    (forall i, user_op a = Some i -> J (op i)) ->
    J (api_prog E a).
  Proof.
    intros Hu.
    pose proof (J_fire Hproc). pose proof (J_app_stop Hproc). pose proof (J_app_error Hproc).
    pose proof (J_app_start Hproc Hstart). pose proof (J_stop Hupd).
    destruct a; simpl; auto; try (apply Hboring; reflexivity); try (apply (Hu _ eq_refl)).
    - unfold queue_size. jauto.
    - apply J_bind; [apply (Hu _ eq_refl)|intro; apply J_of_res].
  Qed.
End Neutral.
