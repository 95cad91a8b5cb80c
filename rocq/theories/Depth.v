(** * Depth.v: callbacks are invoked inside a bracket of their own; only start()
    of an app service waits *)
From Verif Require Import Sched Logic TreeSpec Tree.

Definition calls (st : stack) : nat :=
  List.length (filter (fun f : frame => match fst f with FCall _ => true | _ => false end) st).
(** marks that neither open nor close a bracket *)
Definition flat (o : obs) : Prop := closes o = false /\ opens o = None.

Local Arguments wp : simpl never.
Section Depth.
  Context (E : env) (lev : nat).
  Definition dpre (t : tid) (g : stack) (i : instr) : Prop :=
    match i with
    | IMark o => if closes o then match g with _ :: _ :: _ => True | _ => False end else g <> []
    | ICall _ => lev <= calls g /\ g <> []
    | ILatchAwait p => exists its st, g = (FApi (AAppStart p), its) :: st
    | _ => True
    end.
  Definition dpost (t : tid) (g : stack) (i : instr) : iret i -> stack -> Prop :=
    match i return iret i -> stack -> Prop with
    | IMark o => fun _ g' => g' = scan_st g o
    | IQPoll q => fun v g' =>
        match v with
        | None => g' = g
        | Some p => exists c, g' = (FTake q p c, []) :: add_item (OTake q p c) g
        end
    | _ => fun _ g' => exists out, g' = addl out g
    end.
  Notation WP := (wp dpre dpost).

  Definition D {A : Set} (p : prog A) : Prop := forall t k its st,
    lev <= S (calls ((k, its) :: st)) ->
    WP t p (fun _ g' => exists out, g' = (k, its ++ out) :: st) ((k, its) :: st).

  Lemma calls_its k its its' st : calls ((k, its) :: st) = calls ((k, its') :: st).
  Proof. unfold calls. simpl. destruct k; reflexivity. Qed.
  Lemma calls_add o st : calls (add_item o st) = calls st.
  Proof. destruct st as [|[k its] st]; [reflexivity|]. apply calls_its. Qed.
  Lemma calls_addl o st : calls (addl o st) = calls st.
  Proof. destruct st as [|[k its] st]; [reflexivity|]. apply calls_its. Qed.

  Lemma D_ret {A : Set} (a : A) : D (Ret a).
  Proof. intros t k its st _. exists []. rewrite app_nil_r. reflexivity. Qed.
  Lemma D_throw {A : Set} x : D (@Throw A x).
  Proof. intros t k its st _. exists []. rewrite app_nil_r. reflexivity. Qed.
  Lemma D_then_res {A B : Set} (p : prog A) (k : res A -> prog B) : D p -> (forall r, D (k r)) -> D (then_res p k).
  Proof.
    intros Hp Hk t f its st Hl. apply wp_then_res. eapply wp_mono; [|apply Hp; exact Hl].
    intros r g' [o ->]. eapply wp_mono; [|apply (Hk r t f (its ++ o) st); rewrite (calls_its _ _ its); exact Hl].
    intros r' g'' [o' ->]. exists (o ++ o'). rewrite app_assoc. reflexivity.
  Qed.
  Lemma D_bind {A B : Set} (p : prog A) (f : A -> prog B) : D p -> (forall a, D (f a)) -> D (bind p f).
  Proof. intros Hp Hf. apply D_then_res; [exact Hp|]. intros [a|x]; [apply Hf|apply D_throw]. Qed.
  Lemma D_try_catch {A : Set} (p : prog A) h : D p -> (forall x, D (h x)) -> D (try_catch p h).
  Proof.
    intros Hp Hh. apply D_then_res; [exact Hp|]. intros [a|x]; [apply D_ret|].
    destruct (is_exception x); [apply Hh|apply D_throw].
  Qed.
  Lemma D_of_res {A : Set} (r : res A) : D (of_res r).
  Proof. destruct r; [apply D_ret|apply D_throw]. Qed.
  Lemma D_try_finally {A : Set} (p : prog A) f : D p -> D f -> D (try_finally p f).
  Proof. intros Hp Hf. apply D_then_res; [exact Hp|]. intros r. apply D_bind; [exact Hf|]. intros _. apply D_of_res. Qed.
  Lemma D_foreach {X : Set} (l : list X) f : (forall x, D (f x)) -> D (foreach l f).
  Proof. intro H. induction l; simpl; [apply D_ret|]. apply D_bind; auto. Qed.

  (** instructions that do not open or close a bracket, call back, or wait *)
  Definition quiet (i : instr) : bool :=
    match i with IMark (OLog _) => true | IMark _ | IQPoll _ | ICall _ | ILatchAwait _ => false | _ => true end.
  Lemma D_quiet i : quiet i = true -> D (op i).
  Proof.
    intros H t k its st _. apply wp_op.
    - destruct i; try discriminate; try exact I. destruct o; try discriminate.
    - intros v g' Hg. destruct i; try discriminate; simpl in Hg;
        try (destruct Hg as [out ->]; exists out; reflexivity).
      destruct o; try discriminate. rewrite Hg. eexists. reflexivity.
  Qed.
  Lemma D_call_user c : D (call_user c).
  Proof.
    intros t k its st Hl. unfold call_user. apply wp_bind, wp_op; [discriminate|].
    intros u g' H. simpl in H. subst g'. unfold scan_st. simpl.
    apply wp_bind, wp_op.
    - split; [|discriminate]. unfold calls in *. simpl in *. destruct k; simpl in *; lia.
    - intros r g' (out & ->). simpl addl.
      apply wp_bind, wp_op; [exact I|]. intros _ g' ->. unfold scan_st. simpl.
      eapply wp_mono; [|apply (D_of_res r); rewrite (calls_its _ _ its); exact Hl].
      intros r' g' [o ->]. eexists. rewrite <- !app_assoc. reflexivity.
  Qed.
  Lemma D_call_lib c p : D p -> D (call_lib c p).
  Proof.
    intros Hp t k its st Hl. unfold call_lib. apply wp_bind, wp_op; [discriminate|].
    intros u g' H. simpl in H. subst g'. unfold scan_st. simpl.
    apply wp_then_res. eapply wp_mono; [|apply Hp; unfold calls in *; simpl in *; destruct k; simpl in *; lia].
    intros r g' [out ->]. apply wp_bind, wp_op; [exact I|]. intros _ g' ->. unfold scan_st. simpl.
    eapply wp_mono; [|apply (D_of_res r); rewrite (calls_its _ _ its); exact Hl].
    intros r' g' [o ->]. eexists. rewrite <- !app_assoc. reflexivity.
  Qed.

  Ltac dstep :=
    first
      [ apply D_ret | apply D_throw | apply D_of_res
      | apply D_quiet; reflexivity
      | apply D_call_user | apply D_call_lib
      | apply D_bind; [|intros ?] | apply D_try_catch; [|intros ?] | apply D_try_finally
      | apply D_foreach; intros ?
      | match goal with
        | |- D (if ?b then _ else _) => destruct b
        | |- D (match ?x with _ => _ end) => destruct x
        end ].
  Ltac dauto := repeat (first [solve [auto] | match goal with H : _ |- _ => solve [apply H] end | dstep]).

  Lemma D_log_line l : D (log_line l).
  Proof. apply D_quiet. reflexivity. Qed.
  Lemma D_skip : D skip.
  Proof. apply D_ret. Qed.
  Hint Resolve D_log_line D_skip : core.
  Lemma D_call_ufl u c : D (call_ufl E u c).
  Proof. unfold call_ufl, ufl_default. destruct c; dauto. Qed.
  Lemma D_call_unmapped h e m : D (call_unmapped E h e m).
  Proof. unfold call_unmapped. dauto. Qed.
  Lemma D_call_leaf fin l m f e s : D (call_leaf E fin l m f e s).
  Proof. unfold call_leaf. dauto. Qed.
  Hint Resolve D_call_ufl D_call_unmapped D_call_leaf : core.
  Lemma D_each_consumer f k c : (forall l, D (f l)) -> forall n vs pend, D (each_consumer f k c n vs pend).
  Proof. intro H. induction n as [|n IH]; intros vs pend; simpl; dauto. Qed.
  Hint Resolve D_each_consumer : core.
  Lemma D_call_listener fin l m f e s : D (call_listener E fin l m f e s).
  Proof. unfold call_listener. dauto. Qed.
  Hint Resolve D_call_listener : core.
  Lemma D_notify m fin f e s : D (notify E m fin f e s).
  Proof. unfold notify. dauto. Qed.
  Lemma D_update m s : D (update_current E m s).
  Proof. unfold update_current. dauto. Qed.
  Lemma D_stop m : D (stop E m).
  Proof. apply D_update. Qed.
  Lemma D_default k e m : D (default_process E k e m).
  Proof. unfold default_process, queue_size, pool_take. dauto. Qed.
  Lemma D_any_match nm ps : D (any_match nm ps).
  Proof. induction ps; simpl; unfold same_event; dauto. Qed.
  Hint Resolve D_any_match : core.
  Lemma D_any_next nm q f : forall c, D (any_next nm q f c).
  Proof. induction f; intro c; simpl; unfold same_event; dauto. Qed.
  Hint Resolve D_notify D_update D_stop D_default D_any_next : core.
  Lemma D_process k e m : D (process_event E k e m).
  Proof. unfold process_event. dauto. Qed.
  Hint Resolve D_process : core.
  Lemma D_fire m e : D (fire E m e).
  Proof. unfold fire. dauto. Qed.
  Hint Resolve D_fire : core.
  Lemma D_call_handler h e m x : D (call_handler E h e m x).
  Proof. unfold call_handler. dauto. Qed.
  Hint Resolve D_call_handler : core.
  Lemma D_act_code c a e m : D (act_code E c a e m).
  Proof. revert c. induction a; intros c; simpl; dauto. Qed.
  Hint Resolve D_act_code : core.
  Lemma D_run_acts en s n l e m : D (run_acts E en s n l e m).
  Proof. induction l; simpl; dauto. Qed.
  Hint Resolve D_run_acts : core.
  Lemma D_on_acts en s e m : D (on_acts E en s e m).
  Proof. unfold on_acts. dauto. Qed.
  Hint Resolve D_on_acts : core.
  Lemma D_start m : D (start E m).
  Proof. unfold start. dauto. Qed.
  Lemma D_start_in m s : D (start_in m s).
  Proof. unfold start_in. dauto. Qed.
  Lemma D_execute k e m : D (execute E k e m).
  Proof. unfold execute. dauto. Qed.
  Lemma D_app_stop p : D (app_stop E p).
  Proof. unfold app_stop. dauto. Qed.
  Lemma D_app_error p : D (app_error E p).
  Proof. unfold app_error. dauto. Qed.
  Hint Resolve D_start D_start_in D_execute D_app_stop D_app_error : core.

  (** start() of an app service, in its own bracket *)
  Lemma D_app_start p t its st : lev <= S (calls ((FApi (AAppStart p), its) :: st)) ->
    WP t (app_start E p) (fun _ g' => exists out, g' = (FApi (AAppStart p), its ++ out) :: st) ((FApi (AAppStart p), its) :: st).
  Proof.
    intro Hl. set (f := FApi (AAppStart p)) in *.
    assert (Hd : forall (A : Set) (q : prog A) o, D q -> WP t q (fun _ g' => exists out, g' = (f, its ++ out) :: st) ((f, its ++ o) :: st)).
    { intros A q o Hq. eapply wp_mono; [|apply Hq; rewrite (calls_its _ _ its); exact Hl].
      intros _ g' [o' ->]. exists (o ++ o'). rewrite app_assoc. reflexivity. }
    unfold app_start. apply wp_bind, wp_op; [exact I|]. intros c g' [o1 ->]. simpl addl.
    apply wp_bind, wp_op; [exact I|]. intros v g' [o2 ->]. simpl addl. rewrite <- app_assoc.
    destruct v; simpl negb; cbn iota.
    { destruct (andb _ _); apply Hd; dauto. }
    apply wp_bind. eapply wp_mono; [|apply Hd; apply D_start]. cbv beta. intros [u|x] g' [o3 ->]; [|eauto].
    apply wp_bind. eapply wp_mono; [|apply Hd; apply D_fire]. cbv beta. intros [u'|x] g' [o4 ->]; [|eauto].
    apply wp_try_finally. apply wp_bind, wp_op; [unfold f; simpl; eauto|]. intros i g' [o5 ->]. simpl addl. rewrite <- app_assoc.
    eapply wp_mono; [|apply Hd; dauto]. cbv beta. intros r g' [o6 ->].
    eapply wp_mono; [|apply Hd; dauto]. cbv beta. intros [u2|x] g' [o7 ->]; eauto.
  Qed.

  (** an API call in its bracket *)
  Lemma D_api a t its st : lev <= S (calls ((FApi a, its) :: st)) ->
    WP t (api_prog E a) (fun _ g' => exists out, g' = (FApi a, its ++ out) :: st) ((FApi a, its) :: st).
  Proof.
    intro Hl.
    assert (Hd : D (api_prog E a) -> WP t (api_prog E a) (fun _ g' => exists out, g' = (FApi a, its ++ out) :: st) ((FApi a, its) :: st))
      by (intro H; apply H; exact Hl).
    destruct a; try (apply Hd; simpl; solve [dauto]). apply D_app_start. exact Hl.
  Qed.
  Lemma D_interp u : D (interp E u).
  Proof.
    induction u as [|x|a k IH]; [apply D_ret|apply D_throw|].
    intros t f its st Hl. cbn [interp]. apply wp_bind, wp_op; [discriminate|]. intros v g' H.
    simpl in H. subst g'. unfold scan_st. simpl.
    apply wp_then_res. eapply wp_mono; [|apply D_api; unfold calls in *; simpl in *; destruct f; simpl in *; lia].
    cbv beta. intros r g' [o ->]. apply wp_bind, wp_op; [exact I|]. intros _ g' ->. unfold scan_st. simpl.
    eapply wp_mono; [|apply (IH r); rewrite (calls_its _ _ its); exact Hl].
    intros r' g' [o' ->]. eexists. rewrite <- !app_assoc. reflexivity.
  Qed.
  Lemma D_drain tk : D (drain_iter E tk).
  Proof.
    intros t k its st Hl. unfold drain_iter. apply wp_bind, wp_op; [exact I|]. intros v g' [o ->]. simpl addl.
    destruct v; [exists o; reflexivity|]. apply wp_bind, wp_op; [exact I|]. intros [p|] g' Hg; [|simpl in Hg; subst g'; exists o; reflexivity].
    destruct Hg as [c ->]. simpl add_item.
    assert (Hd : D (c <- op (IGetPair p) ;;
           match c with
           | None => Throw XNullPointer
           | Some (e, m) =>
               try_finally
                 (try_catch
                    (en <- op (IGetEnded (tk_mach tk)) ;;
                     if (en : bool) then skip else execute E (tk_strat tk) e m)
                    (fun x => call_ufl E (s_ufl (strat E (tk_strat tk))) (KUflExn (s_ufl (strat E (tk_strat tk))) e m x)))
                 (op (IPoolOffer (s_pool (strat E (tk_strat tk))) p))
           end)) by dauto.
    apply wp_bind, wp_then_res. eapply wp_mono; [|apply Hd; unfold calls in *; simpl in *; destruct k; simpl in *; lia].
    cbv beta. intros r g' [o' ->]. apply wp_bind, wp_op; [exact I|]. intros _ g' ->. unfold scan_st. simpl.
    rewrite <- !app_assoc.
    destruct r; eexists; reflexivity.
  Qed.
End Depth.
