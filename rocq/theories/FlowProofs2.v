(** * FlowProofs2.v: consequences of the script (proofs for C11, C14-C18) *)
From Verif Require Import ExactSpec MemInv Lang Tree Nodes Marks QueueProofs Place Moments Truth FlowProofs ConfTruth ExactProofs.

Section Consequences.
  Context (E : env) (w0 : mem) (w : world) (H0 : init_mem E w0) (Hr : reach E w0 w).
  Notation T := (tr (wm w)).

  (** ** Parts of scripts *)
  Section Parts.
  Context (m : mid) (e : eid) (St : option sid -> Prop) (Li : option listener -> Prop)
          (Ac : bool -> sid -> list action -> Prop) (En : bool -> Prop) (Fi : sid -> bool -> Prop).
  (** marks of a transition *)
  Definition transitional (o : obs) : Prop :=
    match o with
    | OCall (KListen _ _ m' _ e' _) | OBack (KListen _ _ m' _ e' _) _
    | OCall (KAct _ _ _ e' m') | OBack (KAct _ _ _ e' m') _ => m' = m /\ e' = e
    | OState m' _ | OEnded m' => m' = m
    | _ => False
    end.
  Lemma tr_andthen (A B : script) : (forall x o, A x o -> Forall transitional o) -> (forall x o, B x o -> Forall transitional o) ->
    forall x o, andthen A B x o -> Forall transitional o.
  Proof. intros H1 H2 x o [(y & _ & H)|(o1 & o2 & -> & Ha & Hb)]; [eauto|apply Forall_app; eauto]. Qed.
  Lemma tr_told fin f s x o : told m e Li fin f s x o -> Forall transitional o.
  Proof. intros [(_ & _ & ->)|[(_ & _ & ->)|(l & _ & ->)]]; fall; simpl; auto. Qed.
  Lemma tr_done en s l : Forall transitional (flat_map (fun a => called (KAct en a s e m) None) l).
  Proof. induction l; simpl; [constructor|]. constructor; [simpl; auto|constructor; [simpl; auto|assumption]]. Qed.
  Lemma tr_ran_all en x o : ran_all m e St Ac en x o -> Forall transitional o.
  Proof.
    intros [(_ & _ & ->)|(s & l & _ & _ & l1 & l2 & _ & [(_ & _ & ->)|[(_ & -> & _)|(a & r & y & _ & _ & ->)]])]; try constructor; try apply tr_done.
    apply Forall_app. split; [apply tr_done|]. fall; simpl; auto.
  Qed.
  Lemma tr_moved s x o : moved E m En s x o -> Forall transitional o.
  Proof. intros (_ & [(_ & ->)|(_ & ->)]); [constructor|]. destruct (String.eqb _ _); fall; simpl; auto. Qed.
  Lemma tr_transition s x o : transition E m e St Li Ac En Fi s x o -> Forall transitional o.
  Proof.
    intros (f & _ & H). revert H. repeat (apply tr_andthen; [solve [eauto using tr_told, tr_ran_all, tr_moved]|intros ??]).
    intros (v & _ & H). destruct v; [eauto using tr_moved|]. destruct H as [_ ->]. constructor.
  Qed.
  Lemma tr_noop s x o : no_transition m e St Li s x o -> Forall transitional o.
  Proof. intros (f & f' & _ & _ & H). revert H. apply tr_andthen; eauto using tr_told. Qed.

  (** notifications *)
  Lemma not_app l1 l2 : notifications (l1 ++ l2) = notifications l1 ++ notifications l2.
  Proof. apply filter_app. Qed.
  Lemma not_done en s l : notifications (flat_map (fun a => called (KAct en a s e m) None) l) = [].
  Proof. induction l; [reflexivity|]. simpl. exact IHl. Qed.
  Lemma not_ran_all en x o : ran_all m e St Ac en x o -> notifications o = [].
  Proof.
    intros [(_ & _ & ->)|(s & l & _ & _ & l1 & l2 & _ & [(_ & _ & ->)|[(_ & -> & _)|(a & r & y & _ & _ & ->)]])];
      try reflexivity; try apply not_done.
    rewrite not_app, not_done. reflexivity.
  Qed.
  Lemma not_moved s x o : moved E m En s x o -> notifications o = [].
  Proof. intros (_ & [(_ & ->)|(_ & ->)]); [reflexivity|]. destruct (String.eqb _ _); reflexivity. Qed.
  Definition one_or_none (fin : bool) (f s : sid) (miss : Prop) (o : list obs) : Prop :=
    (notifications o = [] /\ miss) \/
    (exists l, Li (Some l) /\ notifications o = [OCall (KListen fin l m f e s)]).
  Lemma not_told fin f s x o : told m e Li fin f s x o -> one_or_none fin f s (Li None) o.
  Proof. intros [(Hl & _ & ->)|[(Hl & _ & ->)|(l & Hl & ->)]]; [left; auto|left; auto|right; exists l; auto]. Qed.
  Definition paired (f f' s : sid) (y : option exn) (o : list obs) : Prop := exists B F,
    notifications o = B ++ F /\
    ((B = [] /\ Li None) \/ (exists l, Li (Some l) /\ B = [OCall (KListen false l m f e s)])) /\
    ((F = [] /\ (y <> None \/ Li None)) \/ (exists l, Li (Some l) /\ F = [OCall (KListen true l m f' e s)])).
  Lemma paired_start f f' s y o1 o2 : told m e Li false f s None o1 ->
    (notifications o2 = [] /\ y <> None) \/ one_or_none true f' s (y <> None \/ Li None) o2 -> paired f f' s y (o1 ++ o2).
  Proof.
    intros H1 H2. exists (notifications o1), (notifications o2). split; [apply not_app|]. split.
    - apply not_told in H1. destruct H1 as [[-> H1]|(l & Hl & ->)]; [left; auto|right; eauto].
    - destruct H2 as [[-> H2]|[[-> H2]|(l & Hl & ->)]]; [left; auto|left; auto|right; eauto].
  Qed.
  Lemma paired_fail f f' s v o : told m e Li false f s (Some v) o -> paired f f' s (Some v) o.
  Proof.
    intro H. exists (notifications o), []. rewrite app_nil_r. split; [reflexivity|]. split; [|left; split; [reflexivity|left; discriminate]].
    apply not_told in H. destruct H as [[-> H]|(l & Hl & ->)]; [left; auto|right; eauto].
  Qed.
  Lemma paired_transition s y o : transition E m e St Li Ac En Fi s y o -> exists f, St f /\ paired (from_state m f) (from_state m f) s y o.
  Proof.
    intros (f & Hf & H). exists f. split; [exact Hf|].
    destruct H as [(v & -> & H)|(o1 & o' & -> & H1 & H)]; [apply paired_fail; exact H|].
    eapply paired_start; [exact H1|]. clear H1.
    destruct H as [(v & -> & H)|(o2 & o3 & -> & H2 & H)].
    { left. split; [eapply not_ran_all; exact H|discriminate]. }
    unfold one_or_none. rewrite not_app, (not_ran_all _ _ _ H2). simpl. clear H2.
    destruct H as [(v & -> & H)|(o4 & o5 & -> & H2 & H)].
    { left. split; [eapply not_moved; exact H|discriminate]. }
    rewrite not_app, (not_moved _ _ _ H2). simpl. clear H2.
    destruct H as [(v & -> & H)|(o6 & o7 & -> & H2 & H)].
    { left. split; [eapply not_ran_all; exact H|discriminate]. }
    rewrite not_app, (not_ran_all _ _ _ H2). simpl. clear H2.
    destruct H as [(v & -> & H)|(o8 & o9 & -> & H2 & H)].
    { apply not_told in H. destruct H as [[-> H]|(l & Hl & ->)]; [right; left; auto|right; right; eauto]. }
    rewrite not_app. assert (notifications o9 = []) as ->.
    { destruct H as (v & _ & H). destruct v; [eapply not_moved; exact H|]. destruct H as [_ ->]. reflexivity. }
    rewrite app_nil_r. apply not_told in H2. destruct H2 as [[-> H2]|(l & Hl & ->)]; [right; left; auto|right; right; eauto].
  Qed.
  Lemma paired_noop s y o : no_transition m e St Li s y o -> exists f f', St f /\ St f' /\ paired (from_state m f) (from_state m f') s y o.
  Proof.
    intros (f & f' & Hf & Hf' & H). exists f, f'. split; [exact Hf|]. split; [exact Hf'|].
    destruct H as [(v & -> & H)|(o1 & o2 & -> & H1 & H)]; [apply paired_fail; exact H|].
    eapply paired_start; [exact H1|]. right. apply not_told in H. unfold one_or_none in *. destruct H as [[-> H]|(l & Hl & ->)]; [left; auto|right; eauto].
  Qed.
  End Parts.

  Section Any.
  Context (t : tid) (a : trace) (q : qid) (p : pid) (e : eid) (m : mid) (b : trace) (its : list obs)
          (z : obs) (d : trace).
  Notation op := (OTake q p (Some (e, m))).
  Context (Hs : span t T a op b its z d).
  Notation at_ := (sometime t a op b).

  Lemma script_during : exists tm y x P Rep, taker E q t tm /\ z = ODone q p x /\ shown its = P ++ Rep /\
    reported (flow_of E tm) e m y x Rep /\
    ((at_ (fun h => ended_at tm h = true) /\ P = [] /\ y = None) \/
     exists h1 h2 r, during t a op b h1 /\ during t a op b h2 /\ upto h1 h2 /\
       reacts_at E w0 (table_of E tm) h2 (cur_at m h1) e r /\
       reaction_during E w0 tm m e t a op b r y P).
  Proof.
    destruct (script_ok E w0 w H0 Hr _ _ _ _ _ _ _ _ _ _ Hs) as (tm & y & x & P & Rep & H1 & H2 & H3 & H4 & H5).
    exists tm, y, x, P, Rep. split; [exact H1|]. split; [exact H2|]. split; [exact H3|]. split; [exact H4|].
    destruct H5 as [(h & A & B & C & D)|H5]; [left; split; [exists h; auto|auto]|right; exact H5].
  Qed.

  Lemma rep_marks u y x Rep : reported u e m y x Rep -> Rep = [] \/ exists v, y = Some v /\ is_exception v = true /\ Rep = called (KUflExn u e m v) x.
  Proof.
    unfold reported. destruct y as [v|]; [|intros [-> _]; auto]. destruct (is_exception v) eqn:Ev; [|intros [-> _]; auto].
    intros ->. right. exists v. auto.
  Qed.
  Lemma shown_in o l : In o (shown l) <-> In o l /\ visible o = true.
  Proof. apply filter_In. Qed.
  Lemma notifications_shown l : notifications (shown l) = notifications l.
  Proof.
    unfold notifications, shown. induction l as [|o l IH]; [reflexivity|]. simpl. destruct (visible o) eqn:Ev; simpl.
    - rewrite IH. reflexivity.
    - rewrite IH. destruct o; try reflexivity; discriminate.
  Qed.

  (** ** C14 *)
  Lemma unmapped_only h' e' m' : In (OCall (KUnmapped h' e' m')) its ->
    exists tm y x Rep, taker E q t tm /\ h' = handler_of E tm /\ e' = e /\ m' = m /\ z = ODone q p x /\
      shown its = called (KUnmapped h' e m) y ++ Rep /\ reported (flow_of E tm) e m y x Rep /\
      exists h1 h2, during t a op b h1 /\ during t a op b h2 /\ upto h1 h2 /\
        reacts_at E w0 (table_of E tm) h2 (cur_at m h1) e Unmapped.
  Proof.
    intro Hin. destruct script_during as (tm & y & x & P & Rep & Htk & Hz & Hsh & Hrep & Hc).
    assert (HP : In (OCall (KUnmapped h' e' m')) P).
    { assert (Hi : In (OCall (KUnmapped h' e' m')) (shown its)) by (apply shown_in; auto). rewrite Hsh in Hi.
      apply in_app_or in Hi. destruct Hi as [Hi|Hi]; [exact Hi|exfalso].
      destruct (rep_marks _ _ _ _ Hrep) as [->|(v & _ & _ & ->)]; [exact Hi|]. destruct Hi as [Hi|[Hi|[]]]; discriminate. }
    destruct Hc as [(_ & -> & _)|(h1 & h2 & r & D1 & D2 & Hu & Hre & HX)]; [contradiction|].
    unfold reaction_during, reaction_script in HX. destruct r as [| |s].
    - destruct HX as [_ ->]. contradiction.
    - rewrite HX in HP. destruct HP as [HP|[HP|[]]]; [|discriminate]. injection HP as <- <- <-.
      exists tm, y, x, Rep. rewrite HX in Hsh. repeat (split; [first [reflexivity|eassumption]|]).
      exists h1, h2. auto.
    - exfalso. assert (HF : Forall (transitional m e) P).
      { destruct (String.eqb _ _); [eapply tr_noop|eapply tr_transition]; exact HX. }
      rewrite Forall_forall in HF. apply HF in HP. exact HP.
  Qed.
  Lemma unmapped_called :
    (forall tm, taker E q t tm -> ~ at_ (fun h => ended_at tm h = true)) ->
    (forall tm h1 h2 r, taker E q t tm -> during t a op b h1 -> during t a op b h2 -> upto h1 h2 ->
       reacts_at E w0 (table_of E tm) h2 (cur_at m h1) e r -> r = Unmapped) ->
    exists tm y x Rep, taker E q t tm /\ z = ODone q p x /\
      shown its = called (KUnmapped (handler_of E tm) e m) y ++ Rep /\ reported (flow_of E tm) e m y x Rep.
  Proof.
    intros He Hm. destruct script_during as (tm & y & x & P & Rep & Htk & Hz & Hsh & Hrep & Hc).
    exists tm, y, x, Rep. split; [exact Htk|]. split; [exact Hz|]. split; [|exact Hrep]. rewrite Hsh. f_equal.
    destruct Hc as [(Hx & _)|(h1 & h2 & r & D1 & D2 & Hu & Hre & HX)]; [exfalso; exact (He _ Htk Hx)|].
    rewrite (Hm _ _ _ _ Htk D1 D2 Hu Hre) in HX. exact HX.
  Qed.

  (** ** C15 *)
  Lemma noop_only :
    (forall tm h1 h2 r, taker E q t tm -> during t a op b h1 -> during t a op b h2 -> upto h1 h2 ->
       reacts_at E w0 (table_of E tm) h2 (cur_at m h1) e r -> exists s, r = Target s /\ sname E s = "_NOOP_") ->
    forall o, In o its -> is_action o = false /\ is_change o = false /\
      match o with OCall (KUnmapped _ _ _) => False | _ => True end.
  Proof.
    intros Hm o Hin. destruct (visible o) eqn:Ev.
    2: { destruct o; try discriminate; simpl; auto. }
    assert (Hi : In o (shown its)) by (apply shown_in; auto).
    destruct script_during as (tm & y & x & P & Rep & Htk & Hz & Hsh & Hrep & Hc). rewrite Hsh in Hi.
    apply in_app_or in Hi. destruct Hi as [Hi|Hi].
    2: { destruct (rep_marks _ _ _ _ Hrep) as [->|(v & _ & _ & ->)]; [contradiction|]. destruct Hi as [<-|[<-|[]]]; simpl; auto. }
    destruct Hc as [(_ & -> & _)|(h1 & h2 & r & D1 & D2 & Hu & Hre & HX)]; [contradiction|].
    destruct (Hm _ _ _ _ Htk D1 D2 Hu Hre) as (s & -> & Hs'). unfold reaction_during, reaction_script in HX.
    rewrite Hs', String.eqb_refl in HX. destruct HX as (f & f' & _ & _ & HX).
    assert (Ht : forall fin f x o', told m e (fun l => at_ (fun h => listener_at w0 m h = l)) fin f s x o' -> In o o' ->
       is_action o = false /\ is_change o = false /\ match o with OCall (KUnmapped _ _ _) => False | _ => True end).
    { intros fin f0 x0 o' [(_ & _ & ->)|[(_ & _ & ->)|(l & _ & ->)]] Ho; try contradiction.
      destruct Ho as [<-|[<-|[]]]; simpl; auto. }
    destruct HX as [(v & _ & HX)|(o1 & o2 & -> & HX1 & HX2)]; [eauto|].
    apply in_app_or in Hi. destruct Hi; eauto.
  Qed.

  (** ** C16 *)
  Lemma notifications_paired :
    notifications its = [] \/
    exists f f' s, at_ (fun h => cur_at m h = f) /\ at_ (fun h => cur_at m h = f') /\
      (f = f' \/ sname E s = "_NOOP_") /\
      exists tm P Rep y x B F, taker E q t tm /\ z = ODone q p x /\ shown its = P ++ Rep /\ reported (flow_of E tm) e m y x Rep /\
        notifications its = B ++ F /\
        ((B = [] /\ at_ (fun h => listener_at w0 m h = None)) \/
         (exists l, at_ (fun h => listener_at w0 m h = Some l) /\ B = [OCall (KListen false l m (from_state m f) e s)])) /\
        ((F = [] /\ (y <> None \/ at_ (fun h => listener_at w0 m h = None))) \/
         (exists l, at_ (fun h => listener_at w0 m h = Some l) /\ F = [OCall (KListen true l m (from_state m f') e s)])).
  Proof.
    destruct script_during as (tm & y & x & P & Rep & Htk & Hz & Hsh & Hrep & Hc).
    assert (Hn : notifications its = notifications P).
    { rewrite <- notifications_shown, Hsh, not_app. destruct (rep_marks _ _ _ _ Hrep) as [->|(v & _ & _ & ->)]; apply app_nil_r. }
    rewrite Hn. destruct Hc as [(_ & -> & _)|(h1 & h2 & r & D1 & D2 & Hu & Hre & HX)]; [left; reflexivity|].
    unfold reaction_during, reaction_script in HX. destruct r as [| |s].
    - destruct HX as [_ ->]. left. reflexivity.
    - rewrite HX. left. reflexivity.
    - right. destruct (String.eqb_spec (sname E s) "_NOOP_") as [Hno|_].
      + destruct (paired_noop _ _ _ _ _ _ _ HX) as (f & f' & Hf & Hf' & B & F & HB).
        exists f, f', s. split; [exact Hf|]. split; [exact Hf'|]. split; [auto|].
        exists tm, P, Rep, y, x, B, F. auto.
      + destruct (paired_transition _ _ _ _ _ _ _ _ _ _ HX) as (f & Hf & B & F & HB).
        exists f, f, s. split; [exact Hf|]. split; [exact Hf|]. split; [auto|].
        exists tm, P, Rep, y, x, B, F. auto.
  Qed.
  End Any.

  (** ** Without interference *)
  Lemma one_event m t a p e b its z d conf : undisturbed E w m t a p e b its z d -> conf_at E w0 (table_of E m) a conf ->
    exists x h, z = ODone (queue_of E m) p x /\ during t a (OTake (queue_of E m) p (Some (e, m))) b h /\
      event E m (listener_at w0 m a) (fun en s => acts_at w0 en s a) conf (handler_of E m) e (name_at E w0 e h) (flow_of E m)
        (mstate_at m a) x (shown its) (mstate_at m (a ++ (t, OTake (queue_of E m) p (Some (e, m))) :: b ++ [(t, z)])).
  Proof.
    intros (Hp & Ho & Hs & Hc) Hcf. destruct (exact_event E w0 w H0 Hr m Hp Ho _ _ _ _ _ _ _ _ Hs Hc conf Hcf) as (x & h & Hz & Hd & He).
    exists x, h. split; [exact Hz|]. split; [exact Hd|].
    replace (a ++ (t, OTake (queue_of E m) p (Some (e, m))) :: b ++ [(t, z)]) with ((a ++ (t, OTake (queue_of E m) p (Some (e, m))) :: b) ++ [(t, z)])
      by (repeat (rewrite <- !app_assoc; simpl); reflexivity).
    rewrite (mstate_irr E m) by (rewrite Hz; reflexivity). exact He.
  Qed.
  Lemma all_events m h r conf : private_queue E m -> one_thread E m -> T = h ++ r -> calm E m h r ->
    conf_at E w0 (table_of E m) h conf ->
    rests (queue_of E m) (worker_of E m) h -> rests (queue_of E m) (worker_of E m) (h ++ r) ->
    exists new, completed (queue_of E m) (worker_of E m) (h ++ r) = completed (queue_of E m) (worker_of E m) h ++ new /\
      taken (queue_of E m) (h ++ r) = taken (queue_of E m) h ++ map event_of new /\
      arun E m (listener_at w0 m h) (fun en s => acts_at w0 en s h) conf
        (fun e n => exists h', upto h' (h ++ r) /\ (exists t p, In (t, OTake (queue_of E m) p (Some (e, m))) h') /\ n = name_at E w0 e h')
        (mstate_at m h) new (mstate_at m (h ++ r)).
  Proof.
    intros Hp Ho HT Hc Hcf R1 R2.
    destruct (many E w0 w H0 Hr m Hp Ho h conf Hcf r [] (eq_trans HT (eq_sym (app_nil_r _))) Hc R1) as (new & s & H1 & H2 & H3).
    exists new. split; [exact H1|].
    destruct H3 as [(_ & Hst & Htk)|(a & p & e & b & u & its & -> & Hsb & _)].
    - split; [exact Htk|]. rewrite Hst. exact H2.
    - exfalso. apply (R2 p (Some (e, m)) its). unfold opened.
      rewrite app_assoc, (stack_at (worker_of E m) (h ++ a) (OTake (queue_of E m) p (Some (e, m))) b _ u its eq_refl Hsb).
      apply in_or_app. right. left. reflexivity.
  Qed.

  (** how a transition ends *)
  Section Outcome.
  Context (m : mid) (l : option listener) (ac : bool -> sid -> list action) (conf : sstate) (hd : uhandler) (e : eid).
  Lemma acted_throw en st as_ v out : acted m e en st as_ (Some v) out -> exists a o', out = o' ++ [OBack (KAct en a st e m) (Some v)].
  Proof.
    revert out. induction as_ as [|a r IH]; intros out H; simpl in H; [destruct H; discriminate|].
    destruct H as [(y & [= <-] & ->)|(o & -> & H)].
    - exists a, [OCall (KAct en a st e m)]. reflexivity.
    - destruct (IH _ H) as (a' & o' & ->). exists a', (called (KAct en a st e m) None ++ o'). rewrite <- app_assoc. reflexivity.
  Qed.
  Lemma notice_throw fin f s st v out st' : notice m l e fin f s st (Some v) out st' ->
    st' = st /\ exists li o', out = o' ++ [OBack (KListen fin li m f e s) (Some v)].
  Proof.
    intros [-> H]. split; [reflexivity|]. destruct l as [li|]; [|destruct H; discriminate]. exists li, [OCall (KListen fin li m f e s)].
    rewrite H. reflexivity.
  Qed.
  Definition mid_state (s : sid) : mstate := (Some s, String.eqb (sname E s) "_END_").
  Lemma sname_end : sname E (SEnd m) = "_END_".
  Proof. reflexivity. Qed.
  Lemma transition_outcome s c y P s' : 
    seq (notice m l e false (from_state m (Some c)) s) (seq (actions m ac e false) (seq (move E m s)
      (seq (actions m ac e true) (seq (notice m l e true (from_state m (Some c)) s) (closing E m conf s))))) (Some c, false) y P s' ->
    (y = None /\ if String.eqb (sname E s) "_END_" then s' = (Some s, true)
       else (final_state (sname E) (table_of E m) conf s /\ s' = (Some (SEnd m), true)) \/
            (~ final_state (sname E) (table_of E m) conf s /\ s' = (Some s, false))) \/
    (exists v cb o', y = Some v /\ P = o' ++ [OBack cb (Some v)] /\
       match cb with
       | KListen false _ _ _ _ _ | KAct false _ _ _ _ => s' = (Some c, false)
       | KListen true _ _ _ _ s2 | KAct true _ s2 _ _ => s2 = s /\ s' = (Some s, String.eqb (sname E s) "_END_")
       | _ => False
       end).
  Proof.
    intros [(v & -> & H)|(s1 & o1 & o2 & -> & [-> H1] & H)].
    { right. apply notice_throw in H. destruct H as (-> & li & o' & ->). exists v, (KListen false li m (from_state m (Some c)) e s), o'. auto. }
    destruct H as [(v & -> & [-> H])|(s2 & o3 & o4 & -> & [-> H2] & H)].
    { right. simpl in H. destruct (acted_throw _ _ _ _ _ H) as (a & o' & ->).
      exists v, (KAct false a c e m), (o1 ++ o'). split; [reflexivity|]. split; [rewrite app_assoc; reflexivity|reflexivity]. }
    destruct H as [(v & -> & [Hx _])|(s3 & o5 & o6 & -> & [_ H3] & H)]; [discriminate|].
    simpl in H3. destruct H3 as [-> H3].
    destruct H as [(v & -> & [-> H])|(s4 & o7 & o8 & -> & [-> H4] & H)].
    { right. simpl in H. destruct (acted_throw _ _ _ _ _ H) as (a & o' & ->).
      exists v, (KAct true a s e m), (o1 ++ o3 ++ o5 ++ o'). split; [reflexivity|]. split; [repeat (rewrite <- !app_assoc; simpl); reflexivity|auto]. }
    destruct H as [(v & -> & H)|(s5 & o9 & o10 & -> & [-> H5] & H)].
    { right. apply notice_throw in H. destruct H as (-> & li & o' & ->).
      exists v, (KListen true li m (from_state m (Some c)) e s), (o1 ++ o3 ++ o5 ++ o7 ++ o').
      split; [reflexivity|]. split; [repeat (rewrite <- !app_assoc; simpl); reflexivity|auto]. }
    left. destruct H as [(Hf & -> & H)|(Hf & -> & -> & _)].
    - split; [reflexivity|]. simpl in H. destruct (String.eqb (sname E s) "_END_").
      + destruct H as [-> _]. reflexivity.
      + destruct H as [-> _]. left. auto.
    - split; [reflexivity|]. destruct (String.eqb (sname E s) "_END_"); auto.
  Qed.

  Definition tidyT (A : tscript) : Prop := forall s x out s', A s x out s' -> tdy x out.
  Lemma tidyT_seq A B : tidyT A -> tidyT B -> tidyT (seq A B).
  Proof.
    intros H1 H2 s x out s' [(y & -> & H)|(s1 & o1 & o2 & -> & Ha & Hb)]; [exact (H1 _ _ _ _ H)|].
    apply tdy_pre; [apply tdy_none; eauto|eauto].
  Qed.
  Lemma tidyT_notice fin f s : tidyT (notice m l e fin f s).
  Proof. intros s0 x out s' [_ H]. destruct l; [rewrite H; apply tdy_called|destruct H as [-> ->]; apply tdy_nil]. Qed.
  Lemma tidy_acted en st as_ : forall x out, acted m e en st as_ x out -> tdy x out.
  Proof.
    induction as_ as [|a r IH]; intros x out H; simpl in H; [destruct H as [-> ->]; apply tdy_nil|].
    destruct H as [(y & -> & ->)|(o & -> & H)]; [apply tdy_called|]. do 2 (apply tdy_cons; [exact I|]). auto.
  Qed.
  Lemma tidyT_actions en : tidyT (actions m ac e en).
  Proof. intros s0 x out s' [_ H]. destruct (fst s0); [eapply tidy_acted; exact H|]. destruct H as [-> ->]. apply tdy_int. left. reflexivity. Qed.
  Lemma tidyT_move s : tidyT (move E m s).
  Proof.
    intros s0 x out s' [-> H]. destruct (snd s0); destruct H as [_ ->]; [apply tdy_nil|].
    destruct (String.eqb _ _); repeat (apply tdy_cons; [exact I|]); apply tdy_nil.
  Qed.
  Lemma tidyT_closing s : tidyT (closing E m conf s).
  Proof. intros s0 x out s' [[_ H]|[_ (_ & -> & ->)]]; [eapply tidyT_move; exact H|apply tdy_nil]. Qed.
  Lemma tidyT_react r : tidyT (react E m l ac conf hd e r).
  Proof.
    intros s0 x out s' H. unfold react in H. destruct r as [| |s].
    - destruct H as (_ & -> & ->). apply tdy_int. left. reflexivity.
    - destruct H as [_ ->]. apply tdy_called.
    - cbv zeta in H. revert H. generalize x, out, s'. clear x out s'. intros x out s'. destruct (String.eqb _ _).
      + apply tidyT_seq; apply tidyT_notice.
      + repeat (apply tidyT_seq; [first [apply tidyT_notice|apply tidyT_actions|apply tidyT_move]|]). apply tidyT_closing.
  Qed.

  (** the state after an exception in callback cb *)
  Lemma event_throw n u s x out s' cb v : event E m l ac conf hd e n u s x out s' -> In (OBack cb (Some v)) out ->
    match cb with
    | KListen false _ _ _ _ _ | KAct false _ _ _ _ => s' = s
    | KListen true _ _ _ _ s2 | KAct true _ s2 _ _ =>
        if String.eqb (sname E s2) "_NOOP_" then s' = s else s' = (Some s2, String.eqb (sname E s2) "_END_")
    | _ => True
    end.
  Proof.
    intros (y & P & Rep & -> & Hrep & H) Hin. apply in_app_or in Hin. destruct Hin as [Hin|Hin].
    2: { destruct (rep_marks e m _ _ _ _ Hrep) as [->|(v' & _ & _ & ->)]; [contradiction|].
         destruct Hin as [Hi|[Hi|[]]]; [discriminate|]. injection Hi as <- _. exact I. }
    destruct s as [c vv]; simpl in *. destruct vv; [destruct H as (-> & _); contradiction|].
    assert (Ht : tdy y P) by (eapply tidyT_react; exact H). destruct Ht as [Ht _].
    destruct (Ht _ _ Hin) as (-> & o' & HP).
    destruct c as [c|]; [|destruct H as (_ & _ & ->); contradiction].
    destruct (reacts (sname E) conf (Some c) n) as [| |s1]; simpl in H.
    - destruct H as (_ & _ & ->). contradiction.
    - destruct H as [-> ->]. destruct Hin as [Hi|[Hi|[]]]; [discriminate|]. injection Hi as <- . exact I.
    - destruct (String.eqb (sname E s1) "_NOOP_") eqn:En.
      + assert (s' = (Some c, false)) as ->.
        { destruct H as [(w' & _ & [-> _])|(s2 & o1 & o2 & _ & [-> _] & [-> _])]; reflexivity. }
        assert (Hcb : exists fin li f, cb = KListen fin li m f e s1).
        { assert (Hn : forall fin f s0 x o s2, notice m l e fin f s1 s0 x o s2 -> In (OBack cb (Some v)) o -> exists fin li f, cb = KListen fin li m f e s1).
          { intros fin f s0 x0 o s2 [_ Hx] Hi. destruct l as [li|]; [|destruct Hx as [_ ->]; contradiction].
            rewrite Hx in Hi. destruct Hi as [Hi|[Hi|[]]]; [discriminate|]. injection Hi as <- _. eauto. }
          destruct H as [(w' & _ & H)|(s2 & o1 & o2 & -> & H1 & H2)]; [eauto|]. apply in_app_or in Hin. destruct Hin; eauto. }
        destruct Hcb as (fin & li & f & ->). destruct fin; [rewrite En|]; reflexivity.
      + apply transition_outcome in H. destruct H as [[Hx _]|(w' & cb' & o2 & [= <-] & HP' & H)]; [discriminate|].
        rewrite HP' in HP. apply app_inj_tail in HP. destruct HP as [_ [= ->]].
        destruct cb; try contradiction; match goal with |- if ?b then _ else _ => destruct b | _ => idtac end;
          try exact H; destruct H as [-> ->]; rewrite En; reflexivity.
  Qed.

  Lemma event_target n u s0 x out s' s : event E m l ac conf hd e n u s0 x out s' -> snd s0 = false ->
    reacts (sname E) conf (fst s0) n = Target s -> String.eqb (sname E s) "_NOOP_" = false ->
    forall cb v, In (OBack cb (Some v)) out ->
    match cb with KListen true _ _ _ _ s2 | KAct true _ s2 _ _ => s2 = s | _ => True end.
  Proof.
    intros (y & P & Rep & -> & Hrep & H) He Hre Hno cb v Hin. apply in_app_or in Hin. destruct Hin as [Hin|Hin].
    2: { destruct (rep_marks e m _ _ _ _ Hrep) as [->|(v' & _ & _ & ->)]; [contradiction|].
         destruct Hin as [Hi|[Hi|[]]]; [discriminate|]. injection Hi as <- _. exact I. }
    destruct s0 as [c vv]; simpl in *. subst vv.
    assert (Ht : tdy y P) by (eapply tidyT_react; exact H). destruct Ht as [Ht _].
    destruct (Ht _ _ Hin) as (-> & o' & HP). rewrite Hre in H. simpl in H. rewrite Hno in H.
    destruct c as [c|]; [|discriminate].
    apply transition_outcome in H. destruct H as [[Hx _]|(w' & cb' & o2 & [= <-] & HP' & H)]; [discriminate|].
    rewrite HP' in HP. apply app_inj_tail in HP. destruct HP as [_ [= ->]].
    destruct cb; try contradiction; try (destruct entry); try (destruct fin); try exact I; apply H.
  Qed.

  Lemma rep_back u y x Rep cb v : reported u e m y x Rep -> In (OBack cb (Some v)) Rep -> exists w, cb = KUflExn u e m w.
  Proof.
    intros H Hi. destruct (rep_marks e m _ _ _ _ H) as [->|(v' & _ & _ & ->)]; [contradiction|].
    destruct Hi as [Hi|[Hi|[]]]; [discriminate|]. injection Hi as <- _. eauto.
  Qed.
  Lemma event_next n u s x out s' : event E m l ac conf hd e n u s x out s' -> no_throw out -> next E m conf n s s'.
  Proof.
    intros (y & P & Rep & -> & Hrep & H) Hn. unfold next. destruct s as [c v]; simpl in *. destruct v; [apply H|].
    destruct c as [c|]; [|exact (proj1 H)].
    destruct (reacts (sname E) conf (Some c) n) as [| |s1]; simpl in H; [apply H|apply H|].
    destruct (String.eqb (sname E s1) "_NOOP_").
    - destruct H as [(w' & _ & [-> _])|(s2 & o1 & o2 & _ & [-> _] & [-> _])]; reflexivity.
    - apply transition_outcome in H. destruct H as [[_ H]|(w' & cb & o' & _ & -> & H)]; [exact H|exfalso].
      assert (Hx : In (OBack cb (Some w')) ((o' ++ [OBack cb (Some w')]) ++ Rep)).
      { apply in_or_app. left. apply in_or_app. right. left. reflexivity. }
      specialize (Hn _ _ Hx). destruct cb; try contradiction.
  Qed.
  End Outcome.
  Lemma arun_next m l ac conf N s ns s' : arun E m l ac conf N s ns s' ->
    (forall k its z, In (k, its, z) ns -> no_throw its) -> nexts E m conf N s ns s'.
  Proof.
    intros H Hn. induction H; [constructor|]. econstructor; [apply IHarun|eassumption|].
    - intros k i z Hi. eapply Hn. apply in_or_app. left. exact Hi.
    - eapply event_next; [eassumption|]. intros c y Hi. apply shown_in in Hi. destruct Hi as [Hi _].
      eapply Hn; [apply in_or_app; right; left; reflexivity|exact Hi].
  Qed.
End Consequences.
