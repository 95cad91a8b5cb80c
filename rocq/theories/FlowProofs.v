(** * FlowProofs.v: the processing of one event, whatever other threads do
    (proofs for C14-C18) *)
From Verif Require Import FlowSpec Lang Tree Nodes Marks Moments.

(** ** Exceptions: the only callback that throws is the last mark, and
    exceptions come from callbacks or are internal ones *)
Definition internal (y : exn) : Prop := y = XNullPointer \/ y = XConcurrentMod.
Definition tdy (x : option exn) (out : list obs) : Prop :=
  (forall c y, In (OBack c (Some y)) out -> x = Some y /\ exists o', out = o' ++ [OBack c (Some y)]) /\
  (forall y, x = Some y -> (exists c o', out = o' ++ [OBack c (Some y)]) \/ internal y).
Definition tidy (L : lang) : Prop := forall x out, L x out -> tdy x out.

Definition quiet_mark (o : obs) : Prop := match o with OBack _ (Some _) => False | _ => True end.
Lemma tdy_pre l x out : Forall quiet_mark l -> tdy x out -> tdy x (l ++ out).
Proof.
  intros Hl [B1 B2]. split.
  - intros c y Hi. apply in_app_or in Hi. destruct Hi as [Hi|Hi].
    + rewrite Forall_forall in Hl. apply Hl in Hi. contradiction.
    + destruct (B1 _ _ Hi) as (-> & o' & ->). split; [reflexivity|]. exists (l ++ o'). rewrite app_assoc. reflexivity.
  - intros y Hy. destruct (B2 y Hy) as [(c & o' & ->)|Hi]; [|auto]. left. exists c, (l ++ o'). rewrite app_assoc. reflexivity.
Qed.
Lemma tdy_cons o x out : quiet_mark o -> tdy x out -> tdy x (o :: out).
Proof. intros Ho H. apply (tdy_pre [o]); [fall; exact Ho|exact H]. Qed.
Lemma tdy_none out : tdy None out -> Forall quiet_mark out.
Proof.
  intros [H _]. rewrite Forall_forall. intros o Ho. destruct o; try exact I. destruct x; [|exact I].
  destruct (H _ _ Ho). discriminate.
Qed.
Lemma tdy_nil : tdy None [].
Proof. split; [intros c y []|discriminate]. Qed.
Lemma tdy_int y : internal y -> tdy (Some y) [].
Proof. intro H. split; [intros c y' []|]. intros y' [= <-]. auto. Qed.
Lemma tdy_back c x : tdy x [OBack c x].
Proof.
  split.
  - intros c' y [H|[]]. injection H as <- ->. split; [reflexivity|]. exists []. reflexivity.
  - intros y ->. left. exists c, []. reflexivity.
Qed.
Lemma tdy_called c x : tdy x (called c x).
Proof. apply tdy_cons; [exact I|apply tdy_back]. Qed.
Lemma tidy_seqx L1 L2 : tidy L1 -> tidy L2 -> tidy (seqx L1 L2).
Proof.
  intros H1 H2 x out [(y & -> & H)|(o1 & o2 & -> & Ha & Hb)]; [exact (H1 _ _ H)|].
  apply tdy_pre; [apply tdy_none; auto|auto].
Qed.
Lemma tidy_call c : tidy (callL c).
Proof. intros x out ->. apply tdy_called. Qed.
Ltac td := repeat (apply tdy_cons; [exact I|]).
Lemma tidy_notify m fin f e t : tidy (notifyL m fin f e t).
Proof.
  intros x out [[-> ->]|[(l & -> & ->)|(l0 & l & ->)]]; simpl; td.
  - apply tdy_nil.
  - apply tdy_int. left. reflexivity.
  - apply tdy_back.
Qed.
Lemma tidy_run en s e m n l : tidy (runL en s e m n l).
Proof.
  intros x out H. induction H; simpl; td.
  - apply tdy_int. right. reflexivity.
  - apply tdy_nil.
  - apply (tdy_back (KAct en a s e m) (Some y)).
  - exact IHrunL.
Qed.
Lemma tidy_acts en s e m : tidy (actsL en s e m).
Proof. intros x out (l & out' & -> & H). td. eapply tidy_run. exact H. Qed.
Lemma tidy_cur m f : (forall c, tidy (f c)) -> tidy (curL m f).
Proof. intros H x out (c & out' & -> & Hf). td. eapply H. exact Hf. Qed.
Lemma tidy_some f : (forall s, tidy (f s)) -> forall c, tidy (someL f c).
Proof. intros H [s|]; [apply H|]. intros x out [-> ->]. apply tdy_int. left. reflexivity. Qed.

Section Flow.
  Context (E : env).
  Lemma tidy_update m t : tidy (updateL E m t).
  Proof.
    intros x out (-> & [->| ->]); [td; apply tdy_nil|].
    destruct (String.eqb _ _); td; apply tdy_nil.
  Qed.
  Lemma tidy_trans tb e m t : tidy (transL E tb e m t).
  Proof.
    apply tidy_cur. intro f.
    repeat (apply tidy_seqx; [first [apply tidy_notify | apply tidy_update
      | apply tidy_cur; intro; apply tidy_some; intro; apply tidy_acts]|]).
    intros x out (b & out' & -> & Hb). td. destruct b; [eapply tidy_update; exact Hb|].
    destruct Hb as [-> ->]. apply tdy_nil.
  Qed.
  Lemma tidy_noop e m t : tidy (noopL e m t).
  Proof. apply tidy_seqx; apply tidy_cur; intro; apply tidy_notify. Qed.
  Lemma tidy_exec k e m : tidy (executeL E k e m).
  Proof.
    intros x out (c & out1 & -> & to & out' & -> & H). td. destruct to as [[t|]|].
    - destruct (String.eqb _ _); [eapply tidy_noop|eapply tidy_trans]; exact H.
    - eapply tidy_call. exact H.
    - destruct H as [-> ->]. apply tdy_int. left. reflexivity.
  Qed.

  Lemma shown_app l1 l2 : shown (l1 ++ l2) = shown l1 ++ shown l2.
  Proof. apply filter_app. Qed.
  Lemma shown_called c x : shown (called c x) = called c x.
  Proof. reflexivity. Qed.

  (** ** Values read during a bracket *)
  Section Vals.
  Context (w0 : mem) (w : world) (H0 : init_mem E w0) (Hr : reach E w0 w).
  Context (t : tid) (a : trace) (op : obs) (b : trace) (its : list obs) (z : obs) (d : trace).
  Notation T := (tr (wm w)).
  Context (Hs : span t T a op b its z d) (e : eid) (m : mid).

  (** values at moments of the bracket *)
  Definition st_in (c : option sid) : Prop := exists h, during t a op b h /\ cur_at m h = c.
  Definition li_in (l : option listener) : Prop := exists h, during t a op b h /\ listener_at w0 m h = l.
  Definition ac_in (en : bool) (s : sid) (l : list action) : Prop := exists h, during t a op b h /\ acts_at w0 en s h = l.
  Definition en_in (v : bool) : Prop := exists h, during t a op b h /\ ended_at m h = v.
  Definition fi_in (tb : mid) (s : sid) (v : bool) : Prop := exists h, during t a op b h /\ (v = true <-> final_at E w0 tb h s).

  Definition all_read (out : list obs) : Prop := forall o, In o out -> In o its.
  Lemma ar_app l1 l2 : all_read (l1 ++ l2) -> all_read l1 /\ all_read l2.
  Proof. intro H. split; intros o Ho; apply H, in_or_app; auto. Qed.
  Lemma ar_cons o l : all_read (o :: l) -> In o its /\ all_read l.
  Proof. intro H. split; [apply H; left; reflexivity|]. intros x Hx. apply H. right. exact Hx. Qed.
  Lemma rd_in r : In (R r) its -> exists h, during t a op b h /\ read_at E w0 h r.
  Proof. intro Hi. exact (read_during E w0 w H0 Hr _ _ _ _ _ _ _ _ Hs Hi). Qed.
  Lemma st_rd c : In (R (RdCur m c)) its -> st_in c.
  Proof. intro Hi. destruct (rd_in _ Hi) as (h & Hd & Hv). exists h. split; [exact Hd|]. symmetry. exact Hv. Qed.
  Lemma li_rd c : In (R (RdListener m c)) its -> li_in c.
  Proof. intro Hi. destruct (rd_in _ Hi) as (h & Hd & Hv). exists h. split; [exact Hd|]. symmetry. exact Hv. Qed.
  Lemma ac_rd en s l : In (R (RdActs en s l)) its -> ac_in en s l.
  Proof. intro Hi. destruct (rd_in _ Hi) as (h & Hd & Hv). exists h. split; [exact Hd|]. symmetry. exact Hv. Qed.
  Lemma en_rd v : In (R (RdEnded m v)) its -> en_in v.
  Proof. intro Hi. destruct (rd_in _ Hi) as (h & Hd & Hv). exists h. split; [exact Hd|]. symmetry. exact Hv. Qed.
  Lemma fi_rd tb s v : In (R (RdFinal tb s v)) its -> fi_in tb s v.
  Proof. intro Hi. destruct (rd_in _ Hi) as (h & Hd & Hv). exists h. split; [exact Hd|exact Hv]. Qed.

  Lemma seqx_script (L1 L2 : lang) (A B : script) :
    (forall x out, all_read out -> L1 x out -> A x (shown out)) ->
    (forall x out, all_read out -> L2 x out -> B x (shown out)) ->
    forall x out, all_read out -> seqx L1 L2 x out -> andthen A B x (shown out).
  Proof.
    intros H1 H2 x out Hi [(y & -> & H)|(o1 & o2 & -> & Ha & Hb)].
    - left. exists y. auto.
    - right. destruct (ar_app _ _ Hi). exists (shown o1), (shown o2). rewrite shown_app. auto.
  Qed.
  Lemma told_ok fin f s x out : all_read out -> notifyL m fin f e s x out -> told m e li_in fin f s x (shown out).
  Proof.
    intros Hi [[-> ->]|[(l & -> & ->)|(l0 & l & ->)]]; unfold told.
    - left. apply ar_cons in Hi. destruct Hi. split; [apply li_rd; assumption|auto].
    - right. left. apply ar_cons in Hi. destruct Hi as [_ Hi]. apply ar_cons in Hi. destruct Hi.
      split; [apply li_rd; assumption|auto].
    - right. right. exists l. simpl in Hi. apply ar_cons in Hi. destruct Hi as [_ Hi]. apply ar_cons in Hi. destruct Hi.
      split; [apply li_rd; assumption|reflexivity].
  Qed.
  Lemma ran_ok en s n l0 x out : n = List.length l0 -> all_read out -> forall pre l, l0 = pre ++ l -> runL en s e m n l x out ->
    exists l1 l2, l = l1 ++ l2 /\
      let done := flat_map (fun a => called (KAct en a s e m) None) l1 in
      (x = None /\ l2 = [] /\ shown out = done) \/
      (x = Some XConcurrentMod /\ shown out = done /\ exists l', ac_in en s l' /\ List.length l' <> n) \/
      (exists a r y, l2 = a :: r /\ x = Some y /\ shown out = done ++ called (KAct en a s e m) (Some y)).
  Proof.
    intros Hn Hi pre l Hl H. revert pre Hl. induction H; intros pre Hl.
    - exists [], l. split; [reflexivity|]. right. left. split; [reflexivity|]. split; [reflexivity|]. exists l'.
      apply ar_cons in Hi. destruct Hi. split; [apply ac_rd; assumption|assumption].
    - exists [], []. split; [reflexivity|]. left. auto.
    - exists [], (a0 :: r). split; [reflexivity|]. right. right. exists a0, r, y. auto.
    - assert (Hi2 : all_read out). { intros o Ho. apply Hi. right. simpl. auto. }
      destruct (IHrunL Hi2 (pre ++ [a0])) as (l1 & l2 & -> & Hx).
      { rewrite <- app_assoc. exact Hl. }
      exists (a0 :: l1), l2. split; [reflexivity|]. simpl in *.
      destruct Hx as [(-> & -> & ->)|[(-> & -> & Hx)|(a1 & r1 & y & -> & -> & ->)]].
      + left. auto.
      + right. left. auto.
      + right. right. exists a1, r1, y. auto.
  Qed.
  Lemma ran_all_ok en x out : all_read out -> curL m (someL (fun s => actsL en s e m)) x out ->
    ran_all m e st_in ac_in en x (shown out).
  Proof.
    intros Hi (c & out' & -> & H). apply ar_cons in Hi. destruct Hi as [Hc Hi]. apply st_rd in Hc.
    destruct c as [s|]; simpl in H.
    - right. destruct H as (l & o2 & -> & H). apply ar_cons in Hi. destruct Hi as [Ha Hi]. apply ac_rd in Ha.
      exists s, l. split; [exact Hc|]. split; [exact Ha|].
      destruct (ran_ok en s _ l x o2 eq_refl Hi [] l eq_refl H) as (l1 & l2 & Hl & Hx). exists l1, l2. auto.
    - left. destruct H as [-> ->]. auto.
  Qed.
  Lemma moved_ok s x out : all_read out -> updateL E m s x out -> moved E m en_in s x (shown out).
  Proof.
    intros Hi (-> & [->| ->]); split; auto.
    - left. apply ar_cons in Hi. destruct Hi. split; [apply en_rd; assumption|reflexivity].
    - right. change nm_end with "_END_" in *. destruct (String.eqb (sname E s) "_END_") eqn:En.
      + split; [|reflexivity].
        apply ar_cons in Hi. destruct Hi as [Hi _]. apply in_split in Hi. destruct Hi as (i1 & i2 & Hi).
        destruct (item_moment w _ _ _ _ _ _ _ _ _ _ Hs Hi eq_refl) as (b1 & b2 & Hb & _ & HT).
        exists (a ++ (t, op) :: b1). split; [exists b1, ((t, OEnded m) :: b2); auto|].
        destruct (Truth.truth E w0 w (im_tr _ _ H0) Hr) as [_ Ht]. destruct (Ht _ _ _ _ HT) as [Hw _]. simpl in Hw.
        rewrite (im_ended _ _ H0) in Hw. exact Hw.
      + apply ar_cons in Hi. destruct Hi. split; [apply en_rd; assumption|reflexivity].
  Qed.

  End Vals.

  (** ** The bracket of one event *)
  Section One.
  Context (w0 : mem) (w : world) (H0 : init_mem E w0) (Hr : reach E w0 w).
  Context (t : tid) (a : trace) (q : qid) (p : pid) (e : eid) (m : mid) (b : trace) (its : list obs)
          (z : obs) (d : trace).
  Notation T := (tr (wm w)).
  Notation op := (OTake q p (Some (e, m))).
  Context (Hs : span t T a op b its z d).

  Lemma take_inv : exists tm x bb out1 out2 y, taker E q t tm /\ z = ODone q p x /\
    its = R (RdPair p (Some (e, m))) :: R (RdEnded tm bb) :: out1 ++ out2 ++ [OWr (WrGive (s_pool (strat E (strat_of E tm))) p)] /\
    (if bb : bool then out1 = [] /\ out2 = [] /\ x = None /\ y = None
     else executeL E (strat_of E tm) e m y out1 /\
          match y with
          | Some v => if is_exception v then out2 = called (KUflExn (flow_of E tm) e m v) x else out2 = [] /\ x = Some v
          | None => out2 = [] /\ x = None
          end).
  Proof.
    pose proof (span_node E w0 w H0 Hr _ _ _ _ _ _ _ _ Hs eq_refl) as Hn. simpl in Hn.
    destruct z; try contradiction. destruct Hn as (-> & -> & tm & i & Ht & Hq & bb & out1 & out2 & Hits & Hb).
    destruct bb.
    - exists tm, x, true, out1, out2, None. split; [split; [auto|eauto]|]. split; [reflexivity|]. split; [exact Hits|].
      destruct Hb as (-> & -> & ->). auto.
    - destruct Hb as (y & Hy & Hb). exists tm, x, false, out1, out2, y. split; [split; [auto|eauto]|].
      split; [reflexivity|]. split; [exact Hits|]. split; [exact Hy|exact Hb].
  Qed.
  Lemma take_ended tm bb : In (R (RdEnded tm bb)) its -> exists h, during t a op b h /\ ended_at tm h = bb.
  Proof.
    intro Hi. destruct (read_during E w0 w H0 Hr _ _ _ _ _ _ _ _ Hs Hi) as (h & Hd & He). exists h. split; [exact Hd|].
    symmetry. exact He.
  Qed.

  Lemma exec_marks k y out : executeL E k e m y out -> Forall (mexec E k e m) out.
  Proof. apply only_execute. Qed.

  (** C17: exceptions *)
  Lemma reported_once : exists tm P Rep y x, taker E q t tm /\ z = ODone q p x /\ shown its = P ++ Rep /\
    (forall u e' m' x', ~ In (OCall (KUflExn u e' m' x')) P) /\
    (forall c v, In (OBack c (Some v)) P -> y = Some v /\ exists P', P = P' ++ [OBack c (Some v)]) /\
    (forall v, y = Some v -> (exists c P', P = P' ++ [OBack c (Some v)]) \/ v = XNullPointer \/ v = XConcurrentMod) /\
    match y with
    | Some v => if is_exception v then Rep = called (KUflExn (flow_of E tm) e m v) x else Rep = [] /\ x = Some v
    | None => Rep = [] /\ x = None
    end.
  Proof.
    destruct take_inv as (tm & x & bb & out1 & out2 & y & Ht & Hz & Hi & Hb).
    exists tm, (shown out1), (shown out2), y, x. split; [exact Ht|]. split; [exact Hz|].
    assert (Hd : tdy y out1 /\ Forall (mexec E (strat_of E tm) e m) out1).
    { destruct bb; [destruct Hb as (-> & _ & _ & ->); split; [apply tdy_nil|constructor]|].
      destruct Hb as [Hb _]. split; [eapply tidy_exec; exact Hb|eapply exec_marks; exact Hb]. }
    destruct Hd as [[D1 D2] D3]. split; [|split; [|split; [|split]]].
    - rewrite Hi. simpl. rewrite !shown_app. simpl. rewrite app_nil_r. reflexivity.
    - intros u e' m' x' Hx. apply filter_In in Hx. destruct Hx as [Hx _]. rewrite Forall_forall in D3.
      apply D3 in Hx. dmay; discriminate.
    - intros c v Hx. apply filter_In in Hx. destruct Hx as [Hx _]. destruct (D1 _ _ Hx) as (-> & o' & ->).
      split; [reflexivity|]. exists (shown o'). rewrite shown_app. reflexivity.
    - intros v Hv. destruct (D2 v Hv) as [(c & o' & ->)|Hx]; [|right; exact Hx].
      left. exists c, (shown o'). rewrite shown_app. reflexivity.
    - destruct bb; [destruct Hb as (_ & -> & -> & ->); auto|]. destruct Hb as [_ Hb].
      destruct y as [v|]; [|destruct Hb as [-> ->]; auto].
      destruct (is_exception v); [rewrite Hb; reflexivity|]. destruct Hb as [-> ->]. auto.
  Qed.

  Notation st := (st_in t a op b m).
  Notation li := (li_in w0 t a op b m).
  Notation ac := (ac_in w0 t a op b).
  Notation en := (en_in t a op b m).
  Notation fi := (fi_in w0 t a op b).
  Lemma script_ok : exists tm y x P Rep, taker E q t tm /\ z = ODone q p x /\ shown its = P ++ Rep /\
    reported (flow_of E tm) e m y x Rep /\
    ((exists h, during t a op b h /\ ended_at tm h = true /\ P = [] /\ y = None) \/
     exists h1 h2 r, during t a op b h1 /\ during t a op b h2 /\ upto h1 h2 /\
       reacts_at E w0 (table_of E tm) h2 (cur_at m h1) e r /\
       reaction_script E m e st li ac en (fi (table_of E tm)) (handler_of E tm) r y P).
  Proof.
    destruct take_inv as (tm & x & bb & out1 & out2 & y & Ht & Hz & Hi & Hb).
    exists tm, y, x, (shown out1), (shown out2). split; [exact Ht|]. split; [exact Hz|]. split.
    { rewrite Hi. simpl. rewrite !shown_app. simpl. rewrite app_nil_r. reflexivity. }
    destruct bb.
    { destruct Hb as (-> & -> & -> & ->). split; [split; reflexivity|]. left.
      destruct (take_ended tm true) as (h & Hd & Hv).
      - rewrite Hi. right. left. reflexivity.
      - exists h. auto. }
    destruct Hb as [Hb Hrep]. split.
    { unfold reported. destruct y as [v|]; [|destruct Hrep as [-> ->]; auto].
      destruct (is_exception v); [rewrite Hrep; reflexivity|destruct Hrep as [-> ->]; auto]. }
    right. destruct Hb as (c & o1 & -> & to & o2 & -> & Hx).
    assert (Hi2 : its = [R (RdPair p (Some (e, m))); R (RdEnded tm false)] ++
        R (RdCur m c) :: [] ++ R (RdMap (table_of E tm) c e to) :: (o2 ++ out2 ++ [OWr (WrGive (s_pool (strat E (strat_of E tm))) p)])).
    { rewrite Hi. reflexivity. }
    destruct (reads_during E w0 w H0 Hr _ _ _ _ _ _ _ _ _ _ _ _ Hs Hi2) as (h1 & h2 & D1 & D2 & Hu & V1 & V2).
    simpl in V1, V2. subst c. exists h1, h2, (rea to).
    split; [exact D1|]. split; [exact D2|]. split; [exact Hu|]. split; [exact V2|].
    assert (Har : all_read its o2).
    { intros o Ho. rewrite Hi. right. right. simpl. right. right. apply in_or_app. left. exact Ho. }
    unfold reaction_script. simpl shown.
    destruct to as [[s|]|]; simpl.
    - change nm_noop with "_NOOP_" in Hx. rewrite (String.eqb_sym (sname E s)). destruct (String.eqb "_NOOP_" (sname E s)).
      + unfold noopL in Hx. unfold no_transition.
        destruct Hx as [(v & -> & f & o3 & -> & Hx)|(o3 & o4 & -> & (f & o5 & -> & Ha) & (f' & o6 & -> & Hb))].
        * apply ar_cons in Har. destruct Har as [Hf Har]. apply (st_rd _ _ H0 Hr _ _ _ _ _ _ _ Hs) in Hf. exists f, f. split; [exact Hf|]. split; [exact Hf|].
          left. exists v. split; [reflexivity|]. exact (told_ok _ _ H0 Hr _ _ _ _ _ _ _ Hs _ _ _ _ _ _ _ Har Hx).
        * apply ar_app in Har. destruct Har as [A1 A2]. apply ar_cons in A1. destruct A1 as [F1 A1].
          apply ar_cons in A2. destruct A2 as [F2 A2]. apply (st_rd _ _ H0 Hr _ _ _ _ _ _ _ Hs) in F1, F2.
          exists f, f'. split; [exact F1|]. split; [exact F2|]. right.
          exists (shown o5), (shown o6). split; [simpl; rewrite shown_app; reflexivity|].
          split; [exact (told_ok _ _ H0 Hr _ _ _ _ _ _ _ Hs _ _ _ _ _ _ _ A1 Ha)|exact (told_ok _ _ H0 Hr _ _ _ _ _ _ _ Hs _ _ _ _ _ _ _ A2 Hb)].
      + destruct Hx as (f & o3 & -> & Hx). apply ar_cons in Har. destruct Har as [Hf Har]. apply (st_rd _ _ H0 Hr _ _ _ _ _ _ _ Hs) in Hf.
        exists f. split; [exact Hf|]. simpl shown. revert Hx. revert Har. generalize y, o3.
        apply seqx_script; [intros; eapply told_ok; eassumption|].
        apply seqx_script; [intros; eapply ran_all_ok; eassumption|].
        apply seqx_script; [intros; eapply moved_ok; eassumption|].
        apply seqx_script; [intros; eapply ran_all_ok; eassumption|].
        apply seqx_script; [intros; eapply told_ok; eassumption|].
        intros x1 out Ha (v & o4 & -> & Hv). apply ar_cons in Ha. destruct Ha as [Ha1 Ha2]. apply (fi_rd _ _ H0 Hr _ _ _ _ _ _ _ Hs) in Ha1.
        exists v. split; [exact Ha1|]. simpl shown. destruct v; [eapply moved_ok; eassumption|].
        destruct Hv as [-> ->]. split; reflexivity.
    - rewrite Hx. reflexivity.
    - destruct Hx as [-> ->]. split; reflexivity.
  Qed.
  End One.
End Flow.
