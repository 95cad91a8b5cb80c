(** * PropsCall.v: theorems C30, C31, C33, C35, C36, C37, C45 *)
From Verif Require Import ExnSpec CallSpec Demo2 Demo11 Witness CallProofs MultiProofs.

(** ** C30: multi-consumer listener *)
Theorem C30_add :
  forall E w0 w, init_mem E w0 -> reach E w0 w ->
  forall k l t a b its v d, span t (tr (wm w)) a (OInv (AMultiAdd k l)) b its (ORet (AMultiAdd k l) v) d ->
    exists h o, during t a (OInv (AMultiAdd k l)) b h /\ during t a (OInv (AMultiAdd k l)) b (h ++ [(t, o)]) /\
      v = RvBool (negb (registered w0 k l h)) /\ registered w0 k l (h ++ [(t, o)]) = true /\
      forall k' l', (k', l') <> (k, l) -> registered w0 k' l' (h ++ [(t, o)]) = registered w0 k' l' h.
Proof. exact (fun E w0 w H0 Hr => multi_call E w0 w H0 Hr true). Qed.
Print Assumptions C30_add.

Theorem C30_remove :
  forall E w0 w, init_mem E w0 -> reach E w0 w ->
  forall k l t a b its v d, span t (tr (wm w)) a (OInv (AMultiRem k l)) b its (ORet (AMultiRem k l) v) d ->
    exists h o, during t a (OInv (AMultiRem k l)) b h /\ during t a (OInv (AMultiRem k l)) b (h ++ [(t, o)]) /\
      v = RvBool (registered w0 k l h) /\ registered w0 k l (h ++ [(t, o)]) = false /\
      forall k' l', (k', l') <> (k, l) -> registered w0 k' l' (h ++ [(t, o)]) = registered w0 k' l' h.
Proof. exact (fun E w0 w H0 Hr => multi_call E w0 w H0 Hr false). Qed.
Print Assumptions C30_remove.

(** a notification goes to listeners one after the other until one throws: only to
    listeners registered at some moment of it, to none more often than it was
    registered (at the beginning, or anew meanwhile), and if none throws to every
    listener that stays registered throughout *)
Theorem C30_notification :
  forall E w0 w, init_mem E w0 -> reach E w0 w ->
  forall t a b its d k fin m f e s x,
    span t (tr (wm w)) a (OCall (KListen fin (LMulti k) m f e s)) b its (OBack (KListen fin (LMulti k) m f e s) x) d ->
    exists ls, one_by_one (map (fun l => KListen fin (LLeaf l) m f e s) ls) x (shown its) /\
      (forall l, In l ls -> sometime t a (OCall (KListen fin (LMulti k) m f e s)) b (fun h => registered w0 k l h = true)) /\
      (forall l, times l ls <= (if registered w0 k l a then 1 else 0) + joins k l b) /\
      (x = None -> forall l, (forall h, during t a (OCall (KListen fin (LMulti k) m f e s)) b h -> registered w0 k l h = true) -> In l ls).
Proof. exact multi_notify. Qed.
Print Assumptions C30_notification.

(** without interference: exactly the registered listeners, each once, until one
    throws *)
Theorem C30_notification_undisturbed :
  forall E w0 w, init_mem E w0 -> reach E w0 w ->
  forall t a b its d k fin m f e s x,
    span t (tr (wm w)) a (OCall (KListen fin (LMulti k) m f e s)) b its (OBack (KListen fin (LMulti k) m f e s) x) d ->
    (forall l h, during t a (OCall (KListen fin (LMulti k) m f e s)) b h -> registered w0 k l h = registered w0 k l a) ->
    exists ls, one_by_one (map (fun l => KListen fin (LLeaf l) m f e s) ls) x (shown its) /\ NoDup ls /\
      (forall l, In l ls -> registered w0 k l a = true) /\
      (x = None -> forall l, registered w0 k l a = true -> In l ls).
Proof. exact multi_undisturbed. Qed.
Print Assumptions C30_notification_undisturbed.

(** all four results of add and remove; a complete notification, and one that
    listener 2 stops so that listener 3 does not get it *)
Example C30_example :
  let T := tr (wm run5) in
  spans c0 T 0 2 (OInv (AMultiAdd 0 (LfUser 1))) (ORet (AMultiAdd 0 (LfUser 1)) (RvBool true)) /\
  spans c0 T 3 5 (OInv (AMultiAdd 0 (LfUser 1))) (ORet (AMultiAdd 0 (LfUser 1)) (RvBool false)) /\
  spans c0 T 9 11 (OInv (AMultiRem 0 (LfUser 9))) (ORet (AMultiRem 0 (LfUser 9)) (RvBool false)) /\
  spans c0 T 49 51 (OInv (AMultiRem 0 (LfUser 1))) (ORet (AMultiRem 0 (LfUser 1)) (RvBool true)) /\
  (let c := KListen false (LMulti 0) 0 (SUser 0) (EUser 0) (SUser 1) in
   spans (wk 0) T 107 118 (OCall c) (OBack c None)) /\
  (let c := KListen true (LMulti 0) 0 (SUser 1) (EUser 1) (SNoop 0) in
   spans (wk 0) T 171 180 (OCall c) (OBack c (Some (XUser 8))) /\
   registered w5 0 (LfUser 3) (part 0 176 T) = true /\
   forall o, In o (items (wk 0) (part 172 180 T)) -> o <> OCall (KListen true (LLeaf (LfUser 3)) 0 (SUser 1) (EUser 1) (SNoop 0))).
Proof.
  split; [sp|]. split; [sp|]. split; [sp|]. split; [sp|]. split; [cbv zeta; sp|].
  cbv zeta. split; [sp|]. split; [vm_compute; reflexivity|].
  intros o Hi. vm_compute in Hi. intuition congruence.
Qed.

(** machine 0 of run27: listener 1, notified first, removes itself and 3 and adds 2;
    1, 3 and 2 are called.  The second notification is undisturbed *)
Example C30_example_walk :
  let T := tr (wm run27) in
  (let c := KListen false (LMulti 0) 0 (SNone 0) (EImm 0) (SUser 0) in
   spans c0 T 14 35 (OCall c) (OBack c None) /\
   shown (items c0 (part 15 35 T)) = flat_map (fun l => called (KListen false (LLeaf (LfUser l)) 0 (SNone 0) (EImm 0) (SUser 0)) None) [1; 3; 2] /\
   joins 0 (LfUser 2) (part 15 35 T) = 1) /\
  (let c := KListen true (LMulti 0) 0 (SNone 0) (EImm 0) (SUser 0) in
   spans c0 T 40 46 (OCall c) (OBack c None) /\
   forall l h, during c0 (part 0 40 T) (OCall c) (part 41 46 T) h -> registered w27 0 l h = registered w27 0 l (part 0 40 T)).
Proof.
  cbv zeta. split; [split; [sp|split; vm_compute; reflexivity]|]. split; [sp|].
  intros l h Hd. set (h0 := part 0 40 (tr (wm run27))) in *. destruct Hd as (b1 & b2 & Hb & ->).
  assert (Hn : forall b1 b2, part 41 46 (tr (wm run27)) = b1 ++ b2 -> forall g, registered w27 0 l (g ++ b1) = registered w27 0 l g).
  { assert (G : forallb (fun to => match snd to with OWr (WrMulti _ _ _ _) => false | _ => true end) (part 41 46 (tr (wm run27))) = true)
      by (vm_compute; reflexivity).
    intros u1 u2 Hu. rewrite Hu, forallb_app in G. apply andb_true_iff in G. destruct G as [G _]. clear Hu u2.
    induction u1 as [|[t o] u1 IH] using rev_ind; intro g; [rewrite app_nil_r; reflexivity|].
    rewrite forallb_app in G. apply andb_true_iff in G. destruct G as [G1 G2]. rewrite app_assoc, registered_snoc.
    destruct o as [| | | | | | | | | | | | | | |ww]; try (apply IH; exact G1). destruct ww; try (apply IH; exact G1). discriminate G2. }
  change ((c0, OCall (KListen true (LMulti 0) 0 (SNone 0) (EImm 0) (SUser 0))) :: b1) with ([(c0, OCall (KListen true (LMulti 0) 0 (SNone 0) (EImm 0) (SUser 0)))] ++ b1).
  rewrite app_assoc, (Hn _ _ Hb), registered_snoc. reflexivity.
Qed.

(** ** C31: HandleExceptionAction *)
Theorem C31_handled :
  forall E w0 w, init_mem E w0 -> reach E w0 w ->
  forall t a b its d c a' h e m x, performs c (AHandle a' h) e m ->
    span t (tr (wm w)) a (OCall c) b its (OBack c x) d ->
    exists y, match y with
      | None => its = called (KInner a' e m) None /\ x = None
      | Some v => if an_exception v then its = called (KInner a' e m) (Some v) ++ called (KHandler h e m v) x
                  else its = called (KInner a' e m) (Some v) /\ x = Some v
      end.
Proof. exact handled. Qed.
Print Assumptions C31_handled.

Example C31_example :
  let T := tr (wm run5) in let c := KAct true (AHandle (AUser 20) (HUser 0)) (SUser 1) (EUser 0) 0 in
  performs c (AHandle (AUser 20) (HUser 0)) (EUser 0) 0 /\ spans (wk 0) T 130 135 (OCall c) (OBack c None) /\
  items (wk 0) (part 131 135 T) = called (KInner (AUser 20) (EUser 0) 0) (Some (XUser 4)) ++ called (KHandler (HUser 0) (EUser 0) 0 (XUser 4)) None.
Proof. cbv zeta. split; [left; do 2 eexists; reflexivity|]. split; [sp|vm_compute; reflexivity]. Qed.

(** ** C33: the logging listener *)
Theorem C33_one_line :
  forall E w0 w, init_mem E w0 -> reach E w0 w ->
  forall t a b its d n nm fin m f e s x,
    span t (tr (wm w)) a (OCall (KListen fin (LLeaf (LfLog n nm)) m f e s)) b its (OBack (KListen fin (LLeaf (LfLog n nm)) m f e s) x) d ->
    x = None /\ exists h, during t a (OCall (KListen fin (LLeaf (LfLog n nm)) m f e s)) b h /\
      shown its = [OLog (log_text nm fin (sname E f) (name_at E w0 e h) (sname E s))].
Proof. exact logged. Qed.
Print Assumptions C33_one_line.

Theorem C33_target_determined :
  forall nm fin f e t t', log_text nm fin f e t = log_text nm fin f e t' -> t = t'.
Proof. exact line_target. Qed.
Print Assumptions C33_target_determined.

(** but not the whole transition *)
Theorem C33_transition_determined_refuted :
  ~ forall nm f e t f' e' t', log_text nm false f e t = log_text nm false f' e' t' -> (f, e, t) = (f', e', t').
Proof. intro H. specialize (H None "A + B" "C" "D" "A" "B + C" "D" eq_refl)%string. discriminate. Qed.
Print Assumptions C33_transition_determined_refuted.

Example C33_example :
  let T := tr (wm run5) in let c := KListen false (LLeaf (LfLog 5 (Some "m"%string))) 0 (SUser 0) (EUser 0) (SUser 1) in
  spans (wk 0) T 110 113 (OCall c) (OBack c None) /\
  shown (items (wk 0) (part 111 113 T)) = [OLog "Begin m transition: A + e0 = B"%string] /\
  log_text (Some ""%string) true "A" "e0" "B" = "Transitioned to B"%string /\
  log_text None false "A" "e0" "B" = "Begin transition: A + e0 = B"%string.
Proof. cbv zeta. split; [sp|]. split; [vm_compute; reflexivity|]. split; reflexivity. Qed.

(** ** C35: subsystems *)
Theorem C35_started_in_order :
  forall E w0 w, init_mem E w0 -> reach E w0 w ->
  forall t a b its d c p e m x, performs c (AAppStarting p) e m ->
    span t (tr (wm w)) a (OCall c) b its (OBack c x) d ->
    exists h o, during t a (OCall c) b h /\
      shown its = OLog ("Starting " ++ ap_name (apps E p) ++ " with args [" ++ String.concat ", " (ap_args (apps E p)) ++ "]")%string :: o /\
      andthen (one_by_one (map (KSub true p) (subsystems_at w0 p h)))
              (fired E w0 (ap_mach (apps E p)) (ELife LComplete) t a (OCall c) b) x o.
Proof. exact (fun E w0 w H0 Hr => subsystems E w0 w H0 Hr true). Qed.
Print Assumptions C35_started_in_order.

Theorem C35_stopped_in_reverse :
  forall E w0 w, init_mem E w0 -> reach E w0 w ->
  forall t a b its d c p e m x, performs c (AAppStopping p) e m ->
    span t (tr (wm w)) a (OCall c) b its (OBack c x) d ->
    exists h o, during t a (OCall c) b h /\
      shown its = OLog ("Stopping " ++ ap_name (apps E p))%string :: o /\
      andthen (one_by_one (map (KSub false p) (rev (subsystems_at w0 p h))))
              (fired E w0 (ap_mach (apps E p)) (ELife LComplete) t a (OCall c) b) x o.
Proof. exact (fun E w0 w H0 Hr => subsystems E w0 w H0 Hr false). Qed.
Print Assumptions C35_stopped_in_reverse.

(** the handler wrapped around both (C31) fires the error event *)
Theorem C35_error_fired :
  forall E w0 w, init_mem E w0 -> reach E w0 w ->
  forall t a b its d p e m y x,
    span t (tr (wm w)) a (OCall (KHandler (HApp p) e m y)) b its (OBack (KHandler (HApp p) e m y) x) d ->
    exists s o, shown its = OLog s :: o /\ fired E w0 (ap_mach (apps E p)) (ELife LError) t a (OCall (KHandler (HApp p) e m y)) b x o.
Proof. exact app_handler. Qed.
Print Assumptions C35_error_fired.

(** app 2: the first start fails at subsystem 1, the second succeeds; stopping
    fails at subsystem 1.  app 1 is stopped *)
Example C35_example :
  let T := tr (wm run6) in
  (forall p k, acts w6 true (SApp p k) = app_entry_actions p k) /\
  (let c := KInner (AAppStarting 2) (ELife LStart) 2 in
   spans (wk 2) T 136 143 (OCall c) (OBack c (Some (XUser 1))) /\ spans (wk 2) T 223 240 (OCall c) (OBack c None)) /\
  (let c := KHandler (HApp 2) (ELife LStart) 2 (XUser 1) in spans (wk 2) T 144 157 (OCall c) (OBack c None)) /\
  (let c := KInner (AAppStopping 2) (ELife LStop) 2 in spans (wk 2) T 304 309 (OCall c) (OBack c (Some (XUser 2)))) /\
  (let c := KInner (AAppStopping 1) (ELife LStop) 1 in spans (wk 1) T 420 437 (OCall c) (OBack c None) /\
   shown (items (wk 1) (part 421 437 T)) =
     [OLog "Stopping app"%string; OCall (KSub false 1 1); OBack (KSub false 1 1) None; OCall (KSub false 1 0); OBack (KSub false 1 0) None;
      OOffer 1 1 (ELife LComplete) 1 (ELife LComplete) 1; OSubmit 1 {| tk_strat := 1; tk_mach := 1 |}]).
Proof.
  cbv zeta. split; [reflexivity|]. split; [split; sp|]. split; [sp|]. split; [sp|]. split; [sp|]. vm_compute. reflexivity.
Qed.

(** ** C36: app start() and stop() *)
Theorem C36_stop :
  forall E w0 w, init_mem E w0 -> reach E w0 w ->
  forall t a b its d p v, span t (tr (wm w)) a (OInv (AAppStop p)) b its (ORet (AAppStop p) v) d ->
    exists h, during t a (OInv (AAppStop p)) b h /\ let n := app_state E p h in
      ((n = Some "STARTED" \/ (restartable E p /\ n = Some "STOPPED")) /\
         exists x, v = outcome x /\ fired E w0 (ap_mach (apps E p)) (ELife LStop) t a (OInv (AAppStop p)) b x (shown its)) \/
      (~ restartable E p /\ n = Some "STOPPED" /\ v = RvUnit /\ shown its = []) \/
      (n <> Some "STARTED" /\ n <> Some "STOPPED" /\ v = RvErr (XIllegalState (RAppStop n)) /\ shown its = []).
Proof. exact app_stop_call. Qed.
Print Assumptions C36_stop.

Theorem C36_second_start :
  forall E w0 w, init_mem E w0 -> reach E w0 w ->
  forall t a b its d p v, span t (tr (wm w)) a (OInv (AAppStart p)) b its (ORet (AAppStart p) v) d ->
    started_at (ap_mach (apps E p)) a = true ->
    exists h, during t a (OInv (AAppStart p)) b h /\ let n := app_state E p h in
      (restartable E p /\ n = Some "STOPPED" /\
         exists x, v = outcome x /\ fired E w0 (ap_mach (apps E p)) (ELife LStart) t a (OInv (AAppStart p)) b x (shown its)) \/
      (~ (restartable E p /\ n = Some "STOPPED") /\ v = RvErr (XIllegalState (RAppStart n)) /\ shown its = []).
Proof. exact app_start_again. Qed.
Print Assumptions C36_second_start.

(** stop() in all four situations; second start() of both kinds of app *)
Example C36_example :
  let T := tr (wm run6) in
  (spans c2 T 23 25 (OInv (AAppStop 1)) (ORet (AAppStop 1) (RvErr (XIllegalState (RAppStop (Some "UNINITIALISED"%string)))))) /\
  (spans (TClient 3) T 274 286 (OInv (AAppStop 2)) (ORet (AAppStop 2) RvUnit) /\ app_state E6 2 (part 0 275 T) = Some "STARTED"%string) /\
  (spans (TClient 4) T 356 368 (OInv (AAppStop 2)) (ORet (AAppStop 2) RvUnit) /\ app_state E6 2 (part 0 357 T) = Some "STOPPED"%string /\ restartable E6 2) /\
  (spans (TClient 6) T 486 488 (OInv (AAppStop 1)) (ORet (AAppStop 1) RvUnit) /\ app_state E6 1 (part 0 487 T) = Some "STOPPED"%string /\ ~ restartable E6 1) /\
  (spans c2 T 26 191 (OInv (AAppStart 1)) (ORet (AAppStart 1) (RvErr (XIllegalState (RAppStart (Some "UNINITIALISED"%string))))) /\ started_at 1 (part 0 26 T) = true) /\
  (spans c2 T 192 205 (OInv (AAppStart 2)) (ORet (AAppStart 2) RvUnit) /\ started_at 2 (part 0 192 T) = true).
Proof.
  cbv zeta. split; [sp|]. split; [split; [sp|vm_compute; reflexivity]|].
  split; [split; [sp|split; vm_compute; reflexivity]|].
  split; [split; [sp|split; [vm_compute; reflexivity|discriminate]]|].
  split; (split; [sp|vm_compute; reflexivity]).
Qed.

(** ** C37: when the blocking start() returns *)
Theorem C37_returns_only_after_stopped :
  forall E w0 w, init_mem E w0 -> reach E w0 w ->
  forall t a b its d p, span t (tr (wm w)) a (OInv (AAppStart p)) b its (ORet (AAppStart p) RvUnit) d ->
    In (OStarted (ap_mach (apps E p))) its ->
    In (OLog "Main latch was interrupted") its \/
    (~ restartable E p /\ exists t' c e m its', performs c (AAppStopped p) e m /\
       bracket t' (a ++ (t, OInv (AAppStart p)) :: b) (FCall c) its' /\ In (OWr (WrLatch p)) its').
Proof.
  intros E w0 w H0 Hr t a b its d p Hs Hi. destruct (app_start_returns E w0 w H0 Hr _ _ _ _ _ _ Hs Hi) as [H|[H1 H2]]; [auto|].
  right. split; [unfold restartable; congruence|exact H2].
Qed.
Print Assumptions C37_returns_only_after_stopped.

(** the action of state STOPPED releases the latch in exit mode only, after
    firing the stop event *)
Theorem C37_stopped_action :
  forall E w0 w, init_mem E w0 -> reach E w0 w ->
  forall t a b its d c p e m x, performs c (AAppStopped p) e m ->
    span t (tr (wm w)) a (OCall c) b its (OBack c x) d ->
    exists o, shown its = OLog ("Stopped " ++ ap_name (apps E p))%string :: o /\
      (if ap_exit (apps E p) then fired E w0 (ap_mach (apps E p)) (ELife LStop) t a (OCall c) b x o else x = None /\ o = []) /\
      (In (OWr (WrLatch p)) its <-> ap_exit (apps E p) = true /\ x = None).
Proof. exact stopped_action. Qed.
Print Assumptions C37_stopped_action.

Theorem C37_restartable_never_returns_by_itself :
  forall E w0 w, init_mem E w0 -> reach E w0 w ->
  forall t a b its d p v, span t (tr (wm w)) a (OInv (AAppStart p)) b its (ORet (AAppStart p) v) d ->
    In (OStarted (ap_mach (apps E p))) its -> restartable E p -> ~ In (OLog "Main latch was interrupted") its ->
    exists y, v = RvErr y.
Proof. exact restartable_blocks. Qed.
Print Assumptions C37_restartable_never_returns_by_itself.

(** start() of app 1 returns after STOPPED was entered; the machine of app 2
    ended but its start() is still blocked *)
Example C37_example :
  let T := tr (wm run6) in
  spans c0 T 0 507 (OInv (AAppStart 1)) (ORet (AAppStart 1) RvUnit) /\ In (OStarted 1) (items c0 (part 1 507 T)) /\
  (let c := KAct true (AAppStopped 1) (SApp 1 STOPPED) (ELife LComplete) 1 in spans (wk 1) T 460 473 (OCall c) (OBack c None)) /\
  ended_at 2 T = true /\ restartable E6 2 /\ exists its, opened c1 T (FApi (AAppStart 2)) its /\ In (OStarted 2) its.
Proof.
  cbv zeta. split; [sp|]. split; [find_in|]. split; [sp|]. split; [vm_compute; reflexivity|]. split; [reflexivity|].
  exists (match fst (scan c1 (tr (wm run6))) with (_, i) :: _ => i | _ => [] end). split; [vm_compute; left; reflexivity|]. find_in.
Qed.

(** ** C45: appending to the list being run *)
Theorem C45_append_while_processing :
  forall E w0 w, init_mem E w0 -> reach E w0 w ->
  forall t A q p co B ITS x D i1 b1 en a s e m b2 its2 b3 t' l,
    span t (tr (wm w)) A (OTake q p co) B ITS (ODone q p x) D ->
    inner_span t B i1 b1 (OCall (KAct en a s e m)) b2 its2 (OBack (KAct en a s e m) None) b3 ->
    In (t', OWr (WrActs en s l)) b2 -> l <> [] ->
    exists tm e0 m0, taker E q t tm /\ co = Some (e0, m0) /\
      shown ITS = shown i1 ++ called (KAct en a s e m) None ++ called (KUflExn (flow_of E tm) e0 m0 XConcurrentMod) x.
Proof. exact append_take. Qed.
Print Assumptions C45_append_while_processing.

Theorem C45_append_during_start :
  forall E w0 w, init_mem E w0 -> reach E w0 w ->
  forall t A m' B ITS v D i1 b1 en a s e m b2 its2 b3 t' l,
    span t (tr (wm w)) A (OInv (AStart m')) B ITS (ORet (AStart m') v) D ->
    inner_span t B i1 b1 (OCall (KAct en a s e m)) b2 its2 (OBack (KAct en a s e m) None) b3 ->
    In (t', OWr (WrActs en s l)) b2 -> l <> [] ->
    v = RvErr XConcurrentMod /\ shown ITS = shown i1 ++ called (KAct en a s e m) None.
Proof. exact append_start. Qed.
Print Assumptions C45_append_during_start.

(** otherwise (in the scripts of C11 and C43): every action once, in order *)
Theorem C45_otherwise_all_run :
  forall m e (Ac : bool -> sid -> list action -> Prop) en s l x out, ran m e Ac en s l x out ->
    (forall l', Ac en s l' -> List.length l' = List.length l) ->
    one_by_one (map (fun a => KAct en a s e m) l) x out.
Proof. exact ran_unchanged. Qed.
Print Assumptions C45_otherwise_all_run.

(** action 11 appends to the running list: action 13 is not run *)
Example C45_example :
  let T := tr (wm run5) in let B := part 100 146 T in
  let c := KAct true (AUser 11) (SUser 1) (EUser 0) 0 in
  spans (wk 0) T 99 146 (OTake 0 0 (Some (EUser 0, 0))) (ODone 0 0 None) /\
  inner_span (wk 0) B (items (wk 0) (part 0 37 B)) (part 0 37 B) (OCall c) (part 38 41 B) (items (wk 0) (part 38 41 B)) (OBack c None) (part 42 102 B) /\
  In (wk 0, OWr (WrActs true (SUser 1) [AUser 99])) (part 38 41 B) /\
  (let B' := part 83 97 T in let c' := KAct true (AUser 30) (SUser 3) (EImm 3) 3 in
   spans c0 T 82 97 (OInv (AStart 3)) (ORet (AStart 3) (RvErr XConcurrentMod)) /\
   inner_span c0 B' (items c0 (part 0 8 B')) (part 0 8 B') (OCall c') (part 9 12 B') (items c0 (part 9 12 B')) (OBack c' None) (part 13 102 B') /\
   In (c0, OWr (WrActs true (SUser 3) [AUser 99])) (part 9 12 B')).
Proof.
  cbv zeta. split; [sp|]. split; [split; [sp|vm_compute; reflexivity]|]. split; [find_in|].
  split; [sp|]. split; [split; [sp|vm_compute; reflexivity]|]. find_in.
Qed.
