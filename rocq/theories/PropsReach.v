(** * PropsReach.v: the states a machine can be in (C12) *)
From Verif Require Import ReachSpec ReachProofs Demo5 Witness.

(** Whenever a thread makes s the current state of a machine: s is the machine's
    end state; or the thread is in start() and s was the initial state; or it is in
    startInState(s) and s was a configured state; or it is processing an event of
    that machine and s was the target for that event in the state the machine was
    in. *)
Theorem C12_entered :
  forall E w0 w, init_mem E w0 -> reach E w0 w ->
  forall t h m s r, tr (wm w) = h ++ (t, OState m s) :: r -> may_enter E w0 t m s h.
Proof. exact entered. Qed.
Print Assumptions C12_entered.

(** At every moment the current state of a machine is null (no state yet), its
    end state, an initial state, a configured argument of startInState() or a
    state given to an accepted itTransitionsTo() of the machine whose table the
    processing task uses (or the end state of that machine). *)
Theorem C12_states :
  forall E w0 w, init_mem E w0 -> reach E w0 w ->
  forall m h r s, tr (wm w) = h ++ r -> cur_at m h = Some s -> configured E w0 m s h.
Proof. exact current_configured. Qed.
Print Assumptions C12_states.

(** The same for what getCurrentState() returns. *)
Theorem C12_get_current_state :
  forall E w0 w, init_mem E w0 -> reach E w0 w ->
  forall t m a b its d s,
    span t (tr (wm w)) a (OInv (AGetCur m)) b its (ORet (AGetCur m) (RvState (Some s))) d ->
    configured E w0 m s (a ++ (t, OInv (AGetCur m)) :: b).
Proof. exact get_state. Qed.
Print Assumptions C12_get_current_state.

(** A machine that shares its queue with no other takes all targets from its own
    strategy's table. *)
Theorem C12_own_table :
  forall E w0 w, init_mem E w0 -> reach E w0 w ->
  forall m h r s, private_queue E m -> table_of E m = m -> tr (wm w) = h ++ r -> cur_at m h = Some s ->
    s = SEnd m \/ (exists h', upto h' h /\ initial_at E w0 m h' s) \/
    (exists t, In (t, OInv (AStartIn m s)) h) \/ offered_target E w0 m s h.
Proof. exact own_states. Qed.
Print Assumptions C12_own_table.

(** In run19 machine 0 is seen in B (the target of e0), then in its end state;
    machine 3 is seen in B, where it was started; machine 0 never is in D. *)
Example C12_example :
  let T := tr (wm run19) in
  init_mem E19 w19 /\ reach E19 w19 run19 /\
  cur_at 0 T = Some (SEnd 0) /\ cur_at 3 T = Some (SUser 1) /\
  (exists i j, spans c1 T i j (OInv (AGetCur 0)) (ORet (AGetCur 0) (RvState (Some (SUser 1))))) /\
  private_queue E19 0 /\ table_of E19 0 = 0 /\
  ~ configured E19 w19 0 (SUser 3) T.
Proof.
  intro T. split; [apply demo_init|]. split; [apply after_reach|].
  split; [vm_compute; reflexivity|]. split; [vm_compute; reflexivity|].
  split; [|split; [|split; [reflexivity|]]].
  - exists 72, 74. sp.
  - intros m' H. exact H.
  - assert (Hu : uncfg T = true) by (vm_compute; reflexivity).
    intros [Hs|h' [r' Hr] Hi|t h' Hin Hu2 Hk|tm Hq [Hs|[Hof|[t Hin]]]].
    + discriminate Hs.
    + assert (Hu' : uncfg h' = true) by (rewrite Hr in Hu; unfold uncfg in *; rewrite forallb_app in Hu; apply andb_prop in Hu; apply Hu).
      apply (uncfg_initial _ _ _ _ _ Hu') in Hi. clear - Hi. vm_compute in Hi. discriminate Hi.
    + assert (Hc : forallb (fun to => match snd to with OInv (AStartIn 0 _) => false | _ => true end) T = true) by (vm_compute; reflexivity).
      rewrite forallb_forall in Hc. specialize (Hc _ Hin). discriminate Hc.
    + discriminate Hs.
    + destruct (Hof flow_cfg eq_refl) as (os1 & os2 & c & He & _).
      assert (Hin : In (CTo (SUser 3)) flow_cfg) by (rewrite He; apply in_or_app; right; left; reflexivity).
      clear - Hin. simpl in Hin. intuition discriminate.
    + unfold uncfg in Hu. rewrite forallb_forall in Hu. specialize (Hu _ Hin). discriminate Hu.
Qed.
