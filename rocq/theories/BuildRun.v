(** * BuildRun.v: runs of machines built from Configs of their own (C29) *)
From Verif Require Import Spec BuildSpec BuildProofs FlowSpec QueueProofs FlowProofs.

Lemma built_isolated progs sched rest m d c : let s := brun progs sched in let E := env_of s rest in
  built_with s m d -> made_from s d c -> never_set progs c FQueue -> (forall m' d', built_with s m' d' -> made_from s d' c -> m' = m) ->
  forall w0 w t p x its, init_mem E w0 -> reach E w0 w ->
    bracket t (tr (wm w)) (FTake (queue_of E m) p x) its ->
    exists e, x = Some (e, m) /\
      (exists i, t = TWorker (exec_of E m) i) /\
      forall o, In o its ->
        match o with
        | ORd (RdMap tb _ e' _) => tb = m /\ e' = e
        | ORd (RdFinal tb _ _) => tb = m
        | OState m' _ | OEnded m' => m' = m
        | OCall (KListen _ _ m' _ e' _) | OCall (KAct _ _ _ e' m')
        | OCall (KUnmapped _ e' m') | OCall (KUflExn _ e' m' _) => m' = m /\ e' = e
        | OCall _ | OOffer _ _ _ _ _ _ | OUnended _ | OStarted _ => False
        | _ => True
        end.
Proof.
  intros s E Hb Hm Hq Hu w0 w t p x its H0 Hr Hbr.
  destruct (own_config progs sched rest m d c Hb Hm Hq Hu) as (Hp & Ht & Hw). fold s in Hp, Ht, Hw. fold E in Hp, Ht, Hw.
  destruct (isolated E w0 w t m p x its H0 Hr Hp Hbr) as (e & Hx & (i & Hi) & Hits).
  exists e. split; [exact Hx|]. split; [exists i; exact Hi|]. intros o Ho. specialize (Hits o Ho). destruct o; try exact Hits. destruct r; try exact Hits; rewrite Ht in Hits; exact Hits.
Qed.
