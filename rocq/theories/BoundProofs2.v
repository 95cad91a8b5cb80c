(** * BoundProofs2.v: proofs for PropsBound.v *)
From Verif Require Import BoundSpec RaceSpec Own Truth QueueProofs FireProofs TokenProofs BoundProofs Demo4 Witness.

Lemma p_C10_nothing_stranded :
  forall E w0 w, init_mem E w0 -> reach E w0 w ->
  forall q, (forall m i, queue_of E m = q -> ww w (exec_of E m) i = WIdle) ->
    (forall x tk, In tk (tasks (wm w) x) -> queue_of E (tk_mach tk) <> q) ->
    (forall t, ~ just_queued q t (tr (wm w))) ->
    (forall m, queue_of E m = q -> ~ shut_at (exec_of E m) (tr (wm w))) ->
    accepted q (tr (wm w)) = taken q (tr (wm w)).
Proof.
  intros E w0 w H0 Hr q H1 H2 H3 H4. rewrite (fifo E w0 w q H0 Hr).
  rewrite (nothing_stranded E q w0 w H0 Hr H1 H2 H3); [apply app_nil_r|].
  intros k Hk. specialize (H4 k Hk). destruct (truth E w0 w (im_tr _ _ H0) Hr) as [Hag _].
  pose proof (ag_shut _ _ Hag (exec_of E k)) as Hs. rewrite (im_shut _ _ H0) in Hs.
  destruct (shut (wm w) (exec_of E k)) eqn:Es; [|reflexivity]. destruct H4. apply shut_of_in. auto.
Qed.

Lemma p_C26_never_lost_silently :
  forall E w0 w, init_mem E w0 -> reach E w0 w ->
  forall m e t a b its v d, span t (tr (wm w)) a (OInv (AFire m e)) b its (ORet (AFire m e) v) d ->
    started_at m a = true -> (forall h, during t a (OInv (AFire m e)) b h -> ended_at m h = false) ->
    drops_duplicates E m = false ->
    (exists p e', In (OOffer (queue_of E m) p e m e' m) (shown its)) \/
    (exists n x h1 h2, during t a (OInv (AFire m e)) b h1 /\ during t a (OInv (AFire m e)) b h2 /\ upto h1 h2 /\
       counted (queue_of E m) h1 h2 n /\ (0 < limit E m <= Z.of_nat n)%Z /\ v = outcome x /\
       shown its = called (KUflExn (flow_of E m) e m (XIllegalState (RQueueFull n))) x).
Proof.
  intros E w0 w H0 Hr m e t a b its v d Hs Hst Hen Hd.
  destruct (fire_live E w0 w H0 Hr _ _ _ _ _ _ _ _ Hs Hst Hen) as (x & Hv & _ & [(Hdr & _)|[(n & h1 & h2 & D1 & D2 & Hu & Hn & [F1 F2] & Hsh)|(p & e' & o2 & Hsh & _)]]).
  - congruence.
  - right. exists n, x, h1, h2. auto 10.
  - left. exists p, e'. rewrite Hsh. left. reflexivity.
Qed.

Lemma p_C27_dropped :
  forall E w0 w, init_mem E w0 -> reach E w0 w ->
  forall m e t a b its v d, span t (tr (wm w)) a (OInv (AFire m e)) b its (ORet (AFire m e) v) d ->
    started_at m a = true -> (forall h, during t a (OInv (AFire m e)) b h -> ended_at m h = false) ->
    (forall q p e0 m0 e' m', ~ In (OOffer q p e0 m0 e' m') (shown its)) -> (forall c, ~ In (OCall c) (shown its)) ->
    drops_duplicates E m = true /\ v = RvUnit /\
    exists h1 h2 h3 h4 p c e' m', during t a (OInv (AFire m e)) b h1 /\ during t a (OInv (AFire m e)) b h2 /\
      during t a (OInv (AFire m e)) b h3 /\ during t a (OInv (AFire m e)) b h4 /\
      In (p, c) (waiting (queue_of E m) h1) /\ pair_at p h3 = Some (e', m') /\ name_at E w0 e' h4 = name_at E w0 e h2 /\
      shown its = [OLog ("Event [" ++ show_event (name_at E w0 e h2) ++ "] already in queue, will drop it")%string].
Proof.
  intros E w0 w H0 Hr m e t a b its v d Hs Hst Hen Hno Hnc.
  destruct (fire_live E w0 w H0 Hr _ _ _ _ _ _ _ _ Hs Hst Hen) as (x & Hv & _ & [(Hdr & -> & h1 & h2 & h3 & h4 & p & c & e' & m' & Hx)|[(n & ? & ? & _ & _ & _ & _ & [F1 F2] & Hsh)|(p & e' & o2 & Hsh & _)]]).
  - split; [exact Hdr|]. split; [exact Hv|]. exists h1, h2, h3, h4, p, c, e', m'. tauto.
  - exfalso. eapply Hnc. rewrite Hsh. left. reflexivity.
  - exfalso. eapply Hno. rewrite Hsh. left. reflexivity.
Qed.

