(** * Logic.v: a small rely/guarantee logic for thread programs

    Per-thread ghost state [G].  [pre t g i]: thread [t] in ghost state [g] may
    execute instruction [i]; [post t g i v g']: afterwards, if [i] returned
    [v], the ghost state may be [g'].  [wp] is the induced weakest
    precondition; [sound] shows that a global invariant preserved by [exec]
    holds in all reachable worlds. *)
From Verif Require Import Sched.

Definition gupd {G : Type} (f : tid -> G) (t : tid) (g : G) : tid -> G :=
  fun t' => if tid_eq_dec t' t then g else f t'.
Lemma gupd_eq {G : Type} (f : tid -> G) t g : gupd f t g t = g.
Proof. unfold gupd. destruct (tid_eq_dec t t); congruence. Qed.
Lemma gupd_neq {G : Type} (f : tid -> G) t g t' : t' <> t -> gupd f t g t' = f t'.
Proof. unfold gupd. destruct (tid_eq_dec t' t); congruence. Qed.

Section WP.
  Context {G : Type}.
  Context (pre : tid -> G -> instr -> Prop).
  Context (post : tid -> G -> forall i, iret i -> G -> Prop).

  Fixpoint wp {A : Set} (t : tid) (p : prog A) (Q : res A -> G -> Prop) (g : G) : Prop :=
    match p with
    | Ret a => Q (Ok a) g
    | Throw x => Q (Err x) g
    | Vis i k => pre t g i /\ forall v g', post t g i v g' -> wp t (k v) Q g'
    end.

  Lemma wp_mono {A : Set} t (p : prog A) (Q Q' : res A -> G -> Prop) g :
    (forall r g', Q r g' -> Q' r g') -> wp t p Q g -> wp t p Q' g.
  Proof.
    intro H. revert g. induction p as [a|x|i k IH]; simpl; intros g; auto.
    intros [H1 H2]. split; auto.
  Qed.

  Lemma wp_then_res {A B : Set} t (p : prog A) (k : res A -> prog B) Q g :
    wp t p (fun r g' => wp t (k r) Q g') g -> wp t (then_res p k) Q g.
  Proof.
    revert g. induction p as [a|x|i c IH]; simpl; intros g; auto.
    intros [H1 H2]. split; auto.
  Qed.

  Lemma wp_bind {A B : Set} t (p : prog A) (f : A -> prog B) Q g :
    wp t p (fun r g' => match r with Ok a => wp t (f a) Q g' | Err x => Q (Err x) g' end) g ->
    wp t (bind p f) Q g.
  Proof.
    intro H. apply wp_then_res. eapply wp_mono; [|exact H]. intros [a|x] g'; simpl; auto.
  Qed.

  Lemma wp_try_catch {A : Set} t (p : prog A) h Q g :
    wp t p (fun r g' => match r with
                        | Ok a => Q (Ok a) g'
                        | Err x => if is_exception x then wp t (h x) Q g' else Q (Err x) g'
                        end) g ->
    wp t (try_catch p h) Q g.
  Proof.
    intro H. apply wp_then_res. eapply wp_mono; [|exact H].
    intros [a|x] g'; simpl; auto. destruct (is_exception x); simpl; auto.
  Qed.

  Lemma wp_try_finally {A : Set} t (p : prog A) f Q g :
    wp t p (fun r g' => wp t f (fun r' g'' => match r' with Ok _ => Q r g'' | Err x => Q (Err x) g'' end) g') g ->
    wp t (try_finally p f) Q g.
  Proof.
    intro H. apply wp_then_res. eapply wp_mono; [|exact H].
    intros r g' Hf. apply wp_bind. eapply wp_mono; [|exact Hf].
    intros [u|x] g''; simpl; auto. destruct r; simpl; auto.
  Qed.

  Lemma wp_op t i (Q : res (iret i) -> G -> Prop) g :
    pre t g i -> (forall v g', post t g i v g' -> Q (Ok v) g') -> wp t (op i) Q g.
  Proof. intros H1 H2. simpl. auto. Qed.
End WP.

(** Two instances side by side. *)
Section Pair.
  Context {G1 G2 : Type}.
  Context (pre1 : tid -> G1 -> instr -> Prop) (post1 : tid -> G1 -> forall i, iret i -> G1 -> Prop).
  Context (pre2 : tid -> G2 -> instr -> Prop) (post2 : tid -> G2 -> forall i, iret i -> G2 -> Prop).
  Definition pre12 (t : tid) (g : G1 * G2) (i : instr) : Prop := pre1 t (fst g) i /\ pre2 t (snd g) i.
  Definition post12 (t : tid) (g : G1 * G2) (i : instr) (v : iret i) (g' : G1 * G2) : Prop :=
    post1 t (fst g) i v (fst g') /\ post2 t (snd g) i v (snd g').
  Lemma wp_pair {A : Set} t (p : prog A) Q1 Q2 g1 g2 :
    wp pre1 post1 t p Q1 g1 -> wp pre2 post2 t p Q2 g2 ->
    wp pre12 post12 t p (fun r g => Q1 r (fst g) /\ Q2 r (snd g)) (g1, g2).
  Proof.
    revert g1 g2. induction p as [a|x|i k IH]; simpl; intros g1 g2; auto.
    intros [H1 H2] [H3 H4]. split; [split; auto|].
    intros v [g1' g2'] [Hp1 Hp2]; simpl in *. auto.
  Qed.
End Pair.

(** ** Soundness *)
Section Sound.
  Context (E : env) {G : Type}.
  Context (pre : tid -> G -> instr -> Prop).
  Context (post : tid -> G -> forall i, iret i -> G -> Prop).
  Context (inv : mem -> (tid -> G) -> Prop).
  (** postconditions of client programs and of a loop iteration of a task *)
  Context (Qc : tid -> res unit -> G -> Prop).
  Context (Qw : tid -> task -> res bool -> G -> Prop).
  Context (widle : tid -> G -> Prop).
  Notation WP := (wp pre post).

  Definition worker_ok (t : tid) (g : G) (k : worker) : Prop :=
    match k with
    | WIdle => widle t g
    | WRun tk p => WP t p (Qw t tk) g
    end.
  Definition world_ok (w : world) (gs : tid -> G) : Prop :=
    inv (wm w) gs /\
    (forall n, WP (TClient n) (wc w n) (Qc (TClient n)) (gs (TClient n))) /\
    (forall x i, worker_ok (TWorker x i) (gs (TWorker x i)) (ww w x i)).

  Context (Hexec : forall w gs t i v w', inv w gs -> pre t (gs t) i -> exec E w t i = Some (v, w') ->
             exists g', post t (gs t) i v g' /\ inv w' (gupd gs t g')).
  Context (Huser : forall t g c h, pre t g (ICall c) ->
             WP t (interp E (behav E c h)) (fun r g' => post t g (ICall c) r g') g).
  Context (Htake : forall w gs x i tk r, inv w gs -> i < n_workers E x -> widle (TWorker x i) (gs (TWorker x i)) ->
             tasks w x = tk :: r ->
             exists g', inv (set_tasks (upd (tasks w) x r) w) (gupd gs (TWorker x i) g') /\
                        WP (TWorker x i) (drain_iter E tk) (Qw (TWorker x i) tk) g').
  Context (Hloop : forall w gs x i tk, inv w gs -> i < n_workers E x -> Qw (TWorker x i) tk (Ok true) (gs (TWorker x i)) ->
             exists g', inv w (gupd gs (TWorker x i) g') /\
                        WP (TWorker x i) (drain_iter E tk) (Qw (TWorker x i) tk) g').
  Context (Hdone : forall w gs x i tk, inv w gs -> i < n_workers E x -> Qw (TWorker x i) tk (Ok false) (gs (TWorker x i)) ->
             exists g', inv w (gupd gs (TWorker x i) g') /\ widle (TWorker x i) g').
  Context (Hdie : forall w gs x i tk e, inv w gs -> i < n_workers E x -> Qw (TWorker x i) tk (Err e) (gs (TWorker x i)) ->
             exists g', inv (log (TWorker x i) (OUncaught tk e) w) (gupd gs (TWorker x i) g') /\ widle (TWorker x i) g').

  (** [pstep] by cases *)
  Lemma pstep_inv {A : Set} w t i (k : iret i -> prog A) w' p' :
    pstep E w t (Vis i k) = Some (w', p') ->
    (exists c (e : i = ICall c), w' = w /\
        p' = then_res (interp E (behav E c (tr w))) (eq_rect i (fun j => iret j -> prog A) k (ICall c) e)) \/
    (exists v, exec E w t i = Some (v, w') /\ p' = k v).
  Proof.
    intro H. destruct i; unfold pstep in H;
      try (right; destruct (exec E w t _) as [[v w1]|] eqn:Hx; [|discriminate];
           injection H as <- <-; exists v; split; reflexivity).
    left. injection H as <- <-. exists c, eq_refl. split; reflexivity.
  Qed.

  Lemma pstep_sound {A : Set} w gs t (p : prog A) Q w' p' :
    inv w gs -> WP t p Q (gs t) -> pstep E w t p = Some (w', p') ->
    (exists g', inv w' (gupd gs t g') /\ WP t p' Q g') \/ (w' = w /\ WP t p' Q (gs t)).
  Proof.
    intros Hi Hp Hs. destruct p as [a|x|i k]; try discriminate.
    destruct Hp as [Hpre Hk].
    destruct (pstep_inv _ _ _ _ _ _ Hs) as [(c & e & -> & ->)|(v & Hx & ->)].
    - subst i. simpl in *. right. split; [reflexivity|].
      apply wp_then_res. eapply wp_mono; [|apply Huser; exact Hpre]. simpl. intros; auto.
    - left. destruct (Hexec _ _ _ _ _ _ Hi Hpre Hx) as (g' & Hpost & Hi'). eauto.
  Qed.

  Lemma world_ok_same w gs t : forall w', step E w t = Some w' -> world_ok w gs -> exists gs', world_ok w' gs'.
  Proof.
    intros w' Hs (Hi & Hc & Hw). destruct t as [n|x i]; simpl in Hs.
    - destruct (pstep E (wm w) (TClient n) (wc w n)) as [[m' p']|] eqn:Hp; [|discriminate].
      injection Hs as <-.
      destruct (pstep_sound _ _ _ _ _ _ _ Hi (Hc n) Hp) as [(g' & Hi' & Hwp)|[-> Hwp]].
      + exists (gupd gs (TClient n) g'). split; [exact Hi'|]. split.
        * intro n'. simpl. unfold upd. destruct (Nat.eqb_spec n' n) as [->|N].
          -- rewrite gupd_eq. exact Hwp.
          -- rewrite gupd_neq by congruence. apply Hc.
        * intros x i. simpl. rewrite gupd_neq by congruence. auto.
      + exists gs. split; [exact Hi|]. split; [|exact Hw].
        intro n'. simpl. unfold upd. destruct (Nat.eqb_spec n' n) as [->|N]; auto.
    - destruct (Nat.ltb_spec i (n_workers E x)) as [Hlt|]; simpl in Hs; [|discriminate].
      set (t := TWorker x i) in *.
      assert (Fin : forall m' gs' k', inv m' gs' -> (forall t', t' <> t -> gs' t' = gs t') ->
                worker_ok t (gs' t) k' ->
                exists gs'', world_ok {| wm := m'; wc := wc w; ww := set_worker (ww w) x i k' |} gs'').
      { intros m' gs' k' Hi' Hg Hk. exists gs'. split; [exact Hi'|]. split.
        - intro n'. simpl. rewrite Hg by (unfold t; congruence). apply Hc.
        - intros x' i'. simpl. unfold set_worker.
          destruct (Nat.eqb_spec x' x) as [->|]; simpl; [destruct (Nat.eqb_spec i' i) as [->|]|].
          + exact Hk.
          + rewrite Hg by (unfold t; congruence). auto.
          + rewrite Hg by (unfold t; congruence). auto. }
      assert (Fin' : forall m' g' k', inv m' (gupd gs t g') -> worker_ok t g' k' ->
                exists gs'', world_ok {| wm := m'; wc := wc w; ww := set_worker (ww w) x i k' |} gs'').
      { intros m' g' k' Hi' Hk. eapply Fin; [exact Hi'| |].
        - intros t' Ht'. apply gupd_neq. exact Ht'.
        - rewrite gupd_eq. exact Hk. }
      specialize (Hw x i). unfold worker_ok in Hw.
      destruct (ww w x i) as [|tk p] eqn:Ew.
      + destruct (tasks (wm w) x) as [|tk r] eqn:Et; [discriminate|]. injection Hs as <-.
        destruct (Htake _ _ _ _ _ _ Hi Hlt Hw Et) as (g' & Hi' & Hwp). eapply Fin'; eauto.
      + destruct p as [b|e|ins k].
        * destruct b; injection Hs as <-.
          -- destruct (Hloop _ _ _ _ _ Hi Hlt Hw) as (g' & Hi' & Hwp). eapply Fin'; eauto.
          -- destruct (Hdone _ _ _ _ _ Hi Hlt Hw) as (g' & Hi' & Hwp). eapply Fin'; eauto.
        * injection Hs as <-. destruct (Hdie _ _ _ _ _ _ Hi Hlt Hw) as (g' & Hi' & Hwp). eapply Fin'; eauto.
        * destruct (pstep E (wm w) t (Vis ins k)) as [[m' p']|] eqn:Hp; [|discriminate].
          injection Hs as <-.
          destruct (pstep_sound _ _ _ _ _ _ _ Hi Hw Hp) as [(g' & Hi' & Hwp)|[-> Hwp]].
          -- eapply Fin'; eauto.
          -- eapply Fin; eauto.
  Qed.

  Theorem sound w gs sched : world_ok w gs -> exists gs', world_ok (run E w sched) gs'.
  Proof.
    revert w gs. induction sched as [|t l IH]; intros w gs H; simpl; [eauto|].
    unfold step_or_stay. destruct (step E w t) as [w'|] eqn:Hs; [|eapply IH; eauto].
    destruct (world_ok_same _ _ _ _ Hs H) as [gs' H']. eapply IH; eauto.
  Qed.
End Sound.
