(** * AppLive9.v: the life of an app service, by the fate of its subsystems (proofs) *)
From Verif Require Import Sched LiveSpec AppLive1 AppLive3 AppLive7 AppLive8.
From Verif Require Import AppLiveSpec.
From Verif Require Import ConfigSpec.

Lemma alone_fate E w0 s p : left_alone E w0 s p -> left_to_fate E w0 s p AllGo.
Proof.
  intros [H1 H2 H3 H4 H5 H6 H7]. split; auto. intro n. split; [|intros; apply H3].
  intros t b i y Hin. exfalso. eapply H3; exact Hin.
Qed.
Lemma marks_all E p l : marks E p AllGo 4 l -> l = all_started E p ++ all_stopped E p.
Proof. intros (l1 & l2 & -> & -> & ->). reflexivity. Qed.
Lemma marks_no_start E p l : marks E p NoStart 2 l -> broken_off E p true l.
Proof. intros (l1 & l2 & -> & H & ->). rewrite app_nil_r. exact H. Qed.
Lemma marks_no_stop E p l : marks E p NoStop 4 l -> exists l', l = all_started E p ++ l' /\ broken_off E p false l'.
Proof. intros (l1 & l2 & -> & -> & H). exists l2. split; [reflexivity|exact H]. Qed.

Section Life.
  Context (E : env) (w0 : mem) (s : nat -> tid) (p : apid).
  Notation T := (LiveSpec.history E w0 s).
  Notation m := (ap_mach (apps E p)).
  Context (H0 : init_mem E w0) (Hb : app_built E w0 p).
  Notation down n2 l := (cur_at m (T n2) = Some (if ap_exit (apps E p) then SEnd m else SApp p STOPPED) /\
    ended_at m (T n2) = ap_exit (apps E p) /\ subsystem_marks p (T n2) = l).
  Notation up n2 := (cur_at m (T n2) = Some (SApp p STARTED) /\ ended_at m (T n2) = false /\ subsystem_marks p (T n2) = all_started E p).
  Section All.
    Context (HL : left_alone E w0 s p) (Hsv : served E w0 s (queue_of E m)).
    Lemma all_up n t : starters_go_on E w0 s p -> In (t, OInv (AAppStart p)) (T n) ->
      exists n1, forall n2, n1 <= n2 -> n2 = n1 \/ (forall t', ~ In (t', OInv (AAppStop p)) (T n2)) -> up n2.
    Proof. apply (comes_up E w0 s p H0 Hb (alone_fate _ _ _ _ HL) Hsv ltac:(discriminate)). discriminate. Qed.
    Lemma all_down n t : In (t, ORet (AAppStop p) RvUnit) (T n) ->
      exists n1, forall n2, n1 <= n2 -> down n2 (all_started E p ++ all_stopped E p).
    Proof.
      intro Hin. destruct (goes_down E w0 s p H0 Hb (alone_fate _ _ _ _ HL) Hsv ltac:(discriminate) n t ltac:(discriminate) Hin) as (n1 & l & Hm & H).
      apply marks_all in Hm. subst l. exists n1. exact H.
    Qed.
    Lemma all_start_ends n t n0 t0 a r : starters_go_on E w0 s p -> ap_exit (apps E p) = true -> In (t0, ORet (AAppStop p) RvUnit) (T n0) ->
      T n = a ++ (t, OInv (AAppStart p)) :: r -> exists n' b its v d, span t (T n') a (OInv (AAppStart p)) b its (ORet (AAppStart p) v) d.
    Proof. apply (start_ends E w0 s p H0 Hb (alone_fate _ _ _ _ HL) Hsv ltac:(discriminate)). discriminate. Qed.
    Lemma all_start_waits n h t r : ap_exit (apps E p) = true -> T n = h ++ (t, ORet (AAppStart p) RvUnit) :: r ->
      subsystem_marks p h = all_started E p ++ all_stopped E p.
    Proof. intros Hx HT. apply marks_all. exact (start_waits E w0 s p H0 Hb (alone_fate _ _ _ _ HL) Hsv ltac:(discriminate) n h t r Hx HT). Qed.
  End All.
  Section NoStart.
    Context (HL : left_to_fate E w0 s p NoStart) (Hsv : served E w0 s (queue_of E m)).
    Lemma no_start_down n t : starters_go_on E w0 s p -> In (t, OInv (AAppStart p)) (T n) ->
      exists n1 l, broken_off E p true l /\ forall n2, n1 <= n2 -> down n2 l.
    Proof.
      intros HS Hin. destruct (falls_down E w0 s p H0 Hb HL Hsv ltac:(discriminate) n t eq_refl HS Hin) as (n1 & l & Hm & H).
      apply marks_no_start in Hm. exists n1, l. auto.
    Qed.
    Lemma no_start_ends n t a r : starters_go_on E w0 s p -> ap_exit (apps E p) = true ->
      T n = a ++ (t, OInv (AAppStart p)) :: r -> exists n' b its v d, span t (T n') a (OInv (AAppStart p)) b its (ORet (AAppStart p) v) d.
    Proof. apply (failed_start_ends E w0 s p H0 Hb HL Hsv ltac:(discriminate)). reflexivity. Qed.
    Lemma no_start_waits n h t r : ap_exit (apps E p) = true -> T n = h ++ (t, ORet (AAppStart p) RvUnit) :: r ->
      broken_off E p true (subsystem_marks p h).
    Proof. intros Hx HT. apply marks_no_start. exact (start_waits E w0 s p H0 Hb HL Hsv ltac:(discriminate) n h t r Hx HT). Qed.
  End NoStart.
  Section NoStop.
    Context (HL : left_to_fate E w0 s p NoStop) (Hsv : served E w0 s (queue_of E m)).
    Lemma no_stop_up n t : starters_go_on E w0 s p -> In (t, OInv (AAppStart p)) (T n) ->
      exists n1, forall n2, n1 <= n2 -> n2 = n1 \/ (forall t', ~ In (t', OInv (AAppStop p)) (T n2)) -> up n2.
    Proof. apply (comes_up E w0 s p H0 Hb HL Hsv ltac:(discriminate)). discriminate. Qed.
    Lemma no_stop_down n t : In (t, ORet (AAppStop p) RvUnit) (T n) ->
      exists n1 l, broken_off E p false l /\ forall n2, n1 <= n2 -> down n2 (all_started E p ++ l).
    Proof.
      intro Hin. destruct (goes_down E w0 s p H0 Hb HL Hsv ltac:(discriminate) n t ltac:(discriminate) Hin) as (n1 & l & Hm & H).
      apply marks_no_stop in Hm. destruct Hm as (l' & -> & Hl). exists n1, l'. auto.
    Qed.
    Lemma no_stop_ends n t n0 t0 a r : starters_go_on E w0 s p -> ap_exit (apps E p) = true -> In (t0, ORet (AAppStop p) RvUnit) (T n0) ->
      T n = a ++ (t, OInv (AAppStart p)) :: r -> exists n' b its v d, span t (T n') a (OInv (AAppStart p)) b its (ORet (AAppStart p) v) d.
    Proof. apply (start_ends E w0 s p H0 Hb HL Hsv ltac:(discriminate)). discriminate. Qed.
    Lemma no_stop_waits n h t r : ap_exit (apps E p) = true -> T n = h ++ (t, ORet (AAppStart p) RvUnit) :: r ->
      exists l, subsystem_marks p h = all_started E p ++ l /\ broken_off E p false l.
    Proof. intros Hx HT. apply marks_no_stop. exact (start_waits E w0 s p H0 Hb HL Hsv ltac:(discriminate) n h t r Hx HT). Qed.
  End NoStop.
End Life.
