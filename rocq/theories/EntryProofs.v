(** * EntryProofs.v: the entry actions of STARTING and STOPPING (proofs for C35) *)
From Verif Require Import CallSpec Lifecycle MemInv Lang Tree Nodes Marks Place Moments Truth CallProofs AppLive1.

Section Entry.
  Context (E : env) (w0 : mem) (w : world) (H0 : init_mem E w0) (Hr : reach E w0 w).
  Notation T := (tr (wm w)).

  Lemma entry_action t a b its d p (up : bool) ac e m x :
    let k := if up then STARTING else STOPPING in let c := KAct true ac (SApp p k) e m in
    let ci := KInner (if up then AAppStarting p else AAppStopping p) e m in
    In ac (app_entry_actions p k) -> span t T a (OCall c) b its (OBack c x) d ->
    exists y b1 b2 i2 d2, span t T (a ++ (t, OCall c) :: b1) (OCall ci) b2 i2 (OBack ci y) d2 /\
      (exists h o, during t (a ++ (t, OCall c) :: b1) (OCall ci) b2 h /\
         shown i2 = OLog (if up then "Starting " ++ ap_name (apps E p) ++ " with args [" ++ String.concat ", " (ap_args (apps E p)) ++ "]" else "Stopping " ++ ap_name (apps E p))%string :: o /\
         andthen (one_by_one (map (KSub up p) (if up then subsystems_at w0 p h else rev (subsystems_at w0 p h))))
                 (fired E w0 (ap_mach (apps E p)) (ELife LComplete) t (a ++ (t, OCall c) :: b1) (OCall ci) b2) y o) /\
      match y with
      | None => x = None
      | Some v =>
          if is_exception v then
            let ch := KHandler (HApp p) e m v in
            exists b3 b4 i4 d4, span t T (a ++ (t, OCall c) :: b3) (OCall ch) b4 i4 (OBack ch x) d4 /\
              exists s o, shown i4 = OLog s :: o /\ fired E w0 (ap_mach (apps E p)) (ELife LError) t (a ++ (t, OCall c) :: b3) (OCall ch) b4 x o
          else x = Some v
      end.
  Proof.
    intros k c ci Hac Hs.
    assert (Ha : ac = AHandle (if up then AAppStarting p else AAppStopping p) (HApp p)) by (destruct up; destruct Hac as [<-|[]]; reflexivity).
    assert (Hp : performs c (AHandle (if up then AAppStarting p else AAppStopping p) (HApp p)) e m).
    { left. exists true, (SApp p k). unfold c. rewrite Ha. reflexivity. }
    destruct (handled E w0 w H0 Hr _ _ _ _ _ _ _ _ _ _ _ Hp Hs) as (y & Hy).
    assert (HT : T = a ++ (t, OCall c) :: b ++ (t, OBack c x) :: d) by apply Hs.
    assert (Hb : fst (scan t b) = [(FRoot, its)]) by apply Hs.
    assert (Hi : exists i2, its = [] ++ OCall ci :: OBack ci y :: i2).
    { destruct y as [v|]; [destruct (is_exception v)|]; [|destruct Hy as [Hy _]|destruct Hy as [Hy _]]; rewrite Hy; eexists; reflexivity. }
    destruct Hi as [i2 Hi]. destruct (nested_span _ _ _ _ _ _ _ Hb Hi) as (b1 & b2 & its2 & b3 & Hin).
    pose proof (inner_outer _ _ _ _ _ _ _ _ _ _ _ _ _ HT Hin) as Hsp.
    exists y, b1, b2, its2. eexists. split; [exact Hsp|]. split.
    - eapply (subsystems E w0 w H0 Hr up); [|exact Hsp]. right. reflexivity.
    - destruct y as [v|]; [|apply Hy]. destruct (is_exception v); [|apply Hy].
      destruct (nested_span t b its (called ci (Some v)) (KHandler (HApp p) e m v) x [] Hb Hy) as (b4 & b5 & its4 & b6 & Hin4).
      pose proof (inner_outer _ _ _ _ _ _ _ _ _ _ _ _ _ HT Hin4) as Hsp4.
      exists b4, b5, its4. eexists. split; [exact Hsp4|]. eapply (app_handler E w0 w H0 Hr); exact Hsp4.
  Qed.
End Entry.
