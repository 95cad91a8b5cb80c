(** * PropsEntry.v: theorem C35, the entry actions of STARTING and STOPPING *)
From Verif Require Import ExnSpec CallSpec Lifecycle Demo2 Witness EntryProofs.

(** The entry action that an app service gave its state STARTING (STOPPING):
    the subsystems are started in order (stopped in reverse order) until one
    throws; the complete event is fired if none throws; if an exception is
    thrown the error event is fired, and the exception goes no further. *)
Theorem C35_entry_action :
  forall E w0 w, init_mem E w0 -> reach E w0 w ->
  forall t a b its d p (up : bool) ac e m x,
    let k := if up then STARTING else STOPPING in let c := KAct true ac (SApp p k) e m in
    let ci := KInner (if up then AAppStarting p else AAppStopping p) e m in
    In ac (app_entry_actions p k) -> span t (tr (wm w)) a (OCall c) b its (OBack c x) d ->
    exists y b1 b2 i2 d2, span t (tr (wm w)) (a ++ (t, OCall c) :: b1) (OCall ci) b2 i2 (OBack ci y) d2 /\
      (exists h o, during t (a ++ (t, OCall c) :: b1) (OCall ci) b2 h /\
         shown i2 = OLog (if up then "Starting " ++ ap_name (apps E p) ++ " with args [" ++ String.concat ", " (ap_args (apps E p)) ++ "]" else "Stopping " ++ ap_name (apps E p))%string :: o /\
         andthen (one_by_one (map (KSub up p) (if up then subsystems_at w0 p h else rev (subsystems_at w0 p h))))
                 (fired E w0 (ap_mach (apps E p)) (ELife LComplete) t (a ++ (t, OCall c) :: b1) (OCall ci) b2) y o) /\
      match y with
      | None => x = None
      | Some v =>
          if an_exception v then
            let ch := KHandler (HApp p) e m v in
            exists b3 b4 i4 d4, span t (tr (wm w)) (a ++ (t, OCall c) :: b3) (OCall ch) b4 i4 (OBack ch x) d4 /\
              exists s o, shown i4 = OLog s :: o /\ fired E w0 (ap_mach (apps E p)) (ELife LError) t (a ++ (t, OCall c) :: b3) (OCall ch) b4 x o
          else x = Some v
      end.
Proof. exact entry_action. Qed.
Print Assumptions C35_entry_action.

(** app 2: its first start fails at subsystem 1, the second succeeds; stopping fails *)
Example C35_example_entry :
  let T := tr (wm run6) in
  (let c := KAct true (AHandle (AAppStarting 2) (HApp 2)) (SApp 2 STARTING) (ELife LStart) 2 in
   spans (wk 2) T 135 158 (OCall c) (OBack c None) /\ spans (wk 2) T 222 241 (OCall c) (OBack c None)) /\
  (let c := KAct true (AHandle (AAppStopping 2) (HApp 2)) (SApp 2 STOPPING) (ELife LStop) 2 in
   spans (wk 2) T 303 324 (OCall c) (OBack c None)).
Proof. cbv zeta. split; [split; sp|]. sp. Qed.
