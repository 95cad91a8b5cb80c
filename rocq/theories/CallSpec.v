(** * CallSpec.v: vocabulary for callbacks and the app service (specification) *)
From Verif Require Export ApiSpec.

(** callback c is an execution of action a with event e on machine m *)
Definition performs (c : call) (a : action) (e : eid) (m : mid) : Prop :=
  (exists en s, c = KAct en a s e m) \/ c = KInner a e m.

(** callbacks made one after the other, up to one that throws *)
Definition one_by_one (cs : list call) : script := fun x out =>
  (x = None /\ out = flat_map (fun c => called c None) cs) \/
  (exists c1 c c2 y, cs = c1 ++ c :: c2 /\ x = Some y /\
     out = flat_map (fun c => called c None) c1 ++ called c (Some y)).

(** ** Multi-consumer listener k: is l registered at moment h? *)
Definition registered (w0 : mem) (k : nat) (l : leaf) (h : trace) : bool :=
  replay (fun b o => match o with
                     | OWr (WrMulti add k' l' _) => if andb (Nat.eqb k' k) (leaf_eqb l' l) then add else b
                     | _ => b end)
    (existsb (fun y => andb (snd y) (leaf_eqb l (fst y))) (multis w0 k)) h.

(** how often l was added during b *)
Definition joins (k : nat) (l : leaf) (b : trace) : nat :=
  List.length (filter (fun to => match snd to with
                                 | OWr (WrMulti true k' l' true) => andb (Nat.eqb k' k) (leaf_eqb l' l)
                                 | _ => false end) b).
(** how often l occurs in ls *)
Definition times (l : leaf) (ls : list leaf) : nat := List.length (filter (leaf_eqb l) ls).

(** ** The documented lines of the logging listener *)
Definition log_text (nm : option string) (fin : bool) (from ev to : string) : string :=
  match nm with
  | None | Some "" => if fin then "Transitioned to " ++ to else "Begin transition: " ++ from ++ " + " ++ ev ++ " = " ++ to
  | Some n => if fin then n ++ " transitioned to " ++ to
              else "Begin " ++ n ++ " transition: " ++ from ++ " + " ++ ev ++ " = " ++ to
  end%string.

(** ** App services *)
(** the name of the app's state at moment h *)
Definition app_state (E : env) (p : apid) (h : trace) : option string :=
  option_map (sname E) (cur_at (ap_mach (apps E p)) h).
Definition restartable (E : env) (p : apid) : Prop := ap_exit (apps E p) = false.

(** ** A bracket of thread t directly inside another one: [b] are the marks
    inside the outer bracket, [i1] those of t directly inside it before *)
Definition inner_span (t : tid) (b : trace) (i1 : list obs) (b1 : trace) (op : obs) (b2 : trace) (its : list obs) (z : obs) (b3 : trace) : Prop :=
  span t b b1 op b2 its z b3 /\ fst (scan t b1) = [(FRoot, i1)].
