(** * Demo5.v: executions for the Examples of PropsReach.v *)
From Verif Require Export Demo.
From Verif Require Import ConfigProofs.
From Verif Require Import ReachSpec ConfigProofs2 Witness.

(** machine 0 is started, gets e0 and is stopped, machine 3 is started in B; the
    second client asks for the current states *)
Definition E19 : env :=
  demo own_strat (fun m => m) demo_app quiet
    [[AStart 0; AFire 0 (EUser 0); AStartIn 3 (SUser 1)]; [AGetCur 0; AGetCur 3; AStop 0; AGetCur 0]] (fun _ => 1).
Definition w19 : mem := demo_mem E19 (fun _ => flow_cfg) a_listener one_act (fun _ => None).
Definition run19 : world := after E19 w19 [(c0, 200); (wk 0, 100); (c1, 100)].

(** without configuration calls the initial state stays *)
Definition uncfg (T : trace) : bool := forallb (fun to => match snd to with OWr (WrCfg _ _ _) => false | _ => true end) T.
Lemma uncfg_conf sn m n0 s0 T : uncfg T = true -> conf_of sn m n0 s0 T = s0.
Proof.
  unfold conf_of, confs_of, replay. revert n0 s0. induction T as [|[t o] T IH]; intros n0 s0 H; [reflexivity|].
  simpl in H. apply andb_prop in H. destruct H as [H1 H2]. simpl. destruct o; try (apply IH; exact H2). destruct w; try (apply IH; exact H2). discriminate.
Qed.
Lemma uncfg_initial E w0 m h s : uncfg h = true -> initial_at E w0 m h s -> c_init (m_cfg (machs w0 m)) = Some s.
Proof.
  intros Hu (c & (os & s0 & Hc & Hh & ->) & Hi). rewrite uncfg_conf in Hi by exact Hu.
  destruct (history_R _ _ _ _ _ Hh) as [HR _]. rewrite Hc, (R_init _ _ _ HR). exact Hi.
Qed.
