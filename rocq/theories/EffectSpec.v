(** * EffectSpec.v: events that have taken effect (specification) *)
From Verif Require Export ExactSpec LiveSpec.

(** From moment h to moment h' machine m has processed the events of [new] and
    no others, they are the next ones in the order of acceptance, m rests, and
    its state has moved along its configuration conf, event after event, the
    listener and actions being those of moment h. *)
Definition took_effect (E : env) (w0 : mem) (m : mid) (conf : sstate) (h h' : trace) (new : list node) : Prop :=
  rests (queue_of E m) (worker_of E m) h' /\
  taken (queue_of E m) h' = taken (queue_of E m) h ++ map event_of new /\
  (exists rest, accepted (queue_of E m) h' = taken (queue_of E m) h' ++ rest) /\
  arun E m (listener_at w0 m h) (fun en st => acts_at w0 en st h) conf
    (fun e n => exists h1, upto h1 h' /\ (exists t p, In (t, OTake (queue_of E m) p (Some (e, m))) h1) /\ n = name_at E w0 e h1) (mstate_at m h) new (mstate_at m h').
(** nobody interferes with the processing of m's events from moment n0 on *)
Definition calm_from (E : env) (w0 : mem) (s : nat -> tid) (m : mid) (n0 : nat) : Prop :=
  forall n r, LiveSpec.history E w0 s n = LiveSpec.history E w0 s n0 ++ r -> calm E m (LiveSpec.history E w0 s n0) r.
