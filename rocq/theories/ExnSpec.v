(** * ExnSpec.v: what counts as an exception, how an event is written in the log

    Separate from the model: of the things a callback can throw, everything but an
    Error is an exception (java.lang.Exception); NamedStateEvent.toString writes
    the name in brackets. *)
From Verif Require Import Types.
From Coq Require Import String.
Open Scope string_scope.

Definition an_exception (x : exn) : bool :=
  match x with
  | XUser _ | XIllegalState _ | XNullPointer | XConcurrentMod | XRejected => true
  | XError _ => false
  end.
Definition event_text (name : string) : string := "NamedStateEvent[" ++ name ++ "]".
