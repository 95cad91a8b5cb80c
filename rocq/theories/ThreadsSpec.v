(** * ThreadsSpec.v: how a thread's name is written (C32)

    Independent of the model: a name that is null is written "null", a number is
    written in decimal, without leading zeros and without a sign. *)
From Coq Require Import NArith String DecimalString.
Open Scope string_scope.

Definition in_decimal (n : nat) : string := NilZero.string_of_uint (N.to_uint (N.of_nat n)).
Definition name_and_number (prefix : option string) (n : nat) : string :=
  match prefix with
  | Some s => s ++ "-" ++ in_decimal n
  | None => "null-" ++ in_decimal n
  end.
