(** * Names.v: equals and hashCode of NamedState / NamedStateEvent *)
From Verif Require Export Types.
From Coq Require Import Ascii.

(** Java int arithmetic: wrap to 32 bits, two's complement. *)
Definition wrap32 (z : Z) : Z := ((z + 2147483648) mod 4294967296 - 2147483648)%Z.
(** String.hashCode: s[0]*31^(n-1) + ... + s[n-1] in int arithmetic (JDK). *)
Fixpoint str_hash_from (h : Z) (s : string) : Z :=
  match s with
  | EmptyString => h
  | String c r => str_hash_from (wrap32 (31 * h + Z.of_nat (nat_of_ascii c))) r
  end.
Definition str_hash (s : string) : Z := str_hash_from 0 s.

Section Named.
  Context {Obj : Type} (eq_obj : Obj -> Obj -> bool) (name : Obj -> string).
  (** NamedState.java:59-69, NamedStateEvent.java:49-58: identity test first,
      then Objects.equals of the names ([o] of the same class, not null). *)
  Definition named_equals (a b : Obj) : bool :=
    if eq_obj a b then true else String.eqb (name a) (name b).
  (** NamedState.java:71-74, NamedStateEvent.java:60-63 *)
  Definition named_hash (a : Obj) : Z := str_hash (name a).
End Named.
