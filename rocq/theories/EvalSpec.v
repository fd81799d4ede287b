(** Specification for C102: what is assumed of the evaluation of a floating-point expression. *)
From Coq Require Import Reals ZArith.
From Flocq Require Import Core.
Open Scope Z_scope.

(** the constant 0.30102999566398114, converted in any rounding mode or kept in a higher precision *)
Definition converted (c : R) : Prop := (Rabs (c - 30102999566398114 / 100000000000000000) <= bpow radix2 (-54))%R.
(** a rounding to 53 or more bits, in whatever direction *)
Definition rounding (r : R -> R) : Prop :=
  r 0%R = 0%R /\ forall y, (bpow radix2 (-2) <= Rabs y <= bpow radix2 10)%R -> (Rabs (r y - y) <= bpow radix2 (-52) * Rabs y)%R.
