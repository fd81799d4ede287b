(** Specification vocabulary for C92: where the point may stand. *)
From Coq Require Import ZArith List.
From Verif Require Import Spec ParseSpec.
Open Scope Z_scope.

(** The point does not stand among the four places behind the 19th (float: 9th) significant
    digit: there are at most 19 (9) significant digits before it, or at least 23 (13), or nothing
    but zeros behind it. *)
Definition point_clear (t : ftype) (n : numeral) : Prop :=
  dval (n_int n) < 10 ^ exact_digits t \/ 10 ^ (exact_digits t + 3) <= dval (n_int n) \/ dval (frac_digits n) = 0.

(** The same number without its point and what is behind it. *)
Definition integer_only (n : numeral) : numeral :=
  {| n_sign := n_sign n; n_int := n_int n; n_frac := None; n_exp := n_exp n |}.

(** The digits before the point are more than 19 (float: 9), not counting zeros at either end. *)
Definition long_integer (t : ftype) (n : numeral) : Prop :=
  forall d j, 0 <= d < 10 ^ exact_digits t -> 0 <= j -> dval (n_int n) <> d * 10 ^ j.
