(** Specification for C97: the text ftoa writes for any value, as a function.  Computable, with
    integers only, independent of the model. *)
From Coq Require Import ZArith Bool List String Ascii.
From Verif Require Import Spec ParseSpec MeanSpec ExactSpec PrintSpec.
Import ListNotations.
Open Scope Z_scope.

(** the first of the [n] numbers [a], [a] + 1, ... that satisfies [p]; the one behind them if none does *)
Fixpoint first (p : Z -> bool) (a : Z) (n : nat) : Z :=
  match n with
  | O => a
  | S n => if p a then a else first p (a + 1) n
  end.

(** 2^[x] <= 10^[k] *)
Definition reaches (x k : Z) : bool :=
  2 ^ Z.max 0 x * 10 ^ Z.max 0 (- k) <=? 10 ^ Z.max 0 k * 2 ^ Z.max 0 (- x).

(** the smallest such [k]; it is not below [x]/3 or 3[x]/10, whichever is less *)
Definition ten_for (x : Z) : Z := first (reaches x) (Z.min (x / 3) (3 * x / 10)) (Z.to_nat (Z.abs x + 2)).
Definition power_shown (t : ftype) (v : Z) : Z := ten_for (- (width t / 2 + 3) - snd (top t v) - 1).

(** the number of places *)
Definition places_shown (t : ftype) (v k : Z) : Z :=
  let u := upper t v k in let l := lower t v k in let o := one t v k in
  first (fun i => (10 ^ i * u) mod o <=? 10 ^ i * (u - l)) 0 (Z.to_nat (Z.log2 o)).

(** the decimal digits of a positive number (at most [n] of them) *)
Fixpoint to_digits (n : nat) (d : Z) : list Z :=
  match n with
  | O => []
  | S n => if d =? 0 then [] else to_digits n (d / 10) ++ [d mod 10]
  end.

(** the text: "nan", "inf" or "-inf", "0" (also for the negative zero), or the digits, without
    zeros at the end *)
Definition shown_text (t : ftype) (v : Z) : list Z :=
  if exp_field t v =? all_ones t then
    if frac_field t v =? 0 then (if sign_field t v =? 1 then text "-inf" else text "inf") else text "nan"
  else if significand t v =? 0 then text "0"
  else
    let k := power_shown t v in
    let i := places_shown t v k in
    let D := digits_of t v k i in
    let all := to_digits (S (Z.to_nat (Z.log2 D))) D in
    let ds := rev (drop_zeros (rev all)) in
    let z := Z.of_nat (List.length all) - Z.of_nat (List.length ds) in
    written (layout (sign_of_value t v) ds (z - k - i)).
