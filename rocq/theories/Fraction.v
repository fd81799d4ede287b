(** Model of /repo/include/floaxie/fraction.h *)
From Verif Require Import Machine StaticPow.

(** fraction.h:58-120 [fraction_converter<T, decimal_digits, binary_digits,
    current_binary_digit>::convert].  [remaining] = binary_digits -
    current_binary_digit is the template recursion measure; the terminal
    specialisation (lines 95-120) is the case [remaining = 0].  T = unsigned int.
    [residue] is a 32-bit unsigned subtraction. *)
Fixpoint fraction_convert (decimal_digits binary_digits : nat) (remaining : nat)
    (decimal_numerator : Z) : Z :=
  let current_binary_digit := (binary_digits - remaining)%nat in
  let numerator := static_pow 10 decimal_digits in
  let denominator := static_pow 2 current_binary_digit in
  let decimal_fraction := numerator / denominator in
  match remaining with
  | O => b2z (decimal_fraction <=? decimal_numerator)
  | S r =>
      let decision := b2z (decimal_fraction <=? decimal_numerator) in
      let residue := wrap 32 (decimal_numerator - decision * decimal_fraction) in
      Z.lor (Z.shiftl decision (Z.of_nat remaining))
            (fraction_convert decimal_digits binary_digits r residue)
  end.

(** fraction.h:136-139 [convert_numerator<decimal_digits, binary_digits>] *)
Definition convert_numerator (decimal_digits binary_digits : nat) (n : Z) : Z :=
  fraction_convert decimal_digits binary_digits (binary_digits - 1) n.
