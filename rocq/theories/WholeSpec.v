(** Specification for C96: what atof makes of any text, as a function.  Computable, with integers
    only, independent of the model. *)
From Coq Require Import ZArith Bool List.
From Verif Require Import DiyFp Spec ParseSpec TextSpec ReadSpec MeanSpec SameSpec ExactSpec.
Import ListNotations.
Open Scope Z_scope.

(** the part of a number, without its exponent, that is read: the first 2050 characters *)
Definition seen (n : numeral) : numeral := fst (split_bare (firstn (S parser_limit) (mantissa_text n))).

(** the digits behind the first 19 (float: 9) significant ones *)
Definition behind (t : ftype) (ds : list Z) : list Z := skipn (Z.to_nat (exact_digits t)) (drop_zeros ds).

(** The four digits that are looked at behind them, filled up with zeros: of the digits before the
    point only, if there are more than 19 (9).  They are not looked at if nothing but zeros is
    seen there; if they are, they may lie behind what is seen otherwise. *)
Definition four_behind (t : ftype) (n : numeral) : Z :=
  if dval (behind t (n_int (seen n) ++ frac_digits (seen n))) =? 0 then 0
  else dval (firstn 4 (behind t (if dval (n_int n) <? 10 ^ exact_digits t then n_int n ++ frac_digits n else n_int n) ++ [0; 0; 0; 0])).

Definition read_number (t : ftype) (n : numeral) : reading :=
  if coefficient (seen n) =? 0 then Sure (zero_of t (is_minus (n_sign n))) success
  else let (d, K) := move_point t (seen n) in
       read_exactly t (is_minus (n_sign n)) d (K + exponent_value n) (four_behind t n).

Inductive outcome :=
| Fails                                             (* undefined behaviour *)
| Returns (v : Z) (s : conversion_status) (k : Z)   (* bits, status, number of characters taken *)
| Defers.                                           (* the fallback is asked *)

Definition word_bits (t : ftype) (w : word) (minus : bool) : Z :=
  match w with Nan => infinity_of t minus + 2 ^ (precision t - 2) | Inf => infinity_of t minus | NoWord => zero_of t minus end.

Definition read_text (t : ftype) (a : list Z) : outcome :=
  match meaning_of t a with
  | Undefined => Fails
  | Word sg w => Returns (word_bits t w (is_minus sg)) success (text_length a)
  | Number n => match read_number t n with
                | Sure v s => Returns v s (text_length a)
                | Unsure => Defers
                end
  end.
