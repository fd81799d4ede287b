(** Specification: what number or word the parser takes a text for.  Computable, independent of
    the model. *)
From Coq Require Import ZArith Bool Reals List String Ascii.
From Verif Require Import Spec ParseSpec TextSpec ReadSpec.
Import ListNotations.
Open Scope Z_scope.

Fixpoint drop_zeros (l : list Z) : list Z :=
  match l with
  | d :: r => if d =? 0 then drop_zeros r else l
  | [] => []
  end.

(** The digits of a number without zeros at either end, at most 19 (double) or 9 (float) of them,
    read as an integer, and the power of ten that goes with it. *)
Definition move_point (t : ftype) (n : numeral) : Z * Z :=
  let sig := drop_zeros (n_int n ++ frac_digits n) in
  let ds := firstn (Z.to_nat (exact_digits t)) (rev (drop_zeros (rev sig))) in
  (dval ds, scale n + (Z.of_nat (List.length sig) - Z.of_nat (List.length ds))).

(** reduction modulo 2^32 to the range of int *)
Definition int_of (a : Z) : Z := (a + 2 ^ 31) mod 2 ^ 32 - 2 ^ 31.

(** The exponent that is taken for a bare number; [None]: undefined behaviour. *)
Definition exponent_of (x : numeral) : option Z :=
  if coefficient x =? 0 then Some 0 else
  let (d, k) := move_point Float x in
  if (0 <=? k) && (k <=? 3) then
    let E := signed (n_sign x) (int_of (d * 10 ^ k)) in
    if E <? 2 ^ 31 then Some E else None
  else None.

(** The exponent that is applied to the mantissa [n] when [r] follows the letter e: it is looked
    for in the first 2050 characters. *)
Definition applied (t : ftype) (n : numeral) (r : list Z) : option Z :=
  match exponent_of (fst (split_bare (firstn (S parser_limit) r))) with
  | Some E => let (d, K) := move_point t n in
              if (- 2 ^ 31 <=? K + E) && (K + E <? 2 ^ 31) then Some E else None
  | None => None
  end.

(** [n] with the exponent [E], or 9999 or -9999 if [E] is beyond *)
Definition with_exponent (n : numeral) (E : Z) : numeral :=
  let e := Z.min (Z.abs E) 9999 in
  {| n_sign := n_sign n; n_int := n_int n; n_frac := n_frac n;
     n_exp := Some {| x_upper := false; x_sign := if E <? 0 then Minus else NoSign;
                      x_digits := [e / 1000; e / 100 mod 10; e / 10 mod 10; e mod 10] |} |}.

Inductive meaning :=
| Undefined                       (* undefined behaviour *)
| Word (sg : signopt) (w : word)  (* nan, inf, or an n or i that is neither *)
| Number (n : numeral).           (* a plain number (possibly without any digit) *)

Definition meaning_of (t : ftype) (a : list Z) : meaning :=
  let (n, b) := split_bare a in
  if no_digits n && negb (snd (word_at b) =? 0) then Word (n_sign n) (fst (word_at b)) else
  match b with
  | mk :: r =>
      if (lower mk =? code "e") && negb (coefficient n =? 0) && (List.length (mantissa_text n) <=? parser_limit)%nat
      then match applied t n r with Some E => Number (with_exponent n E) | None => Undefined end
      else Number n
  | [] => Number n
  end.
