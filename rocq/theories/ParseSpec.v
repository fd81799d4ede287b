(** Specification vocabulary for parsing: what may follow a number, size limits,
    distance to rounding boundaries. *)
From Coq Require Import ZArith Bool Reals List String Ascii.
From Flocq Require Import Core.
From Verif Require Import Spec.
Import ListNotations.
Open Scope Z_scope.

(** A character that cannot continue a number. *)
Definition ends_number (c : Z) : Prop :=
  ~ (code "0" <= c <= code "9") /\ c <> code "." /\ c <> code "e" /\ c <> code "E".

(** The parser looks at no more than 2049 characters of the mantissa, and as many of the
    exponent part behind its marker. *)
Definition parser_limit : nat := Z.to_nat 2049.
Definition within_limits (n : numeral) : Prop :=
  (List.length (mantissa_text n) <= parser_limit)%nat /\
  (List.length (exponent_text n) <= S parser_limit)%nat.

(** the exponent is below 10000 in magnitude *)
Definition small_exponent (n : numeral) : Prop := Z.abs (exponent_value n) < 10000.

(** Exponents the parser can take: at most nine digits, not counting at most three zeros at
    the end, and at most 2000000000. *)
Definition readable_exponent (n : numeral) : Prop :=
  exists d k, Z.abs (exponent_value n) = d * 10 ^ k /\ 0 <= d < 10 ^ 9 /\ 0 <= k <= 3 /\
    (d mod 10 <> 0 \/ d = 0) /\ d * 10 ^ k <= 2000000000.

(** decimal digits that always fit the integer the parser collects them in *)
Definition exact_digits (t : ftype) : Z := match t with Float => 9 | Double => 19 end.

(** The number is [d * 10^j] with few digits.  For float the power of ten must also be one
    of those the library has in its table. *)
Definition short_decimal (t : ftype) (n : numeral) : Prop :=
  exists d j, 0 <= d < 10 ^ exact_digits t /\ 0 <= j /\ coefficient n = d * 10 ^ j /\
    (t = Float -> -50 <= scale n + j).

(** not too small and not too large for the type *)
Definition in_range (t : ftype) (x : R) : Prop :=
  (bpow radix2 (min_exp t) <= Rabs x)%R /\ (Rabs (rnd t x) < bpow radix2 (max_exp t))%R.

(** [x] is at least [margin] units in the last place away from every point half way between
    two neighbouring values *)
Definition clear_of_ties (t : ftype) (margin : R) (x : R) : Prop :=
  forall v, finite t v -> (margin * ulp_of t v <= Rabs (Rabs x - midpoint_above t v))%R.

(** [x] is a power of two or lies above one by less than [margin] units of its last place *)
Definition just_above_power (t : ftype) (margin : R) (x : R) : Prop :=
  exists k, min_exp t <= k /\
    (bpow radix2 k <= Rabs x < bpow radix2 k * (1 + margin * bpow radix2 (1 - precision t)))%R.

(** the accuracy the parser has for numbers of any length, in units of the last place *)
Definition any_length_margin (t : ftype) : R := match t with Float => 31 / 800 | Double => / 317 end.

(** The number is [d * 10^K] when the point is moved behind its significant digits, of which
    only the first 19 (double) or 9 (float) count; the value lies between [d * 10^K] and
    [(d + 1) * 10^K]. *)
Definition point_moved (t : ftype) (n : numeral) (d K : Z) : Prop :=
  0 < d < 10 ^ exact_digits t /\
  exists j R, 0 <= j /\ K = scale n + j /\ coefficient n = d * 10 ^ j + R /\
    ((R = 0 /\ d mod 10 <> 0) \/ (0 < R < 10 ^ j /\ 10 ^ (exact_digits t - 1) <= d)).

(** largest power of ten in the tables of the library *)
Definition largest_power (t : ftype) : Z := match t with Float => 50 | Double => 343 end.

(** A character that is no part of anything the parser knows: no letter, digit, point, sign,
    parenthesis or underscore.  The terminating NUL is one. *)
Definition between (lo hi : ascii) (c : Z) : Prop := code lo <= c <= code hi.
Definition separator (c : Z) : Prop :=
  ~ between "0" "9" c /\ ~ between "A" "Z" c /\ ~ between "a" "z" c /\
  c <> code "." /\ c <> code "+" /\ c <> code "-" /\ c <> code "(" /\ c <> code ")" /\ c <> code "_".

(** The text begins like a number: an optional sign, then a digit or a point. *)
Definition begins_number (a : list Z) : Prop :=
  exists sg x u, a = (sign_text sg ++ x :: u)%list /\ (between "0" "9" x \/ x = code ".").

Definition e_letter (c : Z) : Prop := c = code "e" \/ c = code "E".

(** Nothing that follows the text [a] can be taken for a part of it: it begins like a number,
    and so does everything behind a letter e in it. *)
Definition self_contained (a : list Z) : Prop :=
  begins_number a /\ forall x e y, a = (x ++ e :: y)%list -> e_letter e -> begins_number y.

(** [a] is the word [w] (in small letters) in any capitalisation *)
Definition any_case (c l : Z) : Prop := c = l \/ c = l - (code "a" - code "A").
Definition spells (w a : list Z) : Prop := Forall2 any_case a w.
(** characters allowed in nan(...) *)
Definition payload_char (c : Z) : Prop :=
  between "0" "9" c \/ between "A" "Z" c \/ between "a" "z" c \/ c = code "_".

(** no number and no word can begin with this character *)
Definition begins_nothing (c : Z) : Prop :=
  ~ between "0" "9" c /\ c <> code "." /\ c <> code "+" /\ c <> code "-" /\
  c <> code "n" /\ c <> code "N" /\ c <> code "i" /\ c <> code "I".

(** What the parser takes an exponent of ten to twelve digits for ([D] as written, without
    its sign): the digits behind the ninth are replaced by zeros and the rest is reduced
    modulo 2^32 to the range of int. *)
Definition exponent_taken (D E : Z) : Prop :=
  0 < D < 10 ^ 12 /\ D mod 10000 <> 0 /\
  exists D', (D < 10 ^ 9 /\ D' = D \/
              exists r, 0 < r /\ 10 ^ (8 + r) <= D < 10 ^ (9 + r) /\ D' = D / 10 ^ r * 10 ^ r) /\
    (exists k, E = D' + k * 2 ^ 32) /\ - 2 ^ 31 <= E < 2 ^ 31.
