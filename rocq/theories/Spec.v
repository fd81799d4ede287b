(** Specification vocabulary, independent of the model of the code.

    - IEEE-754 bit patterns of the two types and the real number they denote
    - correct rounding (Flocq's rounding operator)
    - decimal number texts: abstract syntax, how they are written, their value. *)
From Coq Require Import ZArith Bool Reals List String Ascii.
From Flocq Require Import Core.
Import ListNotations.
Open Scope Z_scope.

(** * Floating-point types *)

Inductive ftype := Float | Double.

(** number of bits of the type *)
Definition width (t : ftype) : Z := match t with Float => 32 | Double => 64 end.
(** number of significant bits, including the hidden one *)
Definition precision (t : ftype) : Z := match t with Float => 24 | Double => 53 end.
(** the smallest denormal is [2 ^ min_exp] *)
Definition min_exp (t : ftype) : Z := match t with Float => -149 | Double => -1074 end.
(** finite values are below [2 ^ max_exp] *)
Definition max_exp (t : ftype) : Z := match t with Float => 128 | Double => 1024 end.

(** A value of the type is given by its bits: a number [v] below [2 ^ width t]. *)
Definition pattern (t : ftype) (v : Z) : Prop := 0 <= v < 2 ^ width t.

Definition sign_field (t : ftype) (v : Z) : Z := v / 2 ^ (width t - 1).
Definition exp_field (t : ftype) (v : Z) : Z :=
  v / 2 ^ (precision t - 1) mod 2 ^ (width t - precision t).
Definition frac_field (t : ftype) (v : Z) : Z := v mod 2 ^ (precision t - 1).

Definition all_ones (t : ftype) : Z := 2 ^ (width t - precision t) - 1.

Definition negative (t : ftype) (v : Z) : Prop := sign_field t v = 1.
Definition finite (t : ftype) (v : Z) : Prop := pattern t v /\ exp_field t v <> all_ones t.
Definition infinite (t : ftype) (v : Z) : Prop :=
  pattern t v /\ exp_field t v = all_ones t /\ frac_field t v = 0.
Definition nan (t : ftype) (v : Z) : Prop :=
  pattern t v /\ exp_field t v = all_ones t /\ frac_field t v <> 0.
Definition zero (t : ftype) (v : Z) : Prop :=
  pattern t v /\ exp_field t v = 0 /\ frac_field t v = 0.
(** finite, non-zero *)
Definition nonzero (t : ftype) (v : Z) : Prop := finite t v /\ ~ zero t v.
Definition normal (t : ftype) (v : Z) : Prop := finite t v /\ exp_field t v <> 0.

(** the bits of zero and infinity with a given sign *)
Definition zero_of (t : ftype) (neg : bool) : Z := if neg then 2 ^ (width t - 1) else 0.
Definition infinity_of (t : ftype) (neg : bool) : Z :=
  all_ones t * 2 ^ (precision t - 1) + zero_of t neg.

(** bits of the value with the opposite sign *)
Definition opposite (t : ftype) (v : Z) : Z :=
  if v <? 2 ^ (width t - 1) then v + 2 ^ (width t - 1) else v - 2 ^ (width t - 1).

(** A finite value is [(-1)^sign * significand * 2^exponent]. *)
Definition significand (t : ftype) (v : Z) : Z :=
  if exp_field t v =? 0 then frac_field t v else frac_field t v + 2 ^ (precision t - 1).
Definition exponent (t : ftype) (v : Z) : Z := min_exp t + Z.max 1 (exp_field t v) - 1.
Definition magnitude (t : ftype) (v : Z) : R :=
  (IZR (significand t v) * bpow radix2 (exponent t v))%R.
Definition real_of (t : ftype) (v : Z) : R :=
  if sign_field t v =? 1 then (- magnitude t v)%R else magnitude t v.

(** unit in the last place of a finite value *)
Definition ulp_of (t : ftype) (v : Z) : R := bpow radix2 (exponent t v).

(** Distance to the next smaller magnitude: one ulp, except just above a power of
    two, where it is half of it (unless that is the smallest normal value). *)
Definition gap_below (t : ftype) (v : Z) : R :=
  if (significand t v =? 2 ^ (precision t - 1)) && (min_exp t <? exponent t v)
  then (/ 2 * ulp_of t v)%R else ulp_of t v.
(** Ends of the rounding interval of a non-zero magnitude: the midpoints to the two
    neighbouring magnitudes. *)
Definition midpoint_below (t : ftype) (v : Z) : R := (magnitude t v - / 2 * gap_below t v)%R.
Definition midpoint_above (t : ftype) (v : Z) : R := (magnitude t v + / 2 * ulp_of t v)%R.

(** * Correct rounding: to nearest, ties to even, with gradual underflow *)

Definition rnd (t : ftype) (x : R) : R :=
  round radix2 (FLT_exp (min_exp t) (precision t)) ZnearestE x.

(** [v] is what a correctly rounding conversion of the real number [x] yields
    ([neg] is the sign of the text, which decides the sign of a zero). *)
Definition correctly_rounded (t : ftype) (neg : bool) (x : R) (v : Z) : Prop :=
  (Rabs (rnd t x) < bpow radix2 (max_exp t))%R /\
    finite t v /\ real_of t v = rnd t x /\ (negative t v <-> neg = true)
  \/ (bpow radix2 (max_exp t) <= Rabs (rnd t x))%R /\ v = infinity_of t neg.

(** * Decimal texts *)

Definition radix10 : radix := Build_radix 10 eq_refl.
Notation pow10 := (bpow radix10).

Definition digit (d : Z) : Prop := 0 <= d <= 9.
(** the number written by a list of digits, most significant first *)
Definition dval (ds : list Z) : Z := fold_left (fun a d => 10 * a + d) ds 0.

(** character codes *)
Definition code (c : ascii) : Z := Z.of_nat (nat_of_ascii c).
Definition text (s : string) : list Z := map code (list_ascii_of_string s).
Definition dchars (ds : list Z) : list Z := map (fun d => code "0" + d) ds.

(** [sign] [digits] [.digits] [(e|E) [sign] digits] *)
Inductive signopt := NoSign | Plus | Minus.
Record exponent_part := {
  x_upper : bool;            (* written with E instead of e *)
  x_sign : signopt;
  x_digits : list Z }.
Record numeral := {
  n_sign : signopt;
  n_int : list Z;
  n_frac : option (list Z);  (* None: no point; Some []: a trailing point *)
  n_exp : option exponent_part }.

Definition frac_digits (n : numeral) : list Z :=
  match n_frac n with None => [] | Some ds => ds end.

Definition well_formed (n : numeral) : Prop :=
  Forall digit (n_int n) /\ Forall digit (frac_digits n) /\
  (n_int n ++ frac_digits n <> [])%list /\
  match n_exp n with
  | None => True
  | Some x => Forall digit (x_digits x) /\ x_digits x <> []
  end.

Definition sign_text (s : signopt) : list Z :=
  match s with NoSign => [] | Plus => text "+" | Minus => text "-" end.
Definition mantissa_text (n : numeral) : list Z :=
  (sign_text (n_sign n) ++ dchars (n_int n) ++
   match n_frac n with None => [] | Some ds => text "." ++ dchars ds end)%list.
Definition exponent_text (n : numeral) : list Z :=
  match n_exp n with
  | None => []
  | Some x => text (if x_upper x then "E" else "e")
              ++ sign_text (x_sign x) ++ dchars (x_digits x)
  end%list.
Definition written (n : numeral) : list Z := (mantissa_text n ++ exponent_text n)%list.

Definition is_minus (s : signopt) : bool := match s with Minus => true | _ => false end.
Definition signed (s : signopt) (x : Z) : Z := if is_minus s then - x else x.

(** all mantissa digits as one integer *)
Definition coefficient (n : numeral) : Z := dval (n_int n ++ frac_digits n).
(** the number in the exponent part *)
Definition exponent_value (n : numeral) : Z :=
  match n_exp n with None => 0 | Some x => signed (x_sign x) (dval (x_digits x)) end.
(** power of ten that goes with [coefficient] *)
Definition scale (n : numeral) : Z :=
  exponent_value n - Z.of_nat (List.length (frac_digits n)).

Definition abs_value (n : numeral) : R := (IZR (coefficient n) * pow10 (scale n))%R.
Definition value (n : numeral) : R :=
  if is_minus (n_sign n) then (- abs_value n)%R else abs_value n.

(** The text written by a number has at most [k] significant digits. *)
Definition significant_digits_at_most (k : Z) (n : numeral) : Prop :=
  exists d j, 0 <= d < 10 ^ k /\ 0 <= j /\ coefficient n = d * 10 ^ j.

(** * Two special situations of rounding *)

(** [x] lies exactly half way between two neighbouring values of the type. *)
Definition tie (t : ftype) (x : R) : Prop :=
  exists v, finite t v /\ Rabs x = midpoint_above t v.

(** Rounding the magnitude of [x] goes up and reaches a power of two in the normal range
    (the carry out of the significand that the library loses). *)
Definition carries (t : ftype) (x : R) : Prop :=
  exists k, min_exp t + precision t - 1 <= k /\
    (Rabs x < bpow radix2 k)%R /\ Rabs (rnd t x) = bpow radix2 k.
