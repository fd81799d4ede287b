(** Specification for C94: the arithmetic of atof, with integers only and no machine words.

    A number text is reduced to three integers: its first 19 (float: 9) significant digits [d],
    the power of ten [K] by which they are to be multiplied, and the four digits [T] behind them
    that are looked at.  [read_exactly] says which bits and which status come of them. *)
From Coq Require Import ZArith List Bool.
From Verif Require Import DiyFp Spec ParseSpec SameSpec.
Import ListNotations.
Open Scope Z_scope.

(** * The three integers *)

(** [T] are the four digits of [n] behind its leading digits [d], zeros if there are no more *)
Definition next_four (n : numeral) (d K T : Z) : Prop :=
  exists j R, 0 <= j /\ K = scale n + j /\ coefficient n = d * 10 ^ j + R /\ 0 <= R < 10 ^ j /\ T = R * 10 ^ 4 / 10 ^ j.

(** Digits behind the point are only looked at if there are at most 19 (9) before it, not
    counting leading zeros. *)
Definition looked_at (t : ftype) (n : numeral) (d K T : Z) : Prop :=
  next_four (if dval (n_int n) <? 10 ^ exact_digits t then n else integer_only n) d K T.

(** * What is computed from them *)

(** x / 2^n, rounded to nearest, ties to even *)
Definition nearest_even (x n : Z) : Z :=
  let q := x / 2 ^ n in let r := x mod 2 ^ n in
  if r <? 2 ^ (n - 1) then q
  else if 2 ^ (n - 1) <? r then q + 1
  else if Z.even q then q else q + 1.

(** f * 2^e written with a mantissa of exactly [width t] bits *)
Definition full_width (t : ftype) (f e : Z) : Z * Z :=
  let n := width t - 1 - Z.log2 f in (f * 2 ^ n, e - n).

(** seven binary digits of T / 10000, found by taking away 10000/2, 10000/4, 10000/8, ... (rounded
    down) as long as they fit *)
Fixpoint take_shares (n : Z) (shares : list Z) : Z :=
  match shares with
  | [] => 0
  | s :: r => if s <=? n then 2 ^ Z.of_nat (length r) + take_shares (n - s) r else take_shares n r
  end.
Definition tail_bits (T : Z) : Z := take_shares T [5000; 2500; 1250; 625; 312; 156; 78].

(** the mantissa: [d] moved to the top of the word, the seven bits behind it, rounded at the end
    of the word *)
Definition mantissa_of (t : ftype) (d T : Z) : Z * Z :=
  let '(f, e) := full_width t d 0 in
  let b := tail_bits T in
  let f' := f + (if b =? 0 then 0 else nearest_even b (7 + e)) in
  if f' =? 2 ^ width t then (2 ^ (width t - 1), e + 1) else (f', e).

(** a / b, rounded likewise *)
Definition nearest_quotient (a b : Z) : Z :=
  let q := a / b in let r := a mod b in
  if 2 * r <? b then q
  else if b <? 2 * r then q + 1
  else if Z.even q then q else q + 1.

(** 10^K: the nearest number with a mantissa of [width t] bits *)
Definition power_exponent (t : ftype) (K : Z) : Z :=
  (if 0 <=? K then Z.log2 (10 ^ K) else - Z.log2 (10 ^ (- K)) - 1) - (width t - 1).
Definition power_of_ten (t : ftype) (K : Z) : Z * Z :=
  let e := power_exponent t K in
  (nearest_quotient (10 ^ Z.max 0 K * 2 ^ Z.max 0 (- e)) (10 ^ Z.max 0 (- K) * 2 ^ Z.max 0 e), e).

(** the product, rounded to [width t] bits below the top *)
Definition scaled (t : ftype) (f e K : Z) : Z * Z :=
  if K =? 0 then (f, e)
  else let '(c, x) := power_of_ten t K in ((f * c + 2 ^ (width t - 1)) / 2 ^ width t, e + x + width t).

(** the answer: bits and status, or a call of the fallback *)
Inductive reading := Sure (v : Z) (s : conversion_status) | Unsure.

(** rounding f * 2^e (with a full mantissa) to the type: the exponent field and the significand
    field are put together without regard for a carry from the one to the other; on a tie the
    fallback is called *)
Definition rounded (t : ftype) (minus : bool) (f e : Z) : reading :=
  let signed v := if minus then opposite t v else v in
  if max_exp t <=? e then Sure (signed (infinity_of t false)) overflow
  else if e + width t <=? min_exp t then Sure (signed 0) underflow
  else
    let s := Z.max (min_exp t - e) (width t - precision t) in
    let field := Z.max 0 (e + width t - precision t - min_exp t + 1) in
    if f mod 2 ^ s =? 2 ^ (s - 1) then Unsure
    else Sure (signed ((field * 2 ^ (precision t - 1)) mod 2 ^ width t + nearest_even f s mod 2 ^ (precision t - 1))) success.

Definition read_exactly (t : ftype) (minus : bool) (d K T : Z) : reading :=
  if K <? - largest_power t then Sure 0 underflow
  else if largest_power t <? K then Sure (infinity_of t false) overflow
  else
    let '(f, e) := mantissa_of t d T in
    let '(g, x) := scaled t f e K in
    let '(h, y) := full_width t g x in
    rounded t minus h y.
