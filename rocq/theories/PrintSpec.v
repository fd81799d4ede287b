(** Specification for C95: the arithmetic and the layout of ftoa, with integers only and no
    machine words (full_width and power_of_ten are those of ExactSpec). *)
From Coq Require Import ZArith List Bool.
From Verif Require Import Spec ParseSpec ExactSpec.
Import ListNotations.
Open Scope Z_scope.

(** * The interval *)

(** upper end of the rounding interval of [v], with a full mantissa: [fst] * 2^[snd] *)
Definition top (t : ftype) (v : Z) : Z * Z := full_width t (2 * significand t v + 1) (exponent t v - 1).

(** lower end, with the same exponent: for powers of two from the smallest normal number on it is
    half as far away as the upper end *)
Definition bottom (t : ftype) (v : Z) : Z :=
  let g := if significand t v =? 2 ^ (precision t - 1) then 1 else 2 in
  (4 * significand t v - g) * 2 ^ (exponent t v - 2 - snd (top t v)).

(** 10^[k] is the smallest power of ten not below 2^[x] *)
Definition ten_above (x k : Z) : Prop :=
  (2 ^ Z.max 0 x * 10 ^ Z.max 0 (- k) <= 10 ^ Z.max 0 k * 2 ^ Z.max 0 (- x)) /\
  (10 ^ Z.max 0 (k - 1) * 2 ^ Z.max 0 (- x) < 2 ^ Z.max 0 x * 10 ^ Z.max 0 (1 - k)).

(** The interval is multiplied by that power of ten which makes its upper end, read as an
    integer and a fraction, an integer of 29 to 32 (float: 13 to 16) bits, or one bit less. *)
Definition power_for (t : ftype) (v k : Z) : Prop := ten_above (- (width t / 2 + 3) - snd (top t v) - 1) k.

(** the two ends, scaled, and brought nearer to each other by one *)
Definition times (t : ftype) (f k : Z) : Z := (f * fst (power_of_ten t k) + 2 ^ (width t - 1)) / 2 ^ width t.
Definition upper (t : ftype) (v k : Z) : Z := times t (fst (top t v)) k - 1.
Definition lower (t : ftype) (v k : Z) : Z := times t (bottom t v) k + 1.
(** what is one in these units *)
Definition one (t : ftype) (v k : Z) : Z := 2 ^ (- (snd (top t v) + snd (power_of_ten t k) + width t)).

(** * The digits *)

(** [i] is the smallest number of digits behind the point with which a number in the interval is
    obtained by cutting off the digits of its upper end *)
Definition enough (u l o i : Z) : Prop := (10 ^ i * u) mod o <= 10 ^ i * (u - l).
Definition places (t : ftype) (v k i : Z) : Prop :=
  let u := upper t v k in let l := lower t v k in let o := one t v k in
  0 <= i /\ enough u l o i /\ forall j, 0 <= j < i -> ~ enough u l o j.

(** the number that is printed is this integer times 10^-([k] + [i]) *)
Definition digits_of (t : ftype) (v k i : Z) : Z := 10 ^ i * upper t v k / one t v k.

(** the decimal digits of [D], without the [z] zeros at its end *)
Definition decimal (D : Z) (ds : list Z) (z : Z) : Prop :=
  Forall digit ds /\ hd 0 ds <> 0 /\ last ds 0 <> 0 /\ 0 <= z /\ dval ds * 10 ^ z = D.

(** * The layout *)

(** of the digits [ds], of which the last is worth 10^[K] *)
Definition layout (s : signopt) (ds : list Z) (K : Z) : numeral :=
  let n := Z.of_nat (length ds) in
  if 16 <? Z.max (n + K) (- K) then
    (* more than 16 digits before the point or behind it: d.ddde-xx *)
    {| n_sign := s; n_int := [hd 0 ds]; n_frac := if 1 <? n then Some (tl ds) else None;
       n_exp := let x := n + K - 1 in let a := Z.abs x in
                Some {| x_upper := false; x_sign := if x <? 0 then Minus else NoSign;
                        x_digits := if a <? 100 then [a / 10; a mod 10] else [a / 100; a mod 100 / 10; a mod 10] |} |}
  else if 0 <=? K then
    (* ddd000 *)
    {| n_sign := s; n_int := ds ++ repeat 0 (Z.to_nat K); n_frac := None; n_exp := None |}
  else if 0 <? n + K then
    (* dd.ddd *)
    {| n_sign := s; n_int := firstn (Z.to_nat (n + K)) ds; n_frac := Some (skipn (Z.to_nat (n + K)) ds); n_exp := None |}
  else
    (* 0.000ddd *)
    {| n_sign := s; n_int := [0]; n_frac := Some (repeat 0 (Z.to_nat (- (n + K))) ++ ds); n_exp := None |}.

Definition sign_of_value (t : ftype) (v : Z) : signopt := if sign_field t v =? 1 then Minus else NoSign.
