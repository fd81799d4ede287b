(** Model of /repo/include/floaxie/bit_ops.h *)
From Verif Require Import Machine.

(** bit_ops.h:60-64 [raised_bit<NumericType>(power)], for a [w]-bit type: the
    assertion [power < bit_size], then [NumericType(1) << power]. *)
Definition raised_bit (w power : Z) : res Z :=
  assert_ ((0 <=? power) && (power <? w)) ;;;
  Ok (Z.shiftl 1 power).

(** The same function where [power] is a compile-time constant (the assertion
    is then evaluated by the compiler). *)
Definition raised_bit_c (power : Z) : Z := Z.shiftl 1 power.

(** bit_ops.h:78-83 [msb_value] *)
Definition msb_value (w : Z) : Z := raised_bit_c (w - 1).

(** bit_ops.h:115-118 [nth_bit(value, power)], used with constant [power]. *)
Definition nth_bit (value power : Z) : bool :=
  negb (Z.land value (raised_bit_c power) =? 0).

(** bit_ops.h:132-135 [highest_bit] *)
Definition highest_bit (w value : Z) : bool := nth_bit value (w - 1).

(** bit_ops.h:145-149 [mask<NumericType>(n)] (n >= 0, it is a std::size_t);
    the inner [raised_bit] assertion holds because of the comparison. *)
Definition mask (w n : Z) : Z :=
  if n <? w then raised_bit_c n - 1 else 2 ^ w - 1.

(** bit_ops.h:160-163 [positive_part] of an [int] *)
Definition positive_part (value : Z) : Z := Z.max 0 value.

(** bit_ops.h:166-174 [round_result] *)
Record round_result := { rr_value : bool; rr_is_accurate : bool }.

(** bit_ops.h:195-207 [round_up(last_bits, round_to_power)] for a [w]-bit
    unsigned type. *)
Definition round_up (w last_bits round_to_power : Z) : res round_result :=
  assert_ (0 <? round_to_power) ;;;
  round_bit <- raised_bit w (round_to_power - 1) ;;
  let check_mask := Z.lxor (mask w (round_to_power + 1)) round_bit in
  Ok {| rr_is_accurate :=
          negb (Z.land last_bits (mask w round_to_power) =? round_bit);
        rr_value := negb (Z.land last_bits round_bit =? 0)
                    && negb (Z.land last_bits check_mask =? 0) |}.
