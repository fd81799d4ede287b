(** The two floating-point types the library is instantiated with, as one
    record.  Models std::numeric_limits<FloatType>, diy_fp_traits
    (/repo/include/floaxie/diy_fp.h:44-83) and powers_ten<FloatType>
    (/repo/include/floaxie/powers_ten_single.h, powers_ten_double.h). *)
From Verif Require Import Machine PowersTen.

Record fmt := {
  fw : Z;          (* bit_size<FloatType>() = bit_size<mantissa_storage_type>() *)
  fdig : Z;        (* std::numeric_limits<FloatType>::digits *)
  fmaxe : Z;       (* std::numeric_limits<FloatType>::max_exponent *)
  fmine : Z;       (* std::numeric_limits<FloatType>::min_exponent *)
  fd10 : nat;      (* std::numeric_limits<mantissa_storage_type>::digits10 *)
  fpow_f : list Z; (* powers_ten<FloatType>::f *)
  fpow_e : list Z; (* powers_ten<FloatType>::e *)
  fpow0 : Z;       (* powers_ten<FloatType>::pow_0_offset *)
  fpow_lo : Z;     (* powers_ten<FloatType>::boundaries.first *)
  fpow_hi : Z      (* powers_ten<FloatType>::boundaries.second *)
}.

(** [float]: diy_fp.h:55-61, powers_ten_single.h:263,267 *)
Definition single : fmt := {|
  fw := 32; fdig := 24; fmaxe := 128; fmine := -125; fd10 := 9;
  fpow_f := powers_ten_single_f; fpow_e := powers_ten_single_e;
  fpow0 := 50; fpow_lo := -50; fpow_hi := 50 |}.

(** [double]: diy_fp.h:77-83, powers_ten_double.h:406,410 *)
Definition double : fmt := {|
  fw := 64; fdig := 53; fmaxe := 1024; fmine := -1021; fd10 := 19;
  fpow_f := powers_ten_double_f; fpow_e := powers_ten_double_e;
  fpow0 := 343; fpow_lo := -343; fpow_hi := 343 |}.

(** Bit patterns of the special values (IEEE-754 binary32 / binary64), as
    returned by std::numeric_limits<FloatType>::infinity(), quiet_NaN(),
    HUGE_VALF / HUGE_VAL (/repo/include/floaxie/huge_val.h:29-50). *)
Definition fmb (T : fmt) : Z := fdig T - 1.              (* mantissa_bit_size *)
Definition inf_bits (T : fmt) : Z :=
  Z.shiftl (2 ^ (fw T - fdig T) - 1) (fmb T).
Definition qnan_bits (T : fmt) : Z :=
  Z.lor (inf_bits T) (Z.shiftl 1 (fmb T - 1)).
Definition huge_value (T : fmt) : Z := inf_bits T.

(** Operations of the C++ language on floating-point values, on bit patterns. *)
Definition sign_bit (T : fmt) (v : Z) : bool := Z.testbit v (fw T - 1).
(** magnitude part of the pattern *)
Definition abs_bits (T : fmt) (v : Z) : Z := Z.land v (2 ^ (fw T - 1) - 1).
Definition is_nan (T : fmt) (v : Z) : bool := inf_bits T <? abs_bits T v.  (* std::isnan *)
Definition is_inf (T : fmt) (v : Z) : bool := abs_bits T v =? inf_bits T.  (* std::isinf *)
Definition is_zero (T : fmt) (v : Z) : bool := abs_bits T v =? 0.          (* v == 0 *)
(** [v < 0] and [v > 0] for a non-NaN value *)
Definition lt_zero (T : fmt) (v : Z) : bool := sign_bit T v && negb (is_zero T v).
Definition gt_zero (T : fmt) (v : Z) : bool := negb (sign_bit T v) && negb (is_zero T v).
(** unary minus: flips the sign bit *)
Definition neg_bits (T : fmt) (v : Z) : Z := Z.lxor v (2 ^ (fw T - 1)).
