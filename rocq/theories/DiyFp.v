(** Model of /repo/include/floaxie/diy_fp.h *)
From Verif Require Import Machine BitOps Format.

(** diy_fp.h:98-516: the two members [m_f] (unsigned, [fw T] bits) and [m_e] (int). *)
Record diy := mk_diy { m_f : Z; m_e : Z }.

(** /repo/include/floaxie/conversion_status.h:25-31 *)
Inductive conversion_status := success | underflow | overflow.

(** diy_fp.h:117-120 [hidden_bit()] *)
Definition hidden_bit (T : fmt) : Z := raised_bit_c (fdig T - 1).

(** diy_fp.h:139-161 [explicit diy_fp(FloatType d)]; [parts] are the bits of [d].
    [~mantissa_mask] is complement within the [fw T]-bit word.  The exponent is
    a field of at most 11 bits minus a constant, so plain [Z] arithmetic is the
    [int] arithmetic. *)
Definition diy_of_bits (T : fmt) (parts : Z) : diy :=
  let mantissa_bit_size := fdig T - 1 in
  let mantissa_mask := mask (fw T) mantissa_bit_size in
  let exponent_mask := Z.lxor (2 ^ fw T - 1 - mantissa_mask) (msb_value (fw T)) in
  let exponent_bias := fmaxe T - 1 + mantissa_bit_size in
  let f := Z.land parts mantissa_mask in
  let e := Z.shiftr (Z.land parts exponent_mask) mantissa_bit_size in
  if negb (e =? 0)
  then mk_diy (wrap (fw T) (f + hidden_bit T)) (e - exponent_bias)
  else mk_diy f (1 - exponent_bias).

(** diy_fp.h:166-175 [downsample_result] *)
Record downsample_result := {
  ds_value : Z;                     (* bits of the FloatType value *)
  ds_status : conversion_status;
  ds_is_accurate : bool }.

(** diy_fp.h:255-259 [is_normalized()] *)
Definition is_normalized (T : fmt) (d : diy) : res bool :=
  assert_ (negb (m_f d =? 0)) ;;;
  Ok (negb (Z.land (m_f d) (msb_value (fw T)) =? 0)).

(** diy_fp.h:186-236 [downsample()].  Expressions mixing [int] and [std::size_t]
    ([parts = m_e + shift_amount + ...]) are computed modulo 2^64 and then
    converted to the mantissa type.  The [int] expressions on [m_e] cannot
    overflow because of the two range tests before them. *)
Definition downsample (T : fmt) (d : diy) : res downsample_result :=
  assert_ (negb (m_f d =? 0)) ;;;
  norm <- is_normalized T d ;;
  assert_ norm ;;;
  let full_mantissa_bit_size := fdig T in
  let mantissa_bit_size := full_mantissa_bit_size - 1 in
  let my_mantissa_size := fw T in
  let mantissa_mask := mask (fw T) mantissa_bit_size in
  let exponent_bias := fmaxe T - 1 + mantissa_bit_size in
  let lsb_pow := my_mantissa_size - full_mantissa_bit_size in
  let f := m_f d in
  if fmaxe T <=? m_e d then
    Ok {| ds_value := huge_value T; ds_status := overflow; ds_is_accurate := true |}
  else if m_e d + my_mantissa_size <? fmine T - mantissa_bit_size then
    Ok {| ds_value := 0; ds_status := underflow; ds_is_accurate := true |}
  else
    let denorm_exp := positive_part (fmine T - mantissa_bit_size - m_e d - 1) in
    assert_ (denorm_exp <? my_mantissa_size) ;;;
    let shift_amount := Z.max denorm_exp lsb_pow in
    let parts0 := wrap (fw T) (wrap 64
        (m_e d + shift_amount + exponent_bias - b2z (lsb_pow <? denorm_exp))) in
    parts1 <- shl (fw T) parts0 mantissa_bit_size ;;
    round <- round_up (fw T) f shift_amount ;;
    fs <- shr (fw T) f shift_amount ;;
    let parts := Z.lor parts1
        (Z.land (wrap (fw T) (fs + b2z (rr_value round))) mantissa_mask) in
    Ok {| ds_value := parts; ds_status := success;
          ds_is_accurate := rr_is_accurate round |}.

(** diy_fp.h:267-276 [normalize()]: [while (!highest_bit(m_f))].  Fuel: the word
    width suffices for every non-zero mantissa. *)
Fixpoint normalize_loop (w : Z) (fuel : nat) (d : diy) : res diy :=
  if highest_bit w (m_f d) then Ok d else
  match fuel with
  | O => Fault OutOfFuel
  | S n =>
      e <- sint (m_e d - 1) ;;
      normalize_loop w n (mk_diy (wrap w (Z.shiftl (m_f d) 1)) e)
  end.

Definition normalize (T : fmt) (d : diy) : res diy :=
  assert_ (negb (m_f d =? 0)) ;;;
  normalize_loop (fw T) (Z.to_nat (fw T)) d.

(** diy_fp.h:293-306 [operator-=], [operator-] *)
Definition diy_sub (T : fmt) (a b : diy) : res diy :=
  assert_ ((m_e a =? m_e b) && (m_f b <=? m_f a)) ;;;
  Ok (mk_diy (wrap (fw T) (m_f a - m_f b)) (m_e a)).

(** diy_fp.h:320-341 [operator*=].  The exponent sum is computed in
    std::size_t and converted back to [int]. *)
Definition diy_mul (T : fmt) (x y : diy) : diy :=
  let half_width := fw T / 2 in
  let mask_half := mask (fw T) half_width in
  let a := Z.shiftr (m_f x) half_width in
  let b := Z.land (m_f x) mask_half in
  let c := Z.shiftr (m_f y) half_width in
  let d := Z.land (m_f y) mask_half in
  let ac := wrap (fw T) (a * c) in
  let bc := wrap (fw T) (b * c) in
  let ad := wrap (fw T) (a * d) in
  let bd := wrap (fw T) (b * d) in
  let tmp := wrap (fw T) (Z.shiftr bd half_width + Z.land ad mask_half
                          + Z.land bc mask_half + raised_bit_c (half_width - 1)) in
  mk_diy
    (wrap (fw T) (ac + Z.shiftr ad half_width + Z.shiftr bc half_width
                  + Z.shiftr tmp half_width))
    (narrow_int (wrap 64 (m_e x + (m_e y + fw T)))).

(** diy_fp.h:350-363 prefix [operator++] *)
Definition diy_inc (T : fmt) (d : diy) : res diy :=
  if m_f d <? 2 ^ fw T - 1
  then Ok (mk_diy (m_f d + 1) (m_e d))
  else e <- sint (m_e d + 1) ;;
       Ok (mk_diy (wrap (fw T) (Z.shiftr (m_f d) 1 + 1)) e).

(** diy_fp.h:374-387 prefix [operator--] *)
Definition diy_dec (T : fmt) (d : diy) : res diy :=
  if 1 <? m_f d
  then Ok (mk_diy (m_f d - 1) (m_e d))
  else e <- sint (m_e d - 1) ;;
       Ok (mk_diy (wrap (fw T) (wrap (fw T) (Z.shiftl (m_f d) 1) - 1)) e).

(** diy_fp.h:366-371, 390-395 postfix forms: (returned value, new value of the object) *)
Definition diy_post_inc (T : fmt) (d : diy) : res (diy * diy) :=
  d' <- diy_inc T d ;; Ok (d, d').
Definition diy_post_dec (T : fmt) (d : diy) : res (diy * diy) :=
  d' <- diy_dec T d ;; Ok (d, d').

(** diy_fp.h:401-414 [operator==], [operator!=] *)
Definition diy_eqb (a b : diy) : bool := (m_f a =? m_f b) && (m_e a =? m_e b).
Definition diy_neqb (a b : diy) : bool := negb (diy_eqb a b).

(** diy_fp.h:492-511 [normalize_from_ieee754()]: loop until bit [digits] is set,
    then one shift by [e_diff]. *)
Fixpoint normalize_ieee_loop (w bit : Z) (fuel : nat) (d : diy) : res diy :=
  if nth_bit (m_f d) bit then Ok d else
  match fuel with
  | O => Fault OutOfFuel
  | S n =>
      e <- sint (m_e d - 1) ;;
      normalize_ieee_loop w bit n (mk_diy (wrap w (Z.shiftl (m_f d) 1)) e)
  end.

Definition normalize_from_ieee754 (T : fmt) (d : diy) : res diy :=
  let mantissa_bit_width := fdig T in
  assert_ (negb (m_f d =? 0)) ;;;
  d1 <- normalize_ieee_loop (fw T) mantissa_bit_width (Z.to_nat (fw T)) d ;;
  let e_diff := fw T - mantissa_bit_width - 1 in
  Ok (mk_diy (wrap (fw T) (Z.shiftl (m_f d1) e_diff)) (m_e d1 - e_diff)).

(** diy_fp.h:438-463 [boundaries(d)]: the pair (M-, M+); [parts] are the bits of
    [d].  Exponents are small (see [diy_of_bits]). *)
Definition boundaries (T : fmt) (parts : Z) : res (diy * diy) :=
  let mi0 := diy_of_bits T parts in
  let pl1 := mk_diy (wrap (fw T) (wrap (fw T) (Z.shiftl (m_f mi0) 1) + 1)) (m_e mi0 - 1) in
  pl <- normalize_from_ieee754 T pl1 ;;
  let shift_amount := 1 + b2z (m_f mi0 =? hidden_bit T) in
  let f1 := wrap (fw T) (wrap (fw T) (Z.shiftl (m_f mi0) shift_amount) - 1) in
  let e1 := m_e mi0 - shift_amount in
  f2 <- shl (fw T) f1 (e1 - m_e pl) ;;
  Ok (mk_diy f2 (m_e pl), pl).
