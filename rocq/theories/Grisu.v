(** Model of /repo/include/floaxie/grisu.h (and memwrap.h) *)
From Verif Require Import Machine BitOps StaticPow Format DiyFp KComp Chars.

(** memwrap.h:31-41 [wrap::memset(dest, ch, count)]; [dest] is an offset into the
    output buffer. *)
Definition memset (buf : list Z) (dest ch count : Z) : res (list Z) :=
  write_list buf dest (repeat ch (Z.to_nat count)).

(** memwrap.h:47-57 [wrap::memmove(dest, src, count)]: all reads happen before
    the writes, overlap allowed. *)
Definition memmove (buf : list Z) (dest src count : Z) : res (list Z) :=
  xs <- read_list buf src (Z.to_nat count) ;;
  write_list buf dest xs.

(** grisu.h:56-65 [make_kappa_div<pow>()], [pow >= 1] *)
Definition make_kappa_div (pow : nat) : nat * Z :=
  match pow with
  | O => (O, 1)
  | S p => (pow, wrap 32 (static_pow 10 p))
  end.

(** grisu.h:70-82 [calculate_kappa_div(n)] *)
Definition calculate_kappa_div (n : Z) : nat * Z :=
  if n <? static_pow 10 1 then make_kappa_div 1 else
  if n <? static_pow 10 2 then make_kappa_div 2 else
  if n <? static_pow 10 3 then make_kappa_div 3 else
  if n <? static_pow 10 4 then make_kappa_div 4 else
  if n <? static_pow 10 5 then make_kappa_div 5 else
  if n <? static_pow 10 6 then make_kappa_div 6 else
  if n <? static_pow 10 7 then make_kappa_div 7 else
  if n <? static_pow 10 8 then make_kappa_div 8 else
  if n <? static_pow 10 9 then make_kappa_div 9 else
  make_kappa_div 10.

(** grisu.h:89-93 [max_digits<FloatType>()]: digits10 of uint32_t plus digits10
    of the mantissa type. *)
Definition max_digits (T : fmt) : Z := 9 + Z.of_nat (fd10 T).

(** grisu.h:150-158, the loop [while (kappa > 0 && p1)] writing the digits of the
    integral part.  Returns the buffer, [*len] and the remaining [kappa]. *)
Fixpoint integral_digits (kappa : nat) (p1 div : Z) (buf : list Z) (base len : Z)
    : res (list Z * Z * nat) :=
  match kappa with
  | O => Ok (buf, len, O)
  | S kappa' =>
      if p1 =? 0 then Ok (buf, len, kappa) else
      if div =? 0 then Fault DivideByZero else
      buf' <- write buf (base + len) (ch_0 + p1 / div) ;;
      integral_digits kappa' (p1 mod div) (div / 10) buf' base (len + 1)
  end.

(** grisu.h:175-188, the loop [while (p2 > delta_f)] writing the digits of the
    fractional part.  [sh] is [-one.exponent()], [some] is
    [some_already_written].  Returns the buffer, [*len] and [kappa].
    [d] is an unsigned char. *)
Fixpoint fraction_digits (w : Z) (fuel : nat) (sh p2 delta_f : Z) (some : bool)
    (kappa : Z) (buf : list Z) (base len : Z) : res (list Z * Z * Z) :=
  if delta_f <? p2 then
    match fuel with
    | O => Fault OutOfFuel
    | S n =>
        let p2' := wrap w (p2 * 10) in
        d0 <- shr w p2' sh ;;
        let d := wrap 8 d0 in
        r <- (if some || negb (d =? 0)
              then buf' <- write buf (base + len) (ch_0 + d) ;; Ok (buf', len + 1)
              else Ok (buf, len)) ;;
        one_m <- raised_bit w sh ;;
        let p2'' := Z.land p2' (one_m - 1) in
        fraction_digits w n sh p2'' (wrap w (delta_f * 10)) some
          (wrap 8 (kappa + 1)) (fst r) base (snd r)
    end
  else Ok (buf, len, kappa).

(** grisu.h:123-191 [digit_gen_select<false>::gen(Mp, Mm, buffer, len, K)].
    [base] is the offset of [buffer] in the caller's buffer.  Returns the buffer,
    [*len] and the new [*K]. *)
Definition digit_gen (T : fmt) (Mp Mm : diy) (buf : list Z) (base K : Z)
    : res (list Z * Z * Z) :=
  assert_ (m_e Mp <=? 0) ;;;
  delta <- diy_sub T Mp Mm ;;
  one_m <- raised_bit (fw T) (- m_e Mp) ;;
  let one_e := m_e Mp in
  p1w <- shr (fw T) (m_f Mp) (- one_e) ;;
  let p1 := wrap 32 p1w in
  let p2 := Z.land (m_f Mp) (one_m - 1) in
  assert_ (negb (p1 =? 0) || negb (p2 =? 0)) ;;;
  let delta_f := m_f delta in
  let close_to_delta := p2 <=? delta_f in
  (* the part after the optional early return, grisu.h:172-190 *)
  let tail (buf : list Z) (len : Z) : res (list Z * Z * Z) :=
    '(buf', len', kappa) <-
      fraction_digits (fw T) (Z.to_nat (fw T)) (- one_e) p2 delta_f (0 <? len) 0 buf base len ;;
    K' <- sint (K - kappa) ;;
    Ok (buf', len', K') in
  if negb (p1 =? 0) then
    let kd := calculate_kappa_div p1 in
    '(buf1, len1, kappa) <- integral_digits (fst kd) p1 (snd kd) buf base 0 ;;
    if close_to_delta then
      K' <- sint (K + Z.of_nat kappa) ;;
      Ok (buf1, len1, K')
    else
      buf2 <- memset buf1 (base + len1) ch_0 (Z.of_nat kappa) ;;
      tail buf2 (len1 + Z.of_nat kappa)
  else tail buf 0.

(** grisu.h:296-300 [grisu_parameters<FloatType>] *)
Definition grisu_alpha (T : fmt) : Z := - (fw T / 2 + 3).
Definition grisu_gamma (T : fmt) : Z := - (fw T / 2).

(** grisu.h:262-283 [grisu2<alpha, gamma>(v, buffer, length, K)]; [v] is given by its
    bits.  Returns the buffer, [*length] and [*K]. *)
Definition grisu2 (T : fmt) (v : Z) (buf : list Z) (base : Z) : res (list Z * Z * Z) :=
  '(w_m, w_p) <- boundaries T v ;;
  mk <- k_comp_exp (grisu_alpha T) (m_e w_p) ;;
  c_mk <- cached_power T mk ;;
  w_m' <- diy_inc T (diy_mul T w_m c_mk) ;;
  w_p' <- diy_dec T (diy_mul T w_p c_mk) ;;
  digit_gen T w_p' w_m' buf base (- mk).
