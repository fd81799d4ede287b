(** Model of grisu.h and ftoa.h with any evaluation of the one floating-point expression of the
    library, in k_comp.h: how [(alpha - e - 1) * lg_2 + (e + 1 < alpha)] is rounded depends on the
    rounding mode (fesetround), on the precision the compiler evaluates it in (FLT_EVAL_METHOD)
    and on whether it uses a fused multiply-add. For [k_comp_exp] (binary64, round to nearest,
    not fused) the definitions are those of Grisu.v and Ftoa.v (proved below by computation). *)
From Coq Require Import Reals ZArith List.
From Flocq Require Import Core.
From Verif Require Import Machine BitOps Format DiyFp KComp Chars Grisu Prettify Ftoa.
Import ListNotations.
Open Scope Z_scope.

(** k_comp.h:48-51 [k_comp_exp<alpha, gamma>(e)]: [c] is the value of the constant [lg_2],
    [mul] and [add] are the roundings of the product and the sum; the conversion to int truncates *)
Definition k_comp_as (c : R) (mul add : R -> R) (alpha e : Z) : res Z :=
  x <- sint (alpha - e - 1) ;;
  sint (Ztrunc (add (mul (IZR x * c) + IZR (b2z (e + 1 <? alpha)))%R)).

(** grisu.h:262-283, as [grisu2] *)
Definition grisu2_with (k_comp : Z -> Z -> res Z) (T : fmt) (v : Z) (buf : list Z) (base : Z) : res (list Z * Z * Z) :=
  '(w_m, w_p) <- boundaries T v ;;
  mk <- k_comp (grisu_alpha T) (m_e w_p) ;;
  c_mk <- cached_power T mk ;;
  w_m' <- diy_inc T (diy_mul T w_m c_mk) ;;
  w_p' <- diy_dec T (diy_mul T w_p c_mk) ;;
  digit_gen T w_p' w_m' buf base (- mk).

(** ftoa.h:88-141, as [ftoa] *)
Definition ftoa_with (k_comp : Z -> Z -> res Z) (T : fmt) (v : Z) (buf : list Z) : res (list Z * Z) :=
  if is_nan T v then
    buf <- write buf 0 ch_n ;;
    buf <- write buf 1 ch_a ;;
    buf <- write buf 2 ch_n ;;
    buf <- write buf 3 ch_nul ;;
    Ok (buf, 3)
  else if is_inf T v then
    if gt_zero T v then
      buf <- write buf 0 ch_i ;;
      buf <- write buf 1 ch_n ;;
      buf <- write buf 2 ch_f ;;
      buf <- write buf 3 ch_nul ;;
      Ok (buf, 3)
    else
      buf <- write buf 0 ch_minus ;;
      buf <- write buf 1 ch_i ;;
      buf <- write buf 2 ch_n ;;
      buf <- write buf 3 ch_f ;;
      buf <- write buf 4 ch_nul ;;
      Ok (buf, 4)
  else if is_zero T v then
    buf <- write buf 0 ch_0 ;;
    buf <- write buf 1 ch_nul ;;
    Ok (buf, 1)
  else
    buf <- write buf 0 ch_minus ;;
    let base := b2z (lt_zero T v) in
    '(buf, len, K) <- grisu2_with k_comp T v buf base ;;
    '(buf, n) <- prettify 16 buf base (wrap 32 len) K ;;
    Ok (buf, wrap 64 (b2z (lt_zero T v) + n)).

(** ftoa.h:165-175, as [to_basic_string] *)
Definition to_basic_string_with (k_comp : Z -> Z -> res Z) (T : fmt) (v : Z) : res (list Z) :=
  let result := repeat ch_nul (Z.to_nat (max_buffer_size T)) in
  '(result, _) <- ftoa_with k_comp T v result ;;
  n <- c_strlen result ;;
  Ok (firstn (Z.to_nat n) result).

Lemma ftoa_with_nearest : forall T v buf, ftoa_with k_comp_exp T v buf = ftoa T v buf.
Proof. reflexivity. Qed.
Lemma to_basic_string_with_nearest : forall T v, to_basic_string_with k_comp_exp T v = to_basic_string T v.
Proof. reflexivity. Qed.
