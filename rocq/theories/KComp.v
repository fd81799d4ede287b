(** Model of /repo/include/floaxie/k_comp.h and cached_power.h *)
From Coq Require Import Floats.SpecFloat.
From Verif Require Import Machine Format DiyFp.

(** Conversion int -> double (exact for |z| < 2^53) in the standard library's
    executable specification of IEEE binary64. *)
Definition double_of_int (z : Z) : spec_float := binary_normalize 53 1024 z 0 false.

(** k_comp.h:28 [lg_2]: the binary64 nearest to the literal
    0.30102999566398114, i.e. 0x1.34413509f79fep-2. *)
Definition lg_2 : spec_float := S754_finite false 5422874305198590 (-54).

(** Conversion double -> int: truncation toward zero; a value that does not
    fit is undefined behaviour. *)
Definition int_of_double (x : spec_float) : res Z :=
  match x with
  | S754_zero _ => Ok 0
  | S754_finite s m e =>
      let a := if 0 <=? e then Z.shiftl (Z.pos m) e else Z.shiftr (Z.pos m) (- e) in
      sint (if s then - a else a)
  | _ => Fault SignedOverflow
  end.

(** k_comp.h:48-51 [k_comp_exp<alpha, gamma>(e)]:
    [(alpha - e - 1) * lg_2 + (e + 1 < alpha)] *)
Definition k_comp_exp (alpha e : Z) : res Z :=
  x <- sint (alpha - e - 1) ;;
  int_of_double
    (SFadd 53 1024 (SFmul 53 1024 (double_of_int x) lg_2)
       (double_of_int (b2z (e + 1 <? alpha)))).

(** cached_power.h:43-50 [cached_power<FloatType>(k)] *)
Definition cached_power (T : fmt) (k : Z) : res diy :=
  assert_ (- fpow0 T <=? k) ;;;
  let index := fpow0 T + k in
  f <- read_tab (fpow_f T) index ;;
  e <- read_tab (fpow_e T) index ;;
  Ok (mk_diy f e).
