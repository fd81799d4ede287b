(** Model of /repo/include/floaxie/diy_fp.h:464-475 [operator<<]. *)
From Verif Require Import Machine Chars Format DiyFp Print.

(** Decimal digits of [v >= 0], most significant first, as characters; fuel bounds the number of
    digits. *)
Fixpoint decimal_digits (fuel : nat) (v : Z) : list Z :=
  match fuel with
  | O => []
  | S n => if v <? 10 then [ch_0 + v] else decimal_digits n (v / 10) ++ [ch_0 + v mod 10]
  end.

(** [os << int] of the standard library for a stream in its initial state (decimal, no width,
    no showpos, "C" locale); an [int] has at most ten digits. *)
Definition show_int (v : Z) : list Z :=
  if v <? 0 then ch_minus :: decimal_digits 10 (- v) else decimal_digits 10 v.

Definition ch_comma : Z := 44.
Definition ch_equal : Z := 61.

(** diy_fp.h:471-475 [operator<<]: the characters appended to the stream (a [char] stream: only
    there a [std::string] can be inserted).  The overload of [print_binary] chosen for the
    mantissa type is the template (print.h:47-50). *)
Definition diy_show (T : fmt) (d : diy) : list Z :=
  [ch_lpar; ch_f; ch_space; ch_equal; ch_space] ++ print_binary (Z.to_nat (fw T)) (m_f d) ++
  [ch_comma; ch_space; ch_e; ch_space; ch_equal; ch_space] ++ show_int (m_e d) ++ [ch_rpar].
