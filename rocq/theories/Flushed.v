(** Model of ftoa.h, atof.h and default_fallback.h on a processor that treats denormal operands as zeros
    (the DAZ bit of x86, set by _MM_SET_DENORMALS_ZERO_MODE and by the start-up code GCC links in with
    -ffast-math; on ARM the FZ bit does it).  It acts on the operands of floating-point instructions:
    of the comparisons in ftoa.h and of the test [returned_value ? ...] in default_fallback.h:90.
    Moving a value, punning it to an integer (type_punning_cast.h) and changing its sign (krosh.h:614-615,
    the one arithmetic operation of the parser on a value, which flips one bit) do not go through it. *)
From Coq Require Import Reals.
From Verif Require Import Machine Format DiyFp Chars Grisu Prettify Ftoa Evaluation Krosh Atof.
Open Scope Z_scope.

(** the operand [v] as the instruction sees it: with an exponent field of zero, only the sign is left *)
Definition operand (T : fmt) (v : Z) : Z := if Z.shiftr (abs_bits T v) (fmb T) =? 0 then v - abs_bits T v else v.

(** ftoa.h:88-141, as [ftoa_with]; the comparisons are those of lines 90, 99, 101, 121, 131 and 139 *)
Definition ftoa_flushed (k_comp : Z -> Z -> res Z) (T : fmt) (v : Z) (buf : list Z) : res (list Z * Z) :=
  if is_nan T (operand T v) then
    buf <- write buf 0 ch_n ;;
    buf <- write buf 1 ch_a ;;
    buf <- write buf 2 ch_n ;;
    buf <- write buf 3 ch_nul ;;
    Ok (buf, 3)
  else if is_inf T (operand T v) then
    if gt_zero T (operand T v) then
      buf <- write buf 0 ch_i ;;
      buf <- write buf 1 ch_n ;;
      buf <- write buf 2 ch_f ;;
      buf <- write buf 3 ch_nul ;;
      Ok (buf, 3)
    else
      buf <- write buf 0 ch_minus ;;
      buf <- write buf 1 ch_i ;;
      buf <- write buf 2 ch_n ;;
      buf <- write buf 3 ch_f ;;
      buf <- write buf 4 ch_nul ;;
      Ok (buf, 4)
  else if is_zero T (operand T v) then
    buf <- write buf 0 ch_0 ;;
    buf <- write buf 1 ch_nul ;;
    Ok (buf, 1)
  else
    buf <- write buf 0 ch_minus ;;
    let base := b2z (lt_zero T (operand T v)) in
    '(buf, len, K) <- grisu2_with k_comp T v buf base ;;
    '(buf, n) <- prettify 16 buf base (wrap 32 len) K ;;
    Ok (buf, wrap 64 (b2z (lt_zero T (operand T v)) + n)).

(** default_fallback.h:85-91, as [check_errno] *)
Definition check_errno_flushed (T : fmt) (errno returned_value : Z) : conversion_status :=
  if negb (errno =? ERANGE) then success
  else if negb (is_zero T (operand T returned_value)) then overflow else underflow.

(** atof.h:94-126, as [atof]; nothing in krosh.h compares floating-point values *)
Definition atof_flushed (T : fmt) (s : list Z) (want_end : bool) (fb : fallback) (errno : Z) : res atof_result :=
  cr <- krosh T s ;;
  if negb (kr_str_end cr =? 0) then
    if kr_is_accurate cr then
      Ok {| at_value := kr_value cr; at_status := kr_status cr;
            at_str_end := if want_end then Some (kr_str_end cr) else None;
            at_errno := errno; at_used_fallback := false |}
    else
      r <- fb s errno ;;
      Ok {| at_value := fb_value r; at_status := check_errno_flushed T (fb_errno r) (fb_value r);
            at_str_end := if want_end then Some (fb_str_end r) else None;
            at_errno := fb_errno r; at_used_fallback := true |}
  else
    Ok {| at_value := 0; at_status := success;
          at_str_end := if want_end then Some (kr_str_end cr) else None;
          at_errno := errno; at_used_fallback := false |}.
