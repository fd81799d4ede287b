(** Model of /repo/include/floaxie/ftoa.h *)
From Verif Require Import Machine BitOps Format DiyFp Chars Grisu Prettify.

(** ftoa.h:42-48 [max_buffer_size<ValueType>()] *)
Definition max_buffer_size (T : fmt) : Z := max_digits T + 1 + 1 + 3 + 1.

(** ftoa.h:88-141 [ftoa(v, buffer)]: [v] by its bits; returns the buffer and the
    number of characters written. *)
Definition ftoa (T : fmt) (v : Z) (buf : list Z) : res (list Z * Z) :=
  if is_nan T v then
    buf <- write buf 0 ch_n ;;
    buf <- write buf 1 ch_a ;;
    buf <- write buf 2 ch_n ;;
    buf <- write buf 3 ch_nul ;;
    Ok (buf, 3)
  else if is_inf T v then
    if gt_zero T v then
      buf <- write buf 0 ch_i ;;
      buf <- write buf 1 ch_n ;;
      buf <- write buf 2 ch_f ;;
      buf <- write buf 3 ch_nul ;;
      Ok (buf, 3)
    else
      buf <- write buf 0 ch_minus ;;
      buf <- write buf 1 ch_i ;;
      buf <- write buf 2 ch_n ;;
      buf <- write buf 3 ch_f ;;
      buf <- write buf 4 ch_nul ;;
      Ok (buf, 4)
  else if is_zero T v then
    buf <- write buf 0 ch_0 ;;
    buf <- write buf 1 ch_nul ;;
    Ok (buf, 1)
  else
    buf <- write buf 0 ch_minus ;;
    let base := b2z (lt_zero T v) in
    '(buf, len, K) <- grisu2 T v buf base ;;
    '(buf, n) <- prettify 16 buf base (wrap 32 len) K ;;
    Ok (buf, wrap 64 (b2z (lt_zero T v) + n)).

(** [std::char_traits<CharType>::length(s)]: index of the first NUL.  Reading past
    the end of the array is a fault. *)
Fixpoint c_strlen (s : list Z) : res Z :=
  match s with
  | [] => Fault OutOfBoundsRead
  | c :: t => if c =? ch_nul then Ok 0 else n <- c_strlen t ;; Ok (n + 1)
  end.

(** ftoa.h:165-175 [to_basic_string(v)] (and to_string, to_wstring 178-187): a string
    of max_buffer_size NUL characters, printed into, resized to its C length. *)
Definition to_basic_string (T : fmt) (v : Z) : res (list Z) :=
  let result := repeat ch_nul (Z.to_nat (max_buffer_size T)) in
  '(result, _) <- ftoa T v result ;;
  n <- c_strlen result ;;
  Ok (firstn (Z.to_nat n) result).
