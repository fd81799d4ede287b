(** Model of /repo/include/floaxie/prettify.h *)
From Verif Require Import Machine BitOps Format Chars Grisu.

(** prettify.h:49-60 [digits_lut]: '0','0','0','1', ... ,'9','9' *)
Definition digits_lut : list Z :=
  flat_map (fun t => flat_map (fun u => [ch_0 + Z.of_nat t; ch_0 + Z.of_nat u]) (seq 0 10))
           (seq 0 10).

(** prettify.h:88-102 [fill_exponent(K, buffer)], [K] unsigned int. *)
Definition fill_exponent (K : Z) (buf : list Z) (base : Z) : res (list Z * Z) :=
  let hundreds := wrap 8 (K / 100) in
  let K := K mod 100 in
  buf <- write buf base (ch_0 + hundreds) ;;
  let base := base + b2z (0 <? hundreds) in
  d0 <- read_tab digits_lut (K * 2) ;;
  d1 <- read_tab digits_lut (K * 2 + 1) ;;
  buf <- write buf base d0 ;;
  buf <- write buf (base + 1) d1 ;;
  buf <- write buf (base + 2) ch_nul ;;
  Ok (buf, 2 + b2z (0 <? hundreds)).

(** prettify.h:119-136 [print_scientific(buffer, len, dot_pos)] *)
Definition print_scientific (buf : list Z) (base len dot_pos : Z) : res (list Z * Z) :=
  K <- sint (dot_pos - 1) ;;
  '(buf, base) <-
    (if 1 <? len then
       buf <- memmove buf (base + 2) (base + 1) (len - 1) ;;
       buf <- write buf (base + 1) ch_dot ;;
       Ok (buf, base + len)
     else Ok (buf, base)) ;;
  buf <- write buf (base + 1) ch_e ;;
  buf <- write buf (base + 2) ch_minus ;;
  let base := base + b2z (K <? 0) in
  '(buf, n) <- fill_exponent (Z.abs K) buf (base + 2) ;;
  Ok (buf, wrap 64 (len + b2z (1 <? len) + 1 + b2z (K <? 0) + n)).

(** prettify.h:152-174 [print_decimal(buffer, len, k)].  [unsigned int] variables
    are 32 bit. *)
Definition print_decimal (buf : list Z) (base len k : Z) : res (list Z * Z) :=
  dot_pos <- sint (len + k) ;;
  let actual_dot_pos := if 0 <? dot_pos then dot_pos else 1 in
  let left_offset := if 0 <? dot_pos then 0 else wrap 32 (2 - dot_pos) in
  let right_offset := positive_part k in
  let left_shift_src := positive_part dot_pos in
  let left_shift_dest :=
    if 0 <? dot_pos then wrap 32 (left_shift_src + b2z (k <? 0)) else left_offset in
  let left_shift_len := positive_part (len - left_shift_src) in
  let term_pos := wrap 32 (len + right_offset + (left_shift_dest - left_shift_src)) in
  buf <- memmove buf (base + left_shift_dest) (base + left_shift_src) left_shift_len ;;
  buf <- memset buf base ch_0 left_offset ;;
  buf <- memset buf (base + len) ch_0 right_offset ;;
  buf <- write buf (base + actual_dot_pos) ch_dot ;;
  buf <- write buf (base + term_pos) ch_nul ;;
  Ok (buf, term_pos).

(** prettify.h:195-218 [prettify<decimal_scientific_threshold>(buffer, len, k)];
    [choose_format] (71-76) is the comparison with the threshold; [field_width]
    is a std::size_t. *)
Definition prettify (threshold : Z) (buf : list Z) (base len k : Z) : res (list Z * Z) :=
  dot_pos <- sint (len + k) ;;
  mk <- sint (- k) ;;
  let field_width := wrap 64 (Z.max dot_pos mk) in
  if threshold <? field_width
  then print_scientific buf base len dot_pos
  else print_decimal buf base len k.
