(** Model of all functions that compute with std::size_t, for a std::size_t of [sz] bits (32 on
    32-bit platforms). Copies of the definitions of StaticPow.v, DiyFp.v, Grisu.v, Prettify.v, Ftoa.v, Krosh.v and
    Atof.v with [sz] in place of 64 (for 64 they are the same: proved below for printing, an instance of C104 for parsing). The other functions do not
    depend on it; texts and buffers are shorter than the address space. *)
From Verif Require Import Machine BitOps StaticPow Fraction Format DiyFp KComp Chars Grisu Prettify Ftoa Krosh Atof.
Open Scope Z_scope.

(** static_pow.h:155-161, as [seq_pow] *)
Definition seq_pow_on (sz : Z) (base : Z) (max_pow : nat) (pow : Z) : res Z :=
  read_tab (pow_sequencer_sequence base max_pow) (wrap sz pow).

(** diy_fp.h:186-236, as [downsample] *)
Definition downsample_on (sz : Z) (T : fmt) (d : diy) : res downsample_result :=
  assert_ (negb (m_f d =? 0)) ;;;
  norm <- is_normalized T d ;;
  assert_ norm ;;;
  let full_mantissa_bit_size := fdig T in
  let mantissa_bit_size := full_mantissa_bit_size - 1 in
  let my_mantissa_size := fw T in
  let mantissa_mask := mask (fw T) mantissa_bit_size in
  let exponent_bias := fmaxe T - 1 + mantissa_bit_size in
  let lsb_pow := my_mantissa_size - full_mantissa_bit_size in
  let f := m_f d in
  if fmaxe T <=? m_e d then
    Ok {| ds_value := huge_value T; ds_status := overflow; ds_is_accurate := true |}
  else if m_e d + my_mantissa_size <? fmine T - mantissa_bit_size then
    Ok {| ds_value := 0; ds_status := underflow; ds_is_accurate := true |}
  else
    let denorm_exp := positive_part (fmine T - mantissa_bit_size - m_e d - 1) in
    assert_ (denorm_exp <? my_mantissa_size) ;;;
    let shift_amount := Z.max denorm_exp lsb_pow in
    let parts0 := wrap (fw T) (wrap sz
        (m_e d + shift_amount + exponent_bias - b2z (lsb_pow <? denorm_exp))) in
    parts1 <- shl (fw T) parts0 mantissa_bit_size ;;
    round <- round_up (fw T) f shift_amount ;;
    fs <- shr (fw T) f shift_amount ;;
    let parts := Z.lor parts1
        (Z.land (wrap (fw T) (fs + b2z (rr_value round))) mantissa_mask) in
    Ok {| ds_value := parts; ds_status := success;
          ds_is_accurate := rr_is_accurate round |}.

(** diy_fp.h:320-341, as [diy_mul] *)
Definition diy_mul_on (sz : Z) (T : fmt) (x y : diy) : diy :=
  let half_width := fw T / 2 in
  let mask_half := mask (fw T) half_width in
  let a := Z.shiftr (m_f x) half_width in
  let b := Z.land (m_f x) mask_half in
  let c := Z.shiftr (m_f y) half_width in
  let d := Z.land (m_f y) mask_half in
  let ac := wrap (fw T) (a * c) in
  let bc := wrap (fw T) (b * c) in
  let ad := wrap (fw T) (a * d) in
  let bd := wrap (fw T) (b * d) in
  let tmp := wrap (fw T) (Z.shiftr bd half_width + Z.land ad mask_half
                          + Z.land bc mask_half + raised_bit_c (half_width - 1)) in
  mk_diy
    (wrap (fw T) (ac + Z.shiftr ad half_width + Z.shiftr bc half_width
                  + Z.shiftr tmp half_width))
    (narrow_int (wrap sz (m_e x + (m_e y + fw T)))).

(** grisu.h:262-283, as [grisu2] *)
Definition grisu2_on (sz : Z) (T : fmt) (v : Z) (buf : list Z) (base : Z) : res (list Z * Z * Z) :=
  '(w_m, w_p) <- boundaries T v ;;
  mk <- k_comp_exp (grisu_alpha T) (m_e w_p) ;;
  c_mk <- cached_power T mk ;;
  w_m' <- diy_inc T (diy_mul_on sz T w_m c_mk) ;;
  w_p' <- diy_dec T (diy_mul_on sz T w_p c_mk) ;;
  digit_gen T w_p' w_m' buf base (- mk).

(** prettify.h:119-136, as [print_scientific] *)
Definition print_scientific_on (sz : Z) (buf : list Z) (base len dot_pos : Z) : res (list Z * Z) :=
  K <- sint (dot_pos - 1) ;;
  '(buf, base) <-
    (if 1 <? len then
       buf <- memmove buf (base + 2) (base + 1) (len - 1) ;;
       buf <- write buf (base + 1) ch_dot ;;
       Ok (buf, base + len)
     else Ok (buf, base)) ;;
  buf <- write buf (base + 1) ch_e ;;
  buf <- write buf (base + 2) ch_minus ;;
  let base := base + b2z (K <? 0) in
  '(buf, n) <- fill_exponent (Z.abs K) buf (base + 2) ;;
  Ok (buf, wrap sz (len + b2z (1 <? len) + 1 + b2z (K <? 0) + n)).

(** prettify.h:195-218, as [prettify] *)
Definition prettify_on (sz : Z) (threshold : Z) (buf : list Z) (base len k : Z) : res (list Z * Z) :=
  dot_pos <- sint (len + k) ;;
  mk <- sint (- k) ;;
  let field_width := wrap sz (Z.max dot_pos mk) in
  if threshold <? field_width
  then print_scientific_on sz buf base len dot_pos
  else print_decimal buf base len k.

(** ftoa.h:88-141, as [ftoa] *)
Definition ftoa_on (sz : Z) (T : fmt) (v : Z) (buf : list Z) : res (list Z * Z) :=
  if is_nan T v then
    buf <- write buf 0 ch_n ;;
    buf <- write buf 1 ch_a ;;
    buf <- write buf 2 ch_n ;;
    buf <- write buf 3 ch_nul ;;
    Ok (buf, 3)
  else if is_inf T v then
    if gt_zero T v then
      buf <- write buf 0 ch_i ;;
      buf <- write buf 1 ch_n ;;
      buf <- write buf 2 ch_f ;;
      buf <- write buf 3 ch_nul ;;
      Ok (buf, 3)
    else
      buf <- write buf 0 ch_minus ;;
      buf <- write buf 1 ch_i ;;
      buf <- write buf 2 ch_n ;;
      buf <- write buf 3 ch_f ;;
      buf <- write buf 4 ch_nul ;;
      Ok (buf, 4)
  else if is_zero T v then
    buf <- write buf 0 ch_0 ;;
    buf <- write buf 1 ch_nul ;;
    Ok (buf, 1)
  else
    buf <- write buf 0 ch_minus ;;
    let base := b2z (lt_zero T v) in
    '(buf, len, K) <- grisu2_on sz T v buf base ;;
    '(buf, n) <- prettify_on sz 16 buf base (wrap 32 len) K ;;
    Ok (buf, wrap sz (b2z (lt_zero T v) + n)).

(** ftoa.h:165-175, as [to_basic_string] *)
Definition to_basic_string_on (sz : Z) (T : fmt) (v : Z) : res (list Z) :=
  let result := repeat ch_nul (Z.to_nat (max_buffer_size T)) in
  '(result, _) <- ftoa_on sz T v result ;;
  n <- c_strlen result ;;
  Ok (firstn (Z.to_nat n) result).

(** krosh.h:161-164 and 364-366, as [weighted_sum] *)
Fixpoint weighted_sum_on (sz : Z) (w : Z) (max_pow : nat) (rev_digits : list Z) (pow acc : Z) : res Z :=
  match rev_digits with
  | [] => Ok acc
  | d :: t =>
      p <- seq_pow_on sz 10 max_pow pow ;;
      weighted_sum_on sz w max_pow t (pow + 1) (wrap w (acc + wrap w (d * p)))
  end.

(** krosh.h:144-167, as [extract_fraction_digits] *)
Definition extract_fraction_digits_on (sz : Z) (kappa : nat) (s : list Z) (p : Z) : res Z :=
  ds <- extract_loop s p kappa ;;
  weighted_sum_on sz 32 kappa (rev ds) 0 0.

(** krosh.h:256-262, as [step_zero] *)
Definition step_zero_on (sz : Z) (st : pstate) : pstate :=
  if negb (match pd_digits st with [] => true | _ => false end) || pd_dot_set st then
    {| pd_digits := pd_digits st; pd_dot_set := pd_dot_set st;
       pd_sign_set := pd_sign_set st; pd_frac_calculated := pd_frac_calculated st;
       pd_pow_gain := wrap sz (pd_pow_gain st + b2z (negb (pd_dot_set st)));
       pd_zeros := wrap sz (pd_zeros st + 1);
       pd_fraction_count := pd_fraction_count st; pd_frac := pd_frac st;
       pd_special := pd_special st; pd_sign := pd_sign st; pd_pos := pd_pos st |}
  else st.

(** krosh.h:273-290, as [flush_zeros] *)
Definition flush_zeros_on (sz : Z) (kappa : nat) (st : pstate) : pstate :=
  if negb (pd_zeros st =? 0) && (len_z (pd_digits st) <? Z.of_nat kappa) then
    let spare_digits := Z.of_nat kappa - len_z (pd_digits st) in
    let nonempty := negb (match pd_digits st with [] => true | _ => false end) in
    let zero_copy_count :=
      if nonempty then Z.min (pd_zeros st) spare_digits else pd_zeros st in
    let pow_gain_reduced :=
      if nonempty then Z.min (pd_pow_gain st) spare_digits else pd_pow_gain st in
    {| pd_digits := if nonempty
                    then pd_digits st ++ repeat 0 (Z.to_nat zero_copy_count)
                    else pd_digits st;
       pd_dot_set := pd_dot_set st; pd_sign_set := pd_sign_set st;
       pd_frac_calculated := pd_frac_calculated st;
       pd_pow_gain := wrap sz (pd_pow_gain st - pow_gain_reduced);
       pd_zeros := wrap sz (pd_zeros st - zero_copy_count);
       pd_fraction_count :=
         wrap sz (pd_fraction_count st + (zero_copy_count - pow_gain_reduced));
       pd_frac := pd_frac st; pd_special := pd_special st;
       pd_sign := pd_sign st; pd_pos := pd_pos st |}
  else st.

(** krosh.h:292-309, as [step_nonzero] *)
Definition step_nonzero_on (sz : Z) (kappa : nat) (s : list Z) (c : Z) (st0 : pstate) : res pstate :=
  let st := flush_zeros_on sz kappa st0 in
  if len_z (pd_digits st) <? Z.of_nat kappa then
    Ok {| pd_digits := pd_digits st ++ [c - ch_0]; pd_dot_set := pd_dot_set st;
          pd_sign_set := pd_sign_set st; pd_frac_calculated := pd_frac_calculated st;
          pd_pow_gain := pd_pow_gain st; pd_zeros := pd_zeros st;
          pd_fraction_count := wrap sz (pd_fraction_count st + b2z (pd_dot_set st));
          pd_frac := pd_frac st; pd_special := pd_special st;
          pd_sign := pd_sign st; pd_pos := pd_pos st |}
  else
    frac <-
      (if negb (pd_frac_calculated st) then
         let frac_suffix_size :=
           wrap sz (len_z (pd_digits st) + pd_zeros st - Z.of_nat kappa) in
         tail <- extract_fraction_digits_on sz fraction_decimal_digits s (pd_pos st - frac_suffix_size) ;;
         Ok (wrap 8 (convert_numerator fraction_decimal_digits fraction_binary_digits tail))
       else Ok (pd_frac st)) ;;
    Ok {| pd_digits := pd_digits st; pd_dot_set := pd_dot_set st;
          pd_sign_set := pd_sign_set st; pd_frac_calculated := true;
          pd_pow_gain := wrap sz (pd_pow_gain st + b2z (negb (pd_dot_set st)));
          pd_zeros := pd_zeros st; pd_fraction_count := pd_fraction_count st;
          pd_frac := frac; pd_special := pd_special st;
          pd_sign := pd_sign st; pd_pos := pd_pos st |}.

(** krosh.h:253-357, as [step_char] *)
Definition step_char_on (sz : Z) (kappa : nat) (s : list Z) (st : pstate) (c : Z) : res (pstate * bool) :=
  if c =? ch_0 then Ok (step_zero_on sz st, false)
  else if (49 <=? c) && (c <=? 57) then
    st' <- step_nonzero_on sz kappa s c st ;; Ok (st', false)
  else if c =? ch_dot then Ok (set_dot st, pd_dot_set st)
  else if (c =? ch_n) || (c =? ch_N) then
    if pd_pos st =? b2z (pd_sign_set st) then
      eaten <- eat_nan s (pd_pos st + 1) ;;
      let st1 := set_pos (pd_pos st + (eaten + 1)) st in
      Ok (if negb (eaten =? 0) then set_special sp_nan st1 else st1, true)
    else Ok (st, true)
  else if (c =? ch_i) || (c =? ch_I) then
    if pd_pos st =? b2z (pd_sign_set st) then
      eaten <- eat_inf s (pd_pos st + 1) ;;
      let st1 := set_pos (pd_pos st + (eaten + 1)) st in
      Ok (if negb (eaten =? 0) then set_special sp_inf st1 else st1, true)
    else Ok (st, true)
  else if (c =? ch_minus) || (c =? ch_plus) then
    if pd_pos st =? 0
    then Ok (set_sign (negb (ch_minus - c =? 0)) st, false)
    else Ok (st, true)
  else Ok (st, true).

(** krosh.h:250-362, as [parse_loop] *)
Fixpoint parse_loop_on (sz : Z) (kappa : nat) (s : list Z) (fuel : nat) (st : pstate) : res pstate :=
  match fuel with
  | O => Fault OutOfFuel
  | S n =>
      c <- read s (pd_pos st) ;;
      '(st1, go) <- step_char_on sz kappa s st c ;;
      let go := go || (maximum_offset <? pd_pos st1) in
      let st2 := set_pos (pd_pos st1 + 1) st1 in
      if go then Ok st2 else parse_loop_on sz kappa s n st2
  end.

(** krosh.h:231-372, as [parse_digits] *)
Definition parse_digits_on (sz : Z) (T : fmt) (s : list Z) : res digit_parse_result :=
  st <- parse_loop_on sz (decimal_q T) s parse_fuel pstate_init ;;
  value <- weighted_sum_on sz (fw T) (decimal_q T) (rev (pd_digits st)) 0 0 ;;
  Ok {| dp_value := value;
        dp_K := narrow_int (wrap sz (pd_pow_gain st - pd_fraction_count st));
        dp_str_end := pd_pos st - 1;
        dp_frac := pd_frac st;
        dp_special := pd_special st;
        dp_sign := pd_sign st |}.

(** krosh.h:430-447, as [round_mantissa] *)
Definition round_mantissa_on (sz : Z) (T : fmt) (w : diy) (frac : Z) : res diy :=
  if negb (frac =? 0) then
    assert_ (- Z.of_nat fraction_binary_digits <? m_e w) ;;;
    let lsb_pow := wrap sz (Z.of_nat fraction_binary_digits + m_e w) in
    fr <- shr 32 frac lsb_pow ;;
    let f := Z.lor (m_f w) fr in
    let w1 := mk_diy f (m_e w) in
    r <- round_up 8 frac lsb_pow ;;
    if rr_value r then diy_inc T w1 else Ok w1
  else Ok w.

(** krosh.h:413-454, as [parse_mantissa] *)
Definition parse_mantissa_on (sz : Z) (T : fmt) (s : list Z) : res mantissa_parse_result :=
  dp <- parse_digits_on sz T s ;;
  match dp_special dp with
  | sp_no =>
      let v := mk_diy (dp_value dp) 0 in
      v' <- (if negb (dp_value dp =? 0)
             then w <- normalize T v ;; round_mantissa_on sz T w (dp_frac dp)
             else Ok v) ;;
      Ok {| mp_value := v'; mp_K := dp_K dp; mp_str_end := dp_str_end dp;
            mp_special := dp_special dp; mp_sign := dp_sign dp |}
  | _ =>
      Ok {| mp_value := mk_diy 0 0; mp_K := 0; mp_str_end := dp_str_end dp;
            mp_special := dp_special dp; mp_sign := dp_sign dp |}
  end.

(** krosh.h:478-501, as [parse_exponent] *)
Definition parse_exponent_on (sz : Z) (s : list Z) : res (Z * Z) :=
  c <- read s 0 ;;
  if negb (c =? ch_e) && negb (c =? ch_E) then Ok (0, 0)
  else
    dp <- parse_digits_on sz single (skipn 1 s) ;;
    p <- seq_pow_on sz 10 exponent_decimal_digits (dp_K dp) ;;
    let v := narrow_int (wrap 32 (dp_value dp * p)) in
    v' <- (if negb (dp_sign dp) then sint (- v) else Ok v) ;;
    Ok (v', 1 + dp_str_end dp).

(** krosh.h:540-618, as [krosh] *)
Definition krosh_on (sz : Z) (T : fmt) (s : list Z) : res krosh_result :=
  mp <- parse_mantissa_on sz T s ;;
  match mp_special mp with
  | sp_no =>
      if negb (m_f (mp_value mp) =? 0) then
        '(ev, eend) <- parse_exponent_on sz (skipn (Z.to_nat (mp_str_end mp)) s) ;;
        let str_end := mp_str_end mp + eend in
        K <- sint (mp_K mp + ev) ;;
        let finish (w : diy) : res krosh_result :=
          w <- normalize T w ;;
          v <- downsample_on sz T w ;;
          Ok {| kr_value := apply_sign T (mp_sign mp) (ds_value v);
                kr_str_end := str_end; kr_status := ds_status v;
                kr_is_accurate := ds_is_accurate v |} in
        if negb (K =? 0) then
          let b1 := fpow_lo T <=? K in
          let b2 := K <=? fpow_hi T in
          if b1 && b2 then
            c <- cached_power T K ;;
            finish (diy_mul_on sz T (mp_value mp) c)
          else if negb b1 then
            Ok {| kr_value := 0; kr_str_end := str_end; kr_status := underflow;
                  kr_is_accurate := true |}
          else
            Ok {| kr_value := huge_value T; kr_str_end := str_end; kr_status := overflow;
                  kr_is_accurate := true |}
        else finish (mp_value mp)
      else
        Ok {| kr_value := apply_sign T (mp_sign mp) 0; kr_str_end := mp_str_end mp;
              kr_status := success; kr_is_accurate := true |}
  | sp_nan =>
      Ok {| kr_value := apply_sign T (mp_sign mp) (qnan_bits T); kr_str_end := mp_str_end mp;
            kr_status := success; kr_is_accurate := true |}
  | sp_inf =>
      Ok {| kr_value := apply_sign T (mp_sign mp) (inf_bits T); kr_str_end := mp_str_end mp;
            kr_status := success; kr_is_accurate := true |}
  end.

(** atof.h:94-126, as [atof] *)
Definition atof_on (sz : Z) (T : fmt) (s : list Z) (want_end : bool) (fb : fallback) (errno : Z)
    : res atof_result :=
  cr <- krosh_on sz T s ;;
  if negb (kr_str_end cr =? 0) then
    if kr_is_accurate cr then
      Ok {| at_value := kr_value cr; at_status := kr_status cr;
            at_str_end := if want_end then Some (kr_str_end cr) else None;
            at_errno := errno; at_used_fallback := false |}
    else
      r <- fb s errno ;;
      Ok {| at_value := fb_value r; at_status := check_errno T (fb_errno r) (fb_value r);
            at_str_end := if want_end then Some (fb_str_end r) else None;
            at_errno := fb_errno r; at_used_fallback := true |}
  else
    Ok {| at_value := 0; at_status := success;
          at_str_end := if want_end then Some (kr_str_end cr) else None;
          at_errno := errno; at_used_fallback := false |}.

(** atof.h:167-176, as [from_string] *)
Definition from_string_on (sz : Z) (T : fmt) (str : list Z) (fb : fallback) (errno : Z) : res atof_result :=
  atof_on sz T (str ++ [0]) false fb errno.

Lemma ftoa_on_64 : forall T v buf, ftoa_on 64 T v buf = ftoa T v buf.
Proof. reflexivity. Qed.
Lemma to_basic_string_on_64 : forall T v, to_basic_string_on 64 T v = to_basic_string T v.
Proof. reflexivity. Qed.
