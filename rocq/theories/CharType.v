(** Model of krosh.h and atof.h again for every character type. Copies of the definitions of Krosh.v and Atof.v;
    the one place where the type of the characters matters is the subtraction of krosh.h:154 (comparisons with ASCII
    characters give the same in every type, and the subtraction of krosh.h:294 is only reached for digits). *)
From Verif Require Import Machine BitOps StaticPow Fraction Format DiyFp KComp Chars Krosh Atof.
Open Scope Z_scope.

(** A character type: an integer type of [ct_width] bits. *)
Record chartype := { ct_signed : bool; ct_width : Z }.
Definition ct_char : chartype := {| ct_signed := true; ct_width := 8 |}.    (* x86 *)
Definition ct_uchar : chartype := {| ct_signed := false; ct_width := 8 |}.  (* ARM *)
Definition ct_wchar : chartype := {| ct_signed := true; ct_width := 32 |}.  (* Linux on x86 *)
Definition ct_uwchar : chartype := {| ct_signed := false; ct_width := 32 |}. (* Linux on ARM; also char32_t *)
Definition ct_wchar16 : chartype := {| ct_signed := false; ct_width := 16 |}. (* Windows; also char16_t *)

(** krosh.h:154 [str[pos] - '0']: types narrower than [int] and [int] itself are promoted to [int], where
    overflow is undefined; an [unsigned int] wraps *)
Definition minus_0 (ct : chartype) (x : Z) : res Z :=
  if negb (ct_signed ct) && (32 <=? ct_width ct) then Ok (wrap (ct_width ct) (x - ch_0)) else sint (x - ch_0).

(** krosh.h:152-159, as [extract_loop] *)
Fixpoint extract_loop_ct (ct : chartype) (s : list Z) (p : Z) (kappa : nat) : res (list Z) :=
  match kappa with
  | O => Ok []
  | S k =>
      x <- read s p ;;
      c <- minus_0 ct x ;;
      if (0 <=? c) && (c <=? 9)
      then t <- extract_loop_ct ct s (p + 1) k ;; Ok (c :: t)
      else Ok (repeat 0 kappa)
  end.

(** krosh.h:144-167, as [extract_fraction_digits] *)
Definition extract_fraction_digits_ct (ct : chartype) (kappa : nat) (s : list Z) (p : Z) : res Z :=
  ds <- extract_loop_ct ct s p kappa ;;
  weighted_sum 32 kappa (rev ds) 0 0.

(** krosh.h:292-309, as [step_nonzero] *)
Definition step_nonzero_ct (ct : chartype) (kappa : nat) (s : list Z) (c : Z) (st0 : pstate) : res pstate :=
  let st := flush_zeros kappa st0 in
  if len_z (pd_digits st) <? Z.of_nat kappa then
    Ok {| pd_digits := pd_digits st ++ [c - ch_0]; pd_dot_set := pd_dot_set st;
          pd_sign_set := pd_sign_set st; pd_frac_calculated := pd_frac_calculated st;
          pd_pow_gain := pd_pow_gain st; pd_zeros := pd_zeros st;
          pd_fraction_count := wrap 64 (pd_fraction_count st + b2z (pd_dot_set st));
          pd_frac := pd_frac st; pd_special := pd_special st;
          pd_sign := pd_sign st; pd_pos := pd_pos st |}
  else
    frac <-
      (if negb (pd_frac_calculated st) then
         let frac_suffix_size :=
           wrap 64 (len_z (pd_digits st) + pd_zeros st - Z.of_nat kappa) in
         tail <- extract_fraction_digits_ct ct fraction_decimal_digits s (pd_pos st - frac_suffix_size) ;;
         Ok (wrap 8 (convert_numerator fraction_decimal_digits fraction_binary_digits tail))
       else Ok (pd_frac st)) ;;
    Ok {| pd_digits := pd_digits st; pd_dot_set := pd_dot_set st;
          pd_sign_set := pd_sign_set st; pd_frac_calculated := true;
          pd_pow_gain := wrap 64 (pd_pow_gain st + b2z (negb (pd_dot_set st)));
          pd_zeros := pd_zeros st; pd_fraction_count := pd_fraction_count st;
          pd_frac := frac; pd_special := pd_special st;
          pd_sign := pd_sign st; pd_pos := pd_pos st |}.

(** krosh.h:253-357, as [step_char] *)
Definition step_char_ct (ct : chartype) (kappa : nat) (s : list Z) (st : pstate) (c : Z) : res (pstate * bool) :=
  if c =? ch_0 then Ok (step_zero st, false)
  else if (49 <=? c) && (c <=? 57) then
    st' <- step_nonzero_ct ct kappa s c st ;; Ok (st', false)
  else if c =? ch_dot then Ok (set_dot st, pd_dot_set st)
  else if (c =? ch_n) || (c =? ch_N) then
    if pd_pos st =? b2z (pd_sign_set st) then
      eaten <- eat_nan s (pd_pos st + 1) ;;
      let st1 := set_pos (pd_pos st + (eaten + 1)) st in
      Ok (if negb (eaten =? 0) then set_special sp_nan st1 else st1, true)
    else Ok (st, true)
  else if (c =? ch_i) || (c =? ch_I) then
    if pd_pos st =? b2z (pd_sign_set st) then
      eaten <- eat_inf s (pd_pos st + 1) ;;
      let st1 := set_pos (pd_pos st + (eaten + 1)) st in
      Ok (if negb (eaten =? 0) then set_special sp_inf st1 else st1, true)
    else Ok (st, true)
  else if (c =? ch_minus) || (c =? ch_plus) then
    if pd_pos st =? 0
    then Ok (set_sign (negb (ch_minus - c =? 0)) st, false)
    else Ok (st, true)
  else Ok (st, true).

(** krosh.h:250-362, as [parse_loop] *)
Fixpoint parse_loop_ct (ct : chartype) (kappa : nat) (s : list Z) (fuel : nat) (st : pstate) : res pstate :=
  match fuel with
  | O => Fault OutOfFuel
  | S n =>
      c <- read s (pd_pos st) ;;
      '(st1, go) <- step_char_ct ct kappa s st c ;;
      let go := go || (maximum_offset <? pd_pos st1) in
      let st2 := set_pos (pd_pos st1 + 1) st1 in
      if go then Ok st2 else parse_loop_ct ct kappa s n st2
  end.

(** krosh.h:231-372, as [parse_digits] *)
Definition parse_digits_ct (ct : chartype) (T : fmt) (s : list Z) : res digit_parse_result :=
  st <- parse_loop_ct ct (decimal_q T) s parse_fuel pstate_init ;;
  value <- weighted_sum (fw T) (decimal_q T) (rev (pd_digits st)) 0 0 ;;
  Ok {| dp_value := value;
        dp_K := narrow_int (wrap 64 (pd_pow_gain st - pd_fraction_count st));
        dp_str_end := pd_pos st - 1;
        dp_frac := pd_frac st;
        dp_special := pd_special st;
        dp_sign := pd_sign st |}.

(** krosh.h:413-454, as [parse_mantissa] *)
Definition parse_mantissa_ct (ct : chartype) (T : fmt) (s : list Z) : res mantissa_parse_result :=
  dp <- parse_digits_ct ct T s ;;
  match dp_special dp with
  | sp_no =>
      let v := mk_diy (dp_value dp) 0 in
      v' <- (if negb (dp_value dp =? 0)
             then w <- normalize T v ;; round_mantissa T w (dp_frac dp)
             else Ok v) ;;
      Ok {| mp_value := v'; mp_K := dp_K dp; mp_str_end := dp_str_end dp;
            mp_special := dp_special dp; mp_sign := dp_sign dp |}
  | _ =>
      Ok {| mp_value := mk_diy 0 0; mp_K := 0; mp_str_end := dp_str_end dp;
            mp_special := dp_special dp; mp_sign := dp_sign dp |}
  end.

(** krosh.h:478-501, as [parse_exponent] *)
Definition parse_exponent_ct (ct : chartype) (s : list Z) : res (Z * Z) :=
  c <- read s 0 ;;
  if negb (c =? ch_e) && negb (c =? ch_E) then Ok (0, 0)
  else
    dp <- parse_digits_ct ct single (skipn 1 s) ;;
    p <- seq_pow 10 exponent_decimal_digits (dp_K dp) ;;
    let v := narrow_int (wrap 32 (dp_value dp * p)) in
    v' <- (if negb (dp_sign dp) then sint (- v) else Ok v) ;;
    Ok (v', 1 + dp_str_end dp).

(** krosh.h:540-618, as [krosh] *)
Definition krosh_ct (ct : chartype) (T : fmt) (s : list Z) : res krosh_result :=
  mp <- parse_mantissa_ct ct T s ;;
  match mp_special mp with
  | sp_no =>
      if negb (m_f (mp_value mp) =? 0) then
        '(ev, eend) <- parse_exponent_ct ct (skipn (Z.to_nat (mp_str_end mp)) s) ;;
        let str_end := mp_str_end mp + eend in
        K <- sint (mp_K mp + ev) ;;
        let finish (w : diy) : res krosh_result :=
          w <- normalize T w ;;
          v <- downsample T w ;;
          Ok {| kr_value := apply_sign T (mp_sign mp) (ds_value v);
                kr_str_end := str_end; kr_status := ds_status v;
                kr_is_accurate := ds_is_accurate v |} in
        if negb (K =? 0) then
          let b1 := fpow_lo T <=? K in
          let b2 := K <=? fpow_hi T in
          if b1 && b2 then
            c <- cached_power T K ;;
            finish (diy_mul T (mp_value mp) c)
          else if negb b1 then
            Ok {| kr_value := 0; kr_str_end := str_end; kr_status := underflow;
                  kr_is_accurate := true |}
          else
            Ok {| kr_value := huge_value T; kr_str_end := str_end; kr_status := overflow;
                  kr_is_accurate := true |}
        else finish (mp_value mp)
      else
        Ok {| kr_value := apply_sign T (mp_sign mp) 0; kr_str_end := mp_str_end mp;
              kr_status := success; kr_is_accurate := true |}
  | sp_nan =>
      Ok {| kr_value := apply_sign T (mp_sign mp) (qnan_bits T); kr_str_end := mp_str_end mp;
            kr_status := success; kr_is_accurate := true |}
  | sp_inf =>
      Ok {| kr_value := apply_sign T (mp_sign mp) (inf_bits T); kr_str_end := mp_str_end mp;
            kr_status := success; kr_is_accurate := true |}
  end.

(** atof.h:94-126, as [atof] *)
Definition atof_ct (ct : chartype) (T : fmt) (s : list Z) (want_end : bool) (fb : fallback) (errno : Z)
    : res atof_result :=
  cr <- krosh_ct ct T s ;;
  if negb (kr_str_end cr =? 0) then
    if kr_is_accurate cr then
      Ok {| at_value := kr_value cr; at_status := kr_status cr;
            at_str_end := if want_end then Some (kr_str_end cr) else None;
            at_errno := errno; at_used_fallback := false |}
    else
      r <- fb s errno ;;
      Ok {| at_value := fb_value r; at_status := check_errno T (fb_errno r) (fb_value r);
            at_str_end := if want_end then Some (fb_str_end r) else None;
            at_errno := fb_errno r; at_used_fallback := true |}
  else
    Ok {| at_value := 0; at_status := success;
          at_str_end := if want_end then Some (kr_str_end cr) else None;
          at_errno := errno; at_used_fallback := false |}.

(** atof.h:167-176, as [from_string] *)
Definition from_string_ct (ct : chartype) (T : fmt) (str : list Z) (fb : fallback) (errno : Z) : res atof_result :=
  atof_ct ct T (str ++ [0]) false fb errno.

