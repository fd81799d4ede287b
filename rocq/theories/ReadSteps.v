(** Model of krosh.h and atof.h again, access by access (see Steps.v): the program is the sequence
    of its loads from the text. The definitions follow Krosh.v and Atof.v line by line with [read]
    replaced by a load; ReadStepsFacts.v proves that they do the same. [nan] is the limit of the
    one unbounded loop, over the characters of nan(...) (Krosh.v uses the length of the text). *)
From Verif Require Import Machine BitOps StaticPow Fraction Format DiyFp KComp Chars Krosh Atof Steps.
Open Scope Z_scope.

Definition load (i : Z) : prog Z := Load i (fun c => Done c).

(** krosh.h:73-77, as [nan_payload_end] *)
Fixpoint nan_payload_end_steps (at_ : Z) (fuel : nat) (cp : Z) : prog Z :=
  match fuel with
  | O => Broken OutOfFuel
  | S n =>
      let cp := cp + 1 in
      c <~ load (at_ + cp) ;;
      if is_nchar c then nan_payload_end_steps at_ n cp else Done cp
  end.

(** krosh.h:62-86, as [eat_nan] *)
Definition eat_nan_steps (nan : nat) (at_ p : Z) : prog Z :=
  c0 <~ load (at_ + p) ;;
  if (c0 =? ch_a) || (c0 =? ch_A) then
    c1 <~ load (at_ + (p + 1)) ;;
    if (c1 =? ch_n) || (c1 =? ch_N) then
      let cp := p + 2 in
      c2 <~ load (at_ + cp) ;;
      if c2 =? ch_lpar then
        cp <~ nan_payload_end_steps at_ nan cp ;;
        c3 <~ load (at_ + cp) ;;
        if c3 =? ch_rpar then Done (cp - p + 1) else Done 2
      else Done 2
    else Done 0
  else Done 0.

(** krosh.h:112-119, as [match_suffix] *)
Fixpoint match_suffix_steps (at_ : Z) (suffix : list Z) (cp : Z) : prog (option Z) :=
  match suffix with
  | [] => Done (Some cp)
  | x :: t =>
      c <~ load (at_ + cp) ;;
      if tolower c =? x then match_suffix_steps at_ t (cp + 1) else Done None
  end.

(** krosh.h:98-126, as [eat_inf] *)
Definition eat_inf_steps (at_ p : Z) : prog Z :=
  c0 <~ load (at_ + p) ;;
  if (c0 =? ch_n) || (c0 =? ch_N) then
    c1 <~ load (at_ + (p + 1)) ;;
    if (c1 =? ch_f) || (c1 =? ch_F) then
      let cp := p + 2 in
      c2 <~ load (at_ + cp) ;;
      if (c2 =? ch_i) || (c2 =? ch_I) then
        m <~ match_suffix_steps at_ [ch_n; ch_i; ch_t; ch_y] (cp + 1) ;;
        match m with
        | Some cp' => Done (cp' - p)
        | None => Done 2
        end
      else Done 2
    else Done 0
  else Done 0.

(** krosh.h:152-159, as [extract_loop] *)
Fixpoint extract_loop_steps (at_ p : Z) (kappa : nat) : prog (list Z) :=
  match kappa with
  | O => Done []
  | S k =>
      x <~ load (at_ + p) ;;
      let c := x - ch_0 in
      if (0 <=? c) && (c <=? 9)
      then t <~ extract_loop_steps at_ (p + 1) k ;; Done (c :: t)
      else Done (repeat 0 kappa)
  end.

(** krosh.h:144-167, as [extract_fraction_digits] *)
Definition extract_fraction_digits_steps (kappa : nat) (at_ p : Z) : prog Z :=
  ds <~ extract_loop_steps at_ p kappa ;;
  pure (weighted_sum 32 kappa (rev ds) 0 0).

(** krosh.h:292-309, as [step_nonzero] *)
Definition step_nonzero_steps (kappa : nat) (at_ : Z) (c : Z) (st0 : pstate) : prog pstate :=
  let st := flush_zeros kappa st0 in
  if len_z (pd_digits st) <? Z.of_nat kappa then
    Done {| pd_digits := pd_digits st ++ [c - ch_0]; pd_dot_set := pd_dot_set st;
          pd_sign_set := pd_sign_set st; pd_frac_calculated := pd_frac_calculated st;
          pd_pow_gain := pd_pow_gain st; pd_zeros := pd_zeros st;
          pd_fraction_count := wrap 64 (pd_fraction_count st + b2z (pd_dot_set st));
          pd_frac := pd_frac st; pd_special := pd_special st;
          pd_sign := pd_sign st; pd_pos := pd_pos st |}
  else
    frac <~
      (if negb (pd_frac_calculated st) then
         let frac_suffix_size :=
           wrap 64 (len_z (pd_digits st) + pd_zeros st - Z.of_nat kappa) in
         tail <~ extract_fraction_digits_steps fraction_decimal_digits at_ (pd_pos st - frac_suffix_size) ;;
         Done (wrap 8 (convert_numerator fraction_decimal_digits fraction_binary_digits tail))
       else Done (pd_frac st)) ;;
    Done {| pd_digits := pd_digits st; pd_dot_set := pd_dot_set st;
          pd_sign_set := pd_sign_set st; pd_frac_calculated := true;
          pd_pow_gain := wrap 64 (pd_pow_gain st + b2z (negb (pd_dot_set st)));
          pd_zeros := pd_zeros st; pd_fraction_count := pd_fraction_count st;
          pd_frac := frac; pd_special := pd_special st;
          pd_sign := pd_sign st; pd_pos := pd_pos st |}.

(** krosh.h:253-357, as [step_char] *)
Definition step_char_steps (nan kappa : nat) (at_ : Z) (st : pstate) (c : Z) : prog (pstate * bool) :=
  if c =? ch_0 then Done (step_zero st, false)
  else if (49 <=? c) && (c <=? 57) then
    st' <~ step_nonzero_steps kappa at_ c st ;; Done (st', false)
  else if c =? ch_dot then Done (set_dot st, pd_dot_set st)
  else if (c =? ch_n) || (c =? ch_N) then
    if pd_pos st =? b2z (pd_sign_set st) then
      eaten <~ eat_nan_steps nan at_ (pd_pos st + 1) ;;
      let st1 := set_pos (pd_pos st + (eaten + 1)) st in
      Done (if negb (eaten =? 0) then set_special sp_nan st1 else st1, true)
    else Done (st, true)
  else if (c =? ch_i) || (c =? ch_I) then
    if pd_pos st =? b2z (pd_sign_set st) then
      eaten <~ eat_inf_steps at_ (pd_pos st + 1) ;;
      let st1 := set_pos (pd_pos st + (eaten + 1)) st in
      Done (if negb (eaten =? 0) then set_special sp_inf st1 else st1, true)
    else Done (st, true)
  else if (c =? ch_minus) || (c =? ch_plus) then
    if pd_pos st =? 0
    then Done (set_sign (negb (ch_minus - c =? 0)) st, false)
    else Done (st, true)
  else Done (st, true).

(** krosh.h:250-362, as [parse_loop] *)
Fixpoint parse_loop_steps (nan kappa : nat) (at_ : Z) (fuel : nat) (st : pstate) : prog pstate :=
  match fuel with
  | O => Broken OutOfFuel
  | S n =>
      c <~ load (at_ + pd_pos st) ;;
      '(st1, go) <~ step_char_steps nan kappa at_ st c ;;
      let go := go || (maximum_offset <? pd_pos st1) in
      let st2 := set_pos (pd_pos st1 + 1) st1 in
      if go then Done st2 else parse_loop_steps nan kappa at_ n st2
  end.

(** krosh.h:231-372, as [parse_digits] *)
Definition parse_digits_steps (nan : nat) (T : fmt) (at_ : Z) : prog digit_parse_result :=
  st <~ parse_loop_steps nan (decimal_q T) at_ parse_fuel pstate_init ;;
  value <~ pure (weighted_sum (fw T) (decimal_q T) (rev (pd_digits st)) 0 0) ;;
  Done {| dp_value := value;
        dp_K := narrow_int (wrap 64 (pd_pow_gain st - pd_fraction_count st));
        dp_str_end := pd_pos st - 1;
        dp_frac := pd_frac st;
        dp_special := pd_special st;
        dp_sign := pd_sign st |}.

(** krosh.h:413-454, as [parse_mantissa] *)
Definition parse_mantissa_steps (nan : nat) (T : fmt) (at_ : Z) : prog mantissa_parse_result :=
  dp <~ parse_digits_steps nan T at_ ;;
  match dp_special dp with
  | sp_no =>
      let v := mk_diy (dp_value dp) 0 in
      v' <~ pure (if negb (dp_value dp =? 0)
             then w <- normalize T v ;; round_mantissa T w (dp_frac dp)
             else Ok v) ;;
      Done {| mp_value := v'; mp_K := dp_K dp; mp_str_end := dp_str_end dp;
            mp_special := dp_special dp; mp_sign := dp_sign dp |}
  | _ =>
      Done {| mp_value := mk_diy 0 0; mp_K := 0; mp_str_end := dp_str_end dp;
            mp_special := dp_special dp; mp_sign := dp_sign dp |}
  end.

(** krosh.h:478-501, as [parse_exponent]; [at_] is where the mantissa ends *)
Definition parse_exponent_steps (nan : nat) (at_ : Z) : prog (Z * Z) :=
  c <~ load (at_ + 0) ;;
  if negb (c =? ch_e) && negb (c =? ch_E) then Done (0, 0)
  else
    dp <~ parse_digits_steps nan single (at_ + 1) ;;
    p <~ pure (seq_pow 10 exponent_decimal_digits (dp_K dp)) ;;
    let v := narrow_int (wrap 32 (dp_value dp * p)) in
    v' <~ pure (if negb (dp_sign dp) then sint (- v) else Ok v) ;;
    Done (v', 1 + dp_str_end dp).

(** krosh.h:540-618, as [krosh] *)
Definition krosh_steps (nan : nat) (T : fmt) (at_ : Z) : prog krosh_result :=
  mp <~ parse_mantissa_steps nan T at_ ;;
  match mp_special mp with
  | sp_no =>
      if negb (m_f (mp_value mp) =? 0) then
        '(ev, eend) <~ parse_exponent_steps nan (at_ + mp_str_end mp) ;;
        let str_end := mp_str_end mp + eend in
        K <~ pure (sint (mp_K mp + ev)) ;;
        let finish (w : diy) : res krosh_result :=
          w <- normalize T w ;;
          v <- downsample T w ;;
          Ok {| kr_value := apply_sign T (mp_sign mp) (ds_value v);
                kr_str_end := str_end; kr_status := ds_status v;
                kr_is_accurate := ds_is_accurate v |} in
        if negb (K =? 0) then
          let b1 := fpow_lo T <=? K in
          let b2 := K <=? fpow_hi T in
          if b1 && b2 then
            c <~ pure (cached_power T K) ;;
            pure (finish (diy_mul T (mp_value mp) c))
          else if negb b1 then
            Done {| kr_value := 0; kr_str_end := str_end; kr_status := underflow;
                  kr_is_accurate := true |}
          else
            Done {| kr_value := huge_value T; kr_str_end := str_end; kr_status := overflow;
                  kr_is_accurate := true |}
        else pure (finish (mp_value mp))
      else
        Done {| kr_value := apply_sign T (mp_sign mp) 0; kr_str_end := mp_str_end mp;
              kr_status := success; kr_is_accurate := true |}
  | sp_nan =>
      Done {| kr_value := apply_sign T (mp_sign mp) (qnan_bits T); kr_str_end := mp_str_end mp;
            kr_status := success; kr_is_accurate := true |}
  | sp_inf =>
      Done {| kr_value := apply_sign T (mp_sign mp) (inf_bits T); kr_str_end := mp_str_end mp;
            kr_status := success; kr_is_accurate := true |}
  end.

(** atof.h:94-126, as [atof]; [fb] is the program of the fallback, [errno] that of the thread *)
Definition atof_steps (nan : nat) (T : fmt) (at_ : Z) (want_end : bool) (fb : Z -> Z -> prog fallback_result) (errno : Z) : prog atof_result :=
  cr <~ krosh_steps nan T at_ ;;
  if negb (kr_str_end cr =? 0) then
    if kr_is_accurate cr then
      Done {| at_value := kr_value cr; at_status := kr_status cr;
            at_str_end := if want_end then Some (kr_str_end cr) else None;
            at_errno := errno; at_used_fallback := false |}
    else
      r <~ fb at_ errno ;;
      Done {| at_value := fb_value r; at_status := check_errno T (fb_errno r) (fb_value r);
            at_str_end := if want_end then Some (fb_str_end r) else None;
            at_errno := fb_errno r; at_used_fallback := true |}
  else
    Done {| at_value := 0; at_status := success;
          at_str_end := if want_end then Some (kr_str_end cr) else None;
          at_errno := errno; at_used_fallback := false |}.
