(** Model of /repo/include/floaxie/krosh.h.  Texts are [list Z] (character codes from
    [str] on); pointers into the text are offsets ([Z]); every access is a
    bounds-checked [read]. *)
From Verif Require Import Machine BitOps StaticPow Fraction Format DiyFp KComp Chars.

(** krosh.h:37-49 constants *)
Definition decimal_q (T : fmt) : nat := fd10 T.
Definition fraction_binary_digits : nat := 7.
Definition fraction_decimal_digits : nat := 4.
Definition maximum_offset : Z := 2048.
Definition exponent_decimal_digits : nat := 3.

(** [std::tolower(c, std::locale())] in the "C" locale *)
Definition tolower (c : Z) : Z := if (65 <=? c) && (c <=? 90) then c + 32 else c.

(** krosh.h:73-77, the condition of the loop over the n-char-sequence *)
Definition is_nchar (c : Z) : bool :=
  ((ch_0 <=? c) && (c <=? ch_9))
  || ((ch_a <=? tolower c) && (tolower c <=? ch_z))
  || (c =? ch_under).

(** krosh.h:73-77 [do ++cp; while (...)]: returns the offset of the first
    character after [cp] that is no n-char.  Fuel: the text length. *)
Fixpoint nan_payload_end (s : list Z) (fuel : nat) (cp : Z) : res Z :=
  match fuel with
  | O => Fault OutOfFuel
  | S n =>
      let cp := cp + 1 in
      c <- read s cp ;;
      if is_nchar c then nan_payload_end s n cp else Ok cp
  end.

(** krosh.h:62-86 [eat_nan(str)]; [str] is the offset [p]. The second condition
    is evaluated only if the first holds. *)
Definition eat_nan (s : list Z) (p : Z) : res Z :=
  c0 <- read s p ;;
  if (c0 =? ch_a) || (c0 =? ch_A) then
    c1 <- read s (p + 1) ;;
    if (c1 =? ch_n) || (c1 =? ch_N) then
      let cp := p + 2 in
      c2 <- read s cp ;;
      if c2 =? ch_lpar then
        cp <- nan_payload_end s (S (length s)) cp ;;
        c3 <- read s cp ;;
        if c3 =? ch_rpar then Ok (cp - p + 1) else Ok 2
      else Ok 2
    else Ok 0
  else Ok 0.

(** krosh.h:112-119, the loop comparing with the suffix "nity": [Some cp] if the whole
    suffix was matched. *)
Fixpoint match_suffix (s : list Z) (suffix : list Z) (cp : Z) : res (option Z) :=
  match suffix with
  | [] => Ok (Some cp)
  | x :: t =>
      c <- read s cp ;;
      if tolower c =? x then match_suffix s t (cp + 1) else Ok None
  end.

(** krosh.h:98-126 [eat_inf(str)] *)
Definition eat_inf (s : list Z) (p : Z) : res Z :=
  c0 <- read s p ;;
  if (c0 =? ch_n) || (c0 =? ch_N) then
    c1 <- read s (p + 1) ;;
    if (c1 =? ch_f) || (c1 =? ch_F) then
      let cp := p + 2 in
      c2 <- read s cp ;;
      if (c2 =? ch_i) || (c2 =? ch_I) then
        m <- match_suffix s [ch_n; ch_i; ch_t; ch_y] (cp + 1) ;;
        match m with
        | Some cp' => Ok (cp' - p)
        | None => Ok 2
        end
      else Ok 2
    else Ok 0
  else Ok 0.

(** krosh.h:152-159, the loop filling [parsed_digits] ([kappa] zero-initialised cells,
    break at the first non-digit). *)
Fixpoint extract_loop (s : list Z) (p : Z) (kappa : nat) : res (list Z) :=
  match kappa with
  | O => Ok []
  | S k =>
      x <- read s p ;;
      let c := x - ch_0 in
      if (0 <=? c) && (c <=? 9)
      then t <- extract_loop s (p + 1) k ;; Ok (c :: t)
      else Ok (repeat 0 kappa)
  end.

(** krosh.h:161-164 and 364-366: [sum += digit * seq_pow(pow++)] over the reversed
    digit list, in unsigned arithmetic of width [w]. *)
Fixpoint weighted_sum (w : Z) (max_pow : nat) (rev_digits : list Z) (pow acc : Z) : res Z :=
  match rev_digits with
  | [] => Ok acc
  | d :: t =>
      p <- seq_pow 10 max_pow pow ;;
      weighted_sum w max_pow t (pow + 1) (wrap w (acc + wrap w (d * p)))
  end.

(** krosh.h:144-167 [extract_fraction_digits<kappa>(str)] *)
Definition extract_fraction_digits (kappa : nat) (s : list Z) (p : Z) : res Z :=
  ds <- extract_loop s p kappa ;;
  weighted_sum 32 kappa (rev ds) 0 0.

(** krosh.h:170-178 *)
Inductive speciality := sp_no | sp_nan | sp_inf.

(** The local variables of [parse_digits] (krosh.h:234-249) that live across loop
    iterations; [pd_sign], [pd_frac], [pd_special] are members of [ret]. *)
Record pstate := {
  pd_digits : list Z;         (* parsed_digits *)
  pd_dot_set : bool;
  pd_sign_set : bool;
  pd_frac_calculated : bool;
  pd_pow_gain : Z;
  pd_zeros : Z;               (* zero_substring_length *)
  pd_fraction_count : Z;      (* fraction_digits_count *)
  pd_frac : Z;
  pd_special : speciality;
  pd_sign : bool;
  pd_pos : Z }.

Definition pstate_init : pstate := {|
  pd_digits := []; pd_dot_set := false; pd_sign_set := false;
  pd_frac_calculated := false; pd_pow_gain := 0; pd_zeros := 0;
  pd_fraction_count := 0; pd_frac := 0; pd_special := sp_no;
  pd_sign := true; pd_pos := 0 |}.

Definition len_z (l : list Z) : Z := Z.of_nat (length l).

(** krosh.h:256-262 [case '0'] *)
Definition step_zero (st : pstate) : pstate :=
  if negb (match pd_digits st with [] => true | _ => false end) || pd_dot_set st then
    {| pd_digits := pd_digits st; pd_dot_set := pd_dot_set st;
       pd_sign_set := pd_sign_set st; pd_frac_calculated := pd_frac_calculated st;
       pd_pow_gain := wrap 64 (pd_pow_gain st + b2z (negb (pd_dot_set st)));
       pd_zeros := wrap 64 (pd_zeros st + 1);
       pd_fraction_count := pd_fraction_count st; pd_frac := pd_frac st;
       pd_special := pd_special st; pd_sign := pd_sign st; pd_pos := pd_pos st |}
  else st.

(** krosh.h:273-290, first half of [case '1'..'9']: flush pending zeros *)
Definition flush_zeros (kappa : nat) (st : pstate) : pstate :=
  if negb (pd_zeros st =? 0) && (len_z (pd_digits st) <? Z.of_nat kappa) then
    let spare_digits := Z.of_nat kappa - len_z (pd_digits st) in
    let nonempty := negb (match pd_digits st with [] => true | _ => false end) in
    let zero_copy_count :=
      if nonempty then Z.min (pd_zeros st) spare_digits else pd_zeros st in
    let pow_gain_reduced :=
      if nonempty then Z.min (pd_pow_gain st) spare_digits else pd_pow_gain st in
    {| pd_digits := if nonempty
                    then pd_digits st ++ repeat 0 (Z.to_nat zero_copy_count)
                    else pd_digits st;
       pd_dot_set := pd_dot_set st; pd_sign_set := pd_sign_set st;
       pd_frac_calculated := pd_frac_calculated st;
       pd_pow_gain := wrap 64 (pd_pow_gain st - pow_gain_reduced);
       pd_zeros := wrap 64 (pd_zeros st - zero_copy_count);
       pd_fraction_count :=
         wrap 64 (pd_fraction_count st + (zero_copy_count - pow_gain_reduced));
       pd_frac := pd_frac st; pd_special := pd_special st;
       pd_sign := pd_sign st; pd_pos := pd_pos st |}
  else st.

(** krosh.h:292-309, second half of [case '1'..'9'] for the character [c] *)
Definition step_nonzero (kappa : nat) (s : list Z) (c : Z) (st0 : pstate) : res pstate :=
  let st := flush_zeros kappa st0 in
  if len_z (pd_digits st) <? Z.of_nat kappa then
    Ok {| pd_digits := pd_digits st ++ [c - ch_0]; pd_dot_set := pd_dot_set st;
          pd_sign_set := pd_sign_set st; pd_frac_calculated := pd_frac_calculated st;
          pd_pow_gain := pd_pow_gain st; pd_zeros := pd_zeros st;
          pd_fraction_count := wrap 64 (pd_fraction_count st + b2z (pd_dot_set st));
          pd_frac := pd_frac st; pd_special := pd_special st;
          pd_sign := pd_sign st; pd_pos := pd_pos st |}
  else
    frac <-
      (if negb (pd_frac_calculated st) then
         let frac_suffix_size :=
           wrap 64 (len_z (pd_digits st) + pd_zeros st - Z.of_nat kappa) in
         tail <- extract_fraction_digits fraction_decimal_digits s (pd_pos st - frac_suffix_size) ;;
         Ok (wrap 8 (convert_numerator fraction_decimal_digits fraction_binary_digits tail))
       else Ok (pd_frac st)) ;;
    Ok {| pd_digits := pd_digits st; pd_dot_set := pd_dot_set st;
          pd_sign_set := pd_sign_set st; pd_frac_calculated := true;
          pd_pow_gain := wrap 64 (pd_pow_gain st + b2z (negb (pd_dot_set st)));
          pd_zeros := pd_zeros st; pd_fraction_count := pd_fraction_count st;
          pd_frac := frac; pd_special := pd_special st;
          pd_sign := pd_sign st; pd_pos := pd_pos st |}.

(** field updates used below *)
Definition set_dot (st : pstate) : pstate :=
  {| pd_digits := pd_digits st; pd_dot_set := true; pd_sign_set := pd_sign_set st;
     pd_frac_calculated := pd_frac_calculated st; pd_pow_gain := pd_pow_gain st;
     pd_zeros := pd_zeros st; pd_fraction_count := pd_fraction_count st;
     pd_frac := pd_frac st; pd_special := pd_special st; pd_sign := pd_sign st;
     pd_pos := pd_pos st |}.
Definition set_sign (b : bool) (st : pstate) : pstate :=
  {| pd_digits := pd_digits st; pd_dot_set := pd_dot_set st; pd_sign_set := true;
     pd_frac_calculated := pd_frac_calculated st; pd_pow_gain := pd_pow_gain st;
     pd_zeros := pd_zeros st; pd_fraction_count := pd_fraction_count st;
     pd_frac := pd_frac st; pd_special := pd_special st; pd_sign := b;
     pd_pos := pd_pos st |}.
Definition set_pos (p : Z) (st : pstate) : pstate :=
  {| pd_digits := pd_digits st; pd_dot_set := pd_dot_set st; pd_sign_set := pd_sign_set st;
     pd_frac_calculated := pd_frac_calculated st; pd_pow_gain := pd_pow_gain st;
     pd_zeros := pd_zeros st; pd_fraction_count := pd_fraction_count st;
     pd_frac := pd_frac st; pd_special := pd_special st; pd_sign := pd_sign st;
     pd_pos := p |}.
Definition set_special (x : speciality) (st : pstate) : pstate :=
  {| pd_digits := pd_digits st; pd_dot_set := pd_dot_set st; pd_sign_set := pd_sign_set st;
     pd_frac_calculated := pd_frac_calculated st; pd_pow_gain := pd_pow_gain st;
     pd_zeros := pd_zeros st; pd_fraction_count := pd_fraction_count st;
     pd_frac := pd_frac st; pd_special := x; pd_sign := pd_sign st;
     pd_pos := pd_pos st |}.

(** krosh.h:253-357, the switch on the current character: new state and
    [go_to_beach]. *)
Definition step_char (kappa : nat) (s : list Z) (st : pstate) (c : Z) : res (pstate * bool) :=
  if c =? ch_0 then Ok (step_zero st, false)
  else if (49 <=? c) && (c <=? 57) then
    st' <- step_nonzero kappa s c st ;; Ok (st', false)
  else if c =? ch_dot then Ok (set_dot st, pd_dot_set st)
  else if (c =? ch_n) || (c =? ch_N) then
    if pd_pos st =? b2z (pd_sign_set st) then
      eaten <- eat_nan s (pd_pos st + 1) ;;
      let st1 := set_pos (pd_pos st + (eaten + 1)) st in
      Ok (if negb (eaten =? 0) then set_special sp_nan st1 else st1, true)
    else Ok (st, true)
  else if (c =? ch_i) || (c =? ch_I) then
    if pd_pos st =? b2z (pd_sign_set st) then
      eaten <- eat_inf s (pd_pos st + 1) ;;
      let st1 := set_pos (pd_pos st + (eaten + 1)) st in
      Ok (if negb (eaten =? 0) then set_special sp_inf st1 else st1, true)
    else Ok (st, true)
  else if (c =? ch_minus) || (c =? ch_plus) then
    if pd_pos st =? 0
    then Ok (set_sign (negb (ch_minus - c =? 0)) st, false)
    else Ok (st, true)
  else Ok (st, true).

(** krosh.h:250-362 the loop [while (!go_to_beach)].  At most
    [maximum_offset + 2] iterations. *)
Fixpoint parse_loop (kappa : nat) (s : list Z) (fuel : nat) (st : pstate) : res pstate :=
  match fuel with
  | O => Fault OutOfFuel
  | S n =>
      c <- read s (pd_pos st) ;;
      '(st1, go) <- step_char kappa s st c ;;
      let go := go || (maximum_offset <? pd_pos st1) in
      let st2 := set_pos (pd_pos st1 + 1) st1 in
      if go then Ok st2 else parse_loop kappa s n st2
  end.

(** krosh.h:186-210 [digit_parse_result] *)
Record digit_parse_result := {
  dp_value : Z; dp_K : Z; dp_str_end : Z; dp_frac : Z;
  dp_special : speciality; dp_sign : bool }.

Definition parse_fuel : nat := Z.to_nat (maximum_offset + 3).

(** krosh.h:231-372 [parse_digits<FloatType>(str)] *)
Definition parse_digits (T : fmt) (s : list Z) : res digit_parse_result :=
  st <- parse_loop (decimal_q T) s parse_fuel pstate_init ;;
  value <- weighted_sum (fw T) (decimal_q T) (rev (pd_digits st)) 0 0 ;;
  Ok {| dp_value := value;
        dp_K := narrow_int (wrap 64 (pd_pow_gain st - pd_fraction_count st));
        dp_str_end := pd_pos st - 1;
        dp_frac := pd_frac st;
        dp_special := pd_special st;
        dp_sign := pd_sign st |}.

(** krosh.h:379-395 [mantissa_parse_result].  [value] and [K] are left
    uninitialised by the code for special values and are not read then; the
    model stores zeros. *)
Record mantissa_parse_result := {
  mp_value : diy; mp_K : Z; mp_str_end : Z;
  mp_special : speciality; mp_sign : bool }.

(** krosh.h:430-447 rounding by the binary fraction [frac] (an unsigned char) *)
Definition round_mantissa (T : fmt) (w : diy) (frac : Z) : res diy :=
  if negb (frac =? 0) then
    assert_ (- Z.of_nat fraction_binary_digits <? m_e w) ;;;
    let lsb_pow := wrap 64 (Z.of_nat fraction_binary_digits + m_e w) in
    fr <- shr 32 frac lsb_pow ;;
    let f := Z.lor (m_f w) fr in
    let w1 := mk_diy f (m_e w) in
    r <- round_up 8 frac lsb_pow ;;
    if rr_value r then diy_inc T w1 else Ok w1
  else Ok w.

(** krosh.h:413-454 [parse_mantissa<FloatType>(str)] *)
Definition parse_mantissa (T : fmt) (s : list Z) : res mantissa_parse_result :=
  dp <- parse_digits T s ;;
  match dp_special dp with
  | sp_no =>
      let v := mk_diy (dp_value dp) 0 in
      v' <- (if negb (dp_value dp =? 0)
             then w <- normalize T v ;; round_mantissa T w (dp_frac dp)
             else Ok v) ;;
      Ok {| mp_value := v'; mp_K := dp_K dp; mp_str_end := dp_str_end dp;
            mp_special := dp_special dp; mp_sign := dp_sign dp |}
  | _ =>
      Ok {| mp_value := mk_diy 0 0; mp_K := 0; mp_str_end := dp_str_end dp;
            mp_special := dp_special dp; mp_sign := dp_sign dp |}
  end.

(** krosh.h:478-501 [parse_exponent(str)]; [s] is the text from the end of the
    mantissa on.  Returns ([value], [str_end] relative to [s]).
    [digit_parts.value] is a std::uint32_t, so the product is 32-bit unsigned
    and is then converted to [int]. *)
Definition parse_exponent (s : list Z) : res (Z * Z) :=
  c <- read s 0 ;;
  if negb (c =? ch_e) && negb (c =? ch_E) then Ok (0, 0)
  else
    dp <- parse_digits single (skipn 1 s) ;;
    p <- seq_pow 10 exponent_decimal_digits (dp_K dp) ;;
    let v := narrow_int (wrap 32 (dp_value dp * p)) in
    v' <- (if negb (dp_sign dp) then sint (- v) else Ok v) ;;
    Ok (v', 1 + dp_str_end dp).

(** krosh.h:509-524 [krosh_result]; the value is given by its bits *)
Record krosh_result := {
  kr_value : Z; kr_str_end : Z; kr_status : conversion_status; kr_is_accurate : bool }.

(** krosh.h:614-615 [if (!mp.sign) ret.value = -ret.value] *)
Definition apply_sign (T : fmt) (sign : bool) (v : Z) : Z :=
  if negb sign then neg_bits T v else v.

(** krosh.h:540-618 [krosh<FloatType>(str)] *)
Definition krosh (T : fmt) (s : list Z) : res krosh_result :=
  mp <- parse_mantissa T s ;;
  match mp_special mp with
  | sp_no =>
      if negb (m_f (mp_value mp) =? 0) then
        '(ev, eend) <- parse_exponent (skipn (Z.to_nat (mp_str_end mp)) s) ;;
        let str_end := mp_str_end mp + eend in
        K <- sint (mp_K mp + ev) ;;
        let finish (w : diy) : res krosh_result :=
          w <- normalize T w ;;
          v <- downsample T w ;;
          Ok {| kr_value := apply_sign T (mp_sign mp) (ds_value v);
                kr_str_end := str_end; kr_status := ds_status v;
                kr_is_accurate := ds_is_accurate v |} in
        if negb (K =? 0) then
          let b1 := fpow_lo T <=? K in
          let b2 := K <=? fpow_hi T in
          if b1 && b2 then
            c <- cached_power T K ;;
            finish (diy_mul T (mp_value mp) c)
          else if negb b1 then
            Ok {| kr_value := 0; kr_str_end := str_end; kr_status := underflow;
                  kr_is_accurate := true |}
          else
            Ok {| kr_value := huge_value T; kr_str_end := str_end; kr_status := overflow;
                  kr_is_accurate := true |}
        else finish (mp_value mp)
      else
        Ok {| kr_value := apply_sign T (mp_sign mp) 0; kr_str_end := mp_str_end mp;
              kr_status := success; kr_is_accurate := true |}
  | sp_nan =>
      Ok {| kr_value := apply_sign T (mp_sign mp) (qnan_bits T); kr_str_end := mp_str_end mp;
            kr_status := success; kr_is_accurate := true |}
  | sp_inf =>
      Ok {| kr_value := apply_sign T (mp_sign mp) (inf_bits T); kr_str_end := mp_str_end mp;
            kr_status := success; kr_is_accurate := true |}
  end.
