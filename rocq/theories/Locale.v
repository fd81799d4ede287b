(** Model of krosh.h and atof.h with any locale: [std::tolower(c, std::locale())] looks at the
    global locale; here it is a parameter [lower].  For [tolower], the "C" locale, the definitions
    are those of Krosh.v and Atof.v (proved below by computation). *)
From Verif Require Import Machine BitOps StaticPow Fraction Format DiyFp KComp Chars Krosh Atof.

(** krosh.h:73-77, as [is_nchar] *)
Definition is_nchar_in (lower : Z -> Z) (c : Z) : bool :=
  ((ch_0 <=? c) && (c <=? ch_9))
  || ((ch_a <=? lower c) && (lower c <=? ch_z))
  || (c =? ch_under).

(** krosh.h:73-77, as [nan_payload_end] *)
Fixpoint nan_payload_end_in (lower : Z -> Z) (s : list Z) (fuel : nat) (cp : Z) : res Z :=
  match fuel with
  | O => Fault OutOfFuel
  | S n =>
      let cp := cp + 1 in
      c <- read s cp ;;
      if is_nchar_in lower c then nan_payload_end_in lower s n cp else Ok cp
  end.

(** krosh.h:62-86, as [eat_nan] *)
Definition eat_nan_in (lower : Z -> Z) (s : list Z) (p : Z) : res Z :=
  c0 <- read s p ;;
  if (c0 =? ch_a) || (c0 =? ch_A) then
    c1 <- read s (p + 1) ;;
    if (c1 =? ch_n) || (c1 =? ch_N) then
      let cp := p + 2 in
      c2 <- read s cp ;;
      if c2 =? ch_lpar then
        cp <- nan_payload_end_in lower s (S (length s)) cp ;;
        c3 <- read s cp ;;
        if c3 =? ch_rpar then Ok (cp - p + 1) else Ok 2
      else Ok 2
    else Ok 0
  else Ok 0.

(** krosh.h:112-119, as [match_suffix] *)
Fixpoint match_suffix_in (lower : Z -> Z) (s : list Z) (suffix : list Z) (cp : Z) : res (option Z) :=
  match suffix with
  | [] => Ok (Some cp)
  | x :: t =>
      c <- read s cp ;;
      if lower c =? x then match_suffix_in lower s t (cp + 1) else Ok None
  end.

(** krosh.h:98-126, as [eat_inf] *)
Definition eat_inf_in (lower : Z -> Z) (s : list Z) (p : Z) : res Z :=
  c0 <- read s p ;;
  if (c0 =? ch_n) || (c0 =? ch_N) then
    c1 <- read s (p + 1) ;;
    if (c1 =? ch_f) || (c1 =? ch_F) then
      let cp := p + 2 in
      c2 <- read s cp ;;
      if (c2 =? ch_i) || (c2 =? ch_I) then
        m <- match_suffix_in lower s [ch_n; ch_i; ch_t; ch_y] (cp + 1) ;;
        match m with
        | Some cp' => Ok (cp' - p)
        | None => Ok 2
        end
      else Ok 2
    else Ok 0
  else Ok 0.

(** krosh.h:253-357, as [step_char] *)
Definition step_char_in (lower : Z -> Z) (kappa : nat) (s : list Z) (st : pstate) (c : Z) : res (pstate * bool) :=
  if c =? ch_0 then Ok (step_zero st, false)
  else if (49 <=? c) && (c <=? 57) then
    st' <- step_nonzero kappa s c st ;; Ok (st', false)
  else if c =? ch_dot then Ok (set_dot st, pd_dot_set st)
  else if (c =? ch_n) || (c =? ch_N) then
    if pd_pos st =? b2z (pd_sign_set st) then
      eaten <- eat_nan_in lower s (pd_pos st + 1) ;;
      let st1 := set_pos (pd_pos st + (eaten + 1)) st in
      Ok (if negb (eaten =? 0) then set_special sp_nan st1 else st1, true)
    else Ok (st, true)
  else if (c =? ch_i) || (c =? ch_I) then
    if pd_pos st =? b2z (pd_sign_set st) then
      eaten <- eat_inf_in lower s (pd_pos st + 1) ;;
      let st1 := set_pos (pd_pos st + (eaten + 1)) st in
      Ok (if negb (eaten =? 0) then set_special sp_inf st1 else st1, true)
    else Ok (st, true)
  else if (c =? ch_minus) || (c =? ch_plus) then
    if pd_pos st =? 0
    then Ok (set_sign (negb (ch_minus - c =? 0)) st, false)
    else Ok (st, true)
  else Ok (st, true).

(** krosh.h:250-362, as [parse_loop] *)
Fixpoint parse_loop_in (lower : Z -> Z) (kappa : nat) (s : list Z) (fuel : nat) (st : pstate) : res pstate :=
  match fuel with
  | O => Fault OutOfFuel
  | S n =>
      c <- read s (pd_pos st) ;;
      '(st1, go) <- step_char_in lower kappa s st c ;;
      let go := go || (maximum_offset <? pd_pos st1) in
      let st2 := set_pos (pd_pos st1 + 1) st1 in
      if go then Ok st2 else parse_loop_in lower kappa s n st2
  end.

(** krosh.h:364-372, the end of [parse_digits] *)
Definition digits_result (T : fmt) (st : pstate) : res digit_parse_result :=
  value <- weighted_sum (fw T) (decimal_q T) (rev (pd_digits st)) 0 0 ;;
  Ok {| dp_value := value;
        dp_K := narrow_int (wrap 64 (pd_pow_gain st - pd_fraction_count st));
        dp_str_end := pd_pos st - 1;
        dp_frac := pd_frac st;
        dp_special := pd_special st;
        dp_sign := pd_sign st |}.

(** krosh.h:231-372, as [parse_digits] *)
Definition parse_digits_in (lower : Z -> Z) (T : fmt) (s : list Z) : res digit_parse_result :=
  st <- parse_loop_in lower (decimal_q T) s parse_fuel pstate_init ;;
  digits_result T st.

(** krosh.h:418-454, the end of [parse_mantissa] *)
Definition mantissa_result (T : fmt) (dp : digit_parse_result) : res mantissa_parse_result :=
  match dp_special dp with
  | sp_no =>
      let v := mk_diy (dp_value dp) 0 in
      v' <- (if negb (dp_value dp =? 0)
             then w <- normalize T v ;; round_mantissa T w (dp_frac dp)
             else Ok v) ;;
      Ok {| mp_value := v'; mp_K := dp_K dp; mp_str_end := dp_str_end dp;
            mp_special := dp_special dp; mp_sign := dp_sign dp |}
  | _ =>
      Ok {| mp_value := mk_diy 0 0; mp_K := 0; mp_str_end := dp_str_end dp;
            mp_special := dp_special dp; mp_sign := dp_sign dp |}
  end.

(** krosh.h:413-454, as [parse_mantissa] *)
Definition parse_mantissa_in (lower : Z -> Z) (T : fmt) (s : list Z) : res mantissa_parse_result :=
  dp <- parse_digits_in lower T s ;; mantissa_result T dp.

(** krosh.h:478-501, as [parse_exponent] *)
Definition parse_exponent_in (lower : Z -> Z) (s : list Z) : res (Z * Z) :=
  c <- read s 0 ;;
  if negb (c =? ch_e) && negb (c =? ch_E) then Ok (0, 0)
  else
    dp <- parse_digits_in lower single (skipn 1 s) ;;
    p <- seq_pow 10 exponent_decimal_digits (dp_K dp) ;;
    let v := narrow_int (wrap 32 (dp_value dp * p)) in
    v' <- (if negb (dp_sign dp) then sint (- v) else Ok v) ;;
    Ok (v', 1 + dp_str_end dp).

(** krosh.h:540-618, as [krosh] *)
Definition krosh_in (lower : Z -> Z) (T : fmt) (s : list Z) : res krosh_result :=
  mp <- parse_mantissa_in lower T s ;;
  match mp_special mp with
  | sp_no =>
      if negb (m_f (mp_value mp) =? 0) then
        '(ev, eend) <- parse_exponent_in lower (skipn (Z.to_nat (mp_str_end mp)) s) ;;
        let str_end := mp_str_end mp + eend in
        K <- sint (mp_K mp + ev) ;;
        let finish (w : diy) : res krosh_result :=
          w <- normalize T w ;;
          v <- downsample T w ;;
          Ok {| kr_value := apply_sign T (mp_sign mp) (ds_value v);
                kr_str_end := str_end; kr_status := ds_status v;
                kr_is_accurate := ds_is_accurate v |} in
        if negb (K =? 0) then
          let b1 := fpow_lo T <=? K in
          let b2 := K <=? fpow_hi T in
          if b1 && b2 then
            c <- cached_power T K ;;
            finish (diy_mul T (mp_value mp) c)
          else if negb b1 then
            Ok {| kr_value := 0; kr_str_end := str_end; kr_status := underflow;
                  kr_is_accurate := true |}
          else
            Ok {| kr_value := huge_value T; kr_str_end := str_end; kr_status := overflow;
                  kr_is_accurate := true |}
        else finish (mp_value mp)
      else
        Ok {| kr_value := apply_sign T (mp_sign mp) 0; kr_str_end := mp_str_end mp;
              kr_status := success; kr_is_accurate := true |}
  | sp_nan =>
      Ok {| kr_value := apply_sign T (mp_sign mp) (qnan_bits T); kr_str_end := mp_str_end mp;
            kr_status := success; kr_is_accurate := true |}
  | sp_inf =>
      Ok {| kr_value := apply_sign T (mp_sign mp) (inf_bits T); kr_str_end := mp_str_end mp;
            kr_status := success; kr_is_accurate := true |}
  end.

(** atof.h:94-126, as [atof] *)
Definition atof_in (lower : Z -> Z) (T : fmt) (s : list Z) (want_end : bool) (fb : fallback) (errno : Z)
    : res atof_result :=
  cr <- krosh_in lower T s ;;
  if negb (kr_str_end cr =? 0) then
    if kr_is_accurate cr then
      Ok {| at_value := kr_value cr; at_status := kr_status cr;
            at_str_end := if want_end then Some (kr_str_end cr) else None;
            at_errno := errno; at_used_fallback := false |}
    else
      r <- fb s errno ;;
      Ok {| at_value := fb_value r; at_status := check_errno T (fb_errno r) (fb_value r);
            at_str_end := if want_end then Some (fb_str_end r) else None;
            at_errno := fb_errno r; at_used_fallback := true |}
  else
    Ok {| at_value := 0; at_status := success;
          at_str_end := if want_end then Some (kr_str_end cr) else None;
          at_errno := errno; at_used_fallback := false |}.

(** In the "C" locale this is the model of Krosh.v and Atof.v. *)
Lemma nan_payload_end_C : forall s n cp, nan_payload_end_in tolower s n cp = nan_payload_end s n cp.
Proof. induction n as [|n IH]; intros cp; cbn [nan_payload_end_in nan_payload_end]; [reflexivity|]. destruct (read s (cp + 1)); cbn [bind]; [|reflexivity]. now rewrite IH. Qed.
Lemma match_suffix_C : forall s x cp, match_suffix_in tolower s x cp = match_suffix s x cp.
Proof. induction x as [|x t IH]; intros cp; cbn [match_suffix_in match_suffix]; [reflexivity|]. destruct (read s cp); cbn [bind]; [|reflexivity]. now rewrite IH. Qed.
Lemma eat_nan_C : forall s p, eat_nan_in tolower s p = eat_nan s p. Proof. intros. unfold eat_nan_in. now rewrite nan_payload_end_C. Qed.
Lemma eat_inf_C : forall s p, eat_inf_in tolower s p = eat_inf s p. Proof. intros. unfold eat_inf_in. now rewrite match_suffix_C. Qed.
Lemma step_char_C : forall k s st c, step_char_in tolower k s st c = step_char k s st c. Proof. intros. unfold step_char_in. now rewrite eat_nan_C, eat_inf_C. Qed.
Lemma parse_loop_C : forall k s n st, parse_loop_in tolower k s n st = parse_loop k s n st.
Proof.
  induction n as [|n IH]; intros st; cbn [parse_loop_in parse_loop]; [reflexivity|]. 
  destruct (read s (pd_pos st)) as [c|]; cbn [bind]; [|reflexivity]. rewrite step_char_C. destruct (step_char k s st c) as [[st1 go]|]; cbn [bind]; [|reflexivity].
  now rewrite IH.
Qed.
Lemma parse_digits_C : forall T s, parse_digits_in tolower T s = parse_digits T s.
Proof. intros T s. unfold parse_digits_in, digits_result. now rewrite parse_loop_C. Qed.
Lemma parse_mantissa_C : forall T s, parse_mantissa_in tolower T s = parse_mantissa T s.
Proof. intros T s. unfold parse_mantissa_in, mantissa_result. now rewrite parse_digits_C. Qed.
Lemma parse_exponent_C : forall s, parse_exponent_in tolower s = parse_exponent s.
Proof. intros s. unfold parse_exponent_in. now rewrite parse_digits_C. Qed.
Lemma krosh_C : forall T s, krosh_in tolower T s = krosh T s.
Proof.
  intros T s. unfold krosh_in, krosh. rewrite parse_mantissa_C. destruct (parse_mantissa T s) as [mp|]; cbn [bind]; [|reflexivity].
  destruct (mp_special mp); [|reflexivity|reflexivity]. now rewrite parse_exponent_C.
Qed.
Theorem atof_C : forall T s want fb errno, atof_in tolower T s want fb errno = atof T s want fb errno.
Proof. intros. unfold atof_in. now rewrite krosh_C. Qed.
