(** The parser on well-formed numbers: from text to (digits, power of ten, fraction). *)
From Coq Require Import String Ascii Lia ZArith List.
From Verif Require Import Machine MachineFacts BitOps StaticPow Fraction Format DiyFp KComp Chars Krosh Spec ParseSpec Instances
  TableFacts DiyFacts DvalFacts ArithProps ScanFacts LoopFacts.
Open Scope Z_scope.

Lemma mant_text : forall n, mantissa_text n = mant (n_sign n) (n_int n) (n_frac n).
Proof. intros n. unfold mantissa_text, mant. destruct (n_frac n); reflexivity. Qed.

Lemma frac_odig : forall n, frac_digits n = odig (n_frac n).
Proof. reflexivity. Qed.

Lemma mant_long : forall sg I F, I ++ odig F <> [] -> mant sg I F <> [] /\ mant sg I F <> sign_text sg.
Proof.
  intros sg I F H. assert (L : zlen (sign_text sg) < zlen (mant sg I F)).
  { rewrite zlen_mant, zlen_sign. assert (0 < zlen (I ++ odig F)).
    { destruct (I ++ odig F) as [|x l]; [congruence|]. rewrite zlen_cons. pose proof (zlen_nonneg l). lia. }
    rewrite zlen_app in H0. assert (0 <= b2z (is_some F)) by (destruct F; cbn; lia). lia. }
  pose proof (zlen_nonneg (sign_text sg)).
  split; intros E; rewrite E in L; [rewrite zlen_nil in L|]; lia.
Qed.

Lemma stops_numeral : forall sg I F c, I ++ odig F <> [] -> nondigit c -> c <> 46 -> stops sg I F c.
Proof.
  intros sg I F c H N D. destruct (mant_long sg I F H) as [M1 M2].
  split; [exact N|]. split; [congruence|]. split; intros _; assumption.
Qed.

Lemma ends_facts : forall c, ends_number c -> nondigit c /\ c <> 46 /\ c <> 101 /\ c <> 69.
Proof. intros c (H1 & H2 & H3 & H4). auto. Qed.

Lemma scan_value : forall kap s sg I F st, scan_inv kap s sg I F st ->
  exists t R, 0 <= t /\ dval (I ++ odig F) = dval (pd_digits st) * 10 ^ t + R /\ 0 <= R < 10 ^ t /\
    (dval (pd_digits st) <> 0 -> t - zlen (odig F) = pd_pow_gain st - pd_fraction_count st) /\
    (dval (pd_digits st) = 0 -> dval (I ++ odig F) = 0 /\ pd_digits st = [] /\ pd_pow_gain st - pd_fraction_count st = 0).
Proof.
  intros kap s sg I F st (_ & _ & _ & _ & _ & D1 & D2 & D3 & D4 & [(E & H1 & H2 & H3 & H4 & _)|[(E & H1 & H2 & H3 & H4 & H5 & _)|(E & H1 & t & R & H2 & H3 & H4 & H5 & _)]]).
  - exists 0, 0. rewrite E, dval_nil, H1, H2, H3. cbn. repeat split; try lia.
  - exists (pd_zeros st), 0. pose proof (pow10_pos (pd_zeros st) ltac:(lia)).
    assert (NZ : dval (pd_digits st) <> 0).
    { destruct (pd_digits st) as [|d l] eqn:Ed; [congruence|]. cbn [hd] in H2.
      pose proof (dval_lower d l D1 H2). pose proof (pow10_pos (zlen l) (zlen_nonneg l)). lia. }
    repeat split; try lia.
  - exists t, R.
    assert (NZ : dval (pd_digits st) <> 0).
    { destruct (pd_digits st) as [|d l] eqn:Ed; [cbn in H1; congruence|]. cbn [hd] in H1.
      pose proof (dval_lower d l D1 H1). pose proof (pow10_pos (zlen l) (zlen_nonneg l)). lia. }
    repeat split; try lia.
Qed.

(** * The exponent part *)

Lemma odig_none_app : forall I, I ++ odig None = I.
Proof. intros. apply app_nil_r. Qed.

Lemma scan_shape : forall kap s sg I F st, scan_inv kap s sg I F st -> dval (pd_digits st) <> 0 ->
  exists t R, 0 <= t /\ dval (I ++ odig F) = dval (pd_digits st) * 10 ^ t + R /\ 0 <= R < 10 ^ t /\
    t - zlen (odig F) = pd_pow_gain st - pd_fraction_count st /\ dval (pd_digits st) < 10 ^ Z.of_nat kap /\
    (R = 0 -> dval (pd_digits st) mod 10 <> 0) /\ (R <> 0 -> 10 ^ (Z.of_nat kap - 1) <= dval (pd_digits st)).
Proof.
  intros kap s sg I F st (_ & _ & _ & _ & _ & D1 & D2 & D3 & D4 & H) NZ. pose proof (dval_bounds _ D1) as B.
  assert (LM : forall ds, ds <> [] -> Forall digit ds -> last ds 0 <> 0 -> dval ds mod 10 <> 0).
  { intros ds N D Hl. destruct (exists_last N) as (l & x & ->). rewrite last_snoc in Hl. rewrite dval_snoc.
    apply Forall_app in D as [_ D]. inversion_clear D as [|? ? Dx _]. unfold digit in Dx.
    replace (10 * dval l + x) with (x + dval l * 10) by ring. rewrite Z.mod_add by lia. rewrite Z.mod_small by lia. assumption. }
  destruct H as [(E & _)|[(E & H1 & H2 & H3 & H4 & H5 & _)|(E & H1 & t & R & H2 & H3 & H4 & H5 & H6)]].
  - rewrite E, dval_nil in NZ. congruence.
  - exists (pd_zeros st), 0. pose proof (pow10_pos (pd_zeros st) ltac:(lia)). pose proof (zlen_nonneg (pd_digits st)).
    split; [lia|]. split; [lia|]. split; [lia|]. split; [lia|].
    split; [apply Z.lt_le_trans with (1 := proj2 B); apply Z.pow_le_mono_r; lia|]. split; [intros _; now apply LM|congruence].
  - assert (NE : pd_digits st <> []) by (intros C; rewrite C in NZ; apply NZ; reflexivity).
    exists t, R. split; [lia|]. split; [lia|]. split; [lia|]. split; [lia|]. split; [rewrite <- E; apply B|].
    destruct H6 as [(G1 & G2 & G3 & G4 & G5)|(G1 & G2 & G3)]; (split; [|]).
    + intros _. now apply LM.
    + congruence.
    + lia.
    + intros _. destruct (pd_digits st) as [|d l] eqn:Ed; [congruence|]. cbn [hd] in H1. rewrite <- E, zlen_cons.
      replace (1 + zlen l - 1) with (zlen l) by lia. now apply dval_lower.
Qed.

Lemma no_multiple : forall q B R, R = q * B -> 0 < R < B -> False.
Proof. intros q B R E H. destruct (Z.le_gt_cases q 0); nia. Qed.

(** what the parser makes of the digits of an exponent part *)
Lemma exponent_scan : forall n x c rest, well_formed n -> ends_number c -> n_exp n = Some x ->
  (List.length (exponent_text n) <= S parser_limit)%nat ->
  exists P t R, 0 <= t < 5000 /\ dval (x_digits x) = P * 10 ^ t + R /\ 0 <= R < 10 ^ t /\ 0 <= P < 10 ^ 9 /\
    (P = 0 -> t = 0) /\ (P <> 0 -> R = 0 -> P mod 10 <> 0) /\ (R <> 0 -> 10 ^ 8 <= P) /\
    parse_exponent (exponent_text n ++ c :: rest) =
      (p <- seq_pow 10 3 t ;;
       v <- (if is_minus (x_sign x) then sint (- narrow_int (wrap 32 (P * p))) else Ok (narrow_int (wrap 32 (P * p)))) ;;
       Ok (v, zlen (exponent_text n))).
Proof.
  intros n x c rest (_ & _ & _ & W) Hc Hx HL. destruct (ends_facts c Hc) as (C1 & C2 & C3 & C4).
  unfold parse_exponent, exponent_text in *. rewrite Hx in *.
  destruct W as [Wd Wn].
  set (u := text (if x_upper x then "E" else "e")) in *.
  assert (Eu : exists m, u = [m] /\ negb (m =? ch_e) && negb (m =? ch_E) = false).
  { unfold u. destruct (x_upper x); eexists; split; reflexivity. }
  destruct Eu as (m & Eu & Em). rewrite Eu in *. cbn [app] in *.
  change (read (m :: (sign_text (x_sign x) ++ dchars (x_digits x)) ++ c :: rest) 0) with (@Ok Z m). cbn [bind].
  rewrite Em. cbn [skipn].
  set (s := (sign_text (x_sign x) ++ dchars (x_digits x)) ++ c :: rest).
  assert (Em2 : mant (x_sign x) (x_digits x) None = sign_text (x_sign x) ++ dchars (x_digits x)).
  { unfold mant. now rewrite app_nil_r. }
  assert (ND : x_digits x ++ odig None <> []) by (now rewrite odig_none_app).
  assert (LZ : zlen (mant (x_sign x) (x_digits x) None) <= 2049).
  { rewrite Em2. cbn [List.length] in HL. unfold zlen, parser_limit in *. lia. }
  destruct (parse_digits_ok Float s (x_sign x) (x_digits x) None c rest) as (st & Hi & Hp); try assumption.
  { constructor. }
  { unfold s. now rewrite Em2. }
  { now apply stops_numeral. }
  change (fmt_of Float) with single in Hp. rewrite Hp. cbn [bind digit_result dp_K dp_value dp_sign dp_str_end].
  assert (EZ : 1 + zlen (mant (x_sign x) (x_digits x) None) = zlen (m :: sign_text (x_sign x) ++ dchars (x_digits x))).
  { rewrite Em2, zlen_cons. lia. }
  rewrite EZ, negb_involutive.
  pose proof Hi as (_ & _ & _ & _ & _ & D1 & _). pose proof (dval_bounds _ D1) as BP.
  assert (LD : zlen (x_digits x) <= 2049).
  { rewrite Em2, zlen_app, zlen_dchars in LZ. pose proof (zlen_nonneg (sign_text (x_sign x))). lia. }
  destruct (Z.eq_dec (dval (pd_digits st)) 0) as [Z0|Z0].
  - destruct (scan_value _ _ _ _ _ _ Hi) as (t & R & _ & _ & _ & _ & T5). destruct (T5 Z0) as (A1 & A2 & A3).
    cbn [odig] in *. rewrite app_nil_r in A1.
    exists 0, 0, 0. rewrite A1, A3, Z0. do 4 (split; [cbn; lia|]). split; [reflexivity|]. split; [congruence|]. split; [congruence|]. reflexivity.
  - destruct (scan_shape _ _ _ _ _ _ Hi Z0) as (t & R & T1 & T2 & T3 & T4 & T5 & T6 & T7). cbn [odig] in *.
    rewrite app_nil_r, zlen_nil in *. change (Z.of_nat (decimal_q (fmt_of Float))) with 9 in *.
    exists (dval (pd_digits st)), t, R. rewrite <- T4, Z.sub_0_r.
    split. { split; [assumption|]. pose proof (dval_bounds _ Wd) as BD.
      assert (1 * 10 ^ t <= dval (pd_digits st) * 10 ^ t) by (apply Z.mul_le_mono_nonneg_r; lia).
      assert (Lt : 10 ^ t < 10 ^ zlen (x_digits x)) by lia. apply Z.pow_lt_mono_r_iff in Lt; try lia; apply zlen_nonneg. }
    split; [assumption|]. split; [assumption|]. split; [lia|]. split; [lia|]. split; [auto|]. split; [auto|]. reflexivity.
Qed.

Lemma parse_exponent_ok : forall n c rest, well_formed n -> ends_number c -> readable_exponent n ->
  (List.length (exponent_text n) <= S parser_limit)%nat ->
  parse_exponent (exponent_text n ++ c :: rest) = Ok (exponent_value n, zlen (exponent_text n)).
Proof.
  intros n c rest W Hc (d & k & Ed & Hd & Hk & Hm & Hb) HL. destruct (n_exp n) as [x|] eqn:Hx.
  2:{ destruct (ends_facts c Hc) as (C1 & C2 & C3 & C4). unfold parse_exponent, exponent_text, exponent_value. rewrite Hx.
      cbn [app]. change (read (c :: rest) 0) with (@Ok Z c). cbn [bind].
      change ch_e with 101. change ch_E with 69.
      destruct (Z.eqb_spec c 101); [lia|]. destruct (Z.eqb_spec c 69); [lia|]. reflexivity. }
  destruct (exponent_scan n x c rest W Hc Hx HL) as (P & t & R & T1 & T2 & T3 & T4 & T5 & T6 & T7 & ->).
  unfold exponent_value in *. rewrite Hx in *. destruct W as (_ & _ & _ & W). rewrite Hx in W. destruct W as [Wd _].
  pose proof (dval_bounds _ Wd) as BD.
  assert (ED : dval (x_digits x) = d * 10 ^ k) by (unfold signed in Ed; destruct (is_minus (x_sign x)); lia).
  pose proof (pow10_pos k ltac:(lia)) as PK. pose proof (pow10_pos t ltac:(lia)) as PT.
  assert (Q : t <= 3 /\ P * 10 ^ t = d * 10 ^ k).
  { destruct (Z.eq_dec P 0) as [P0|P0].
    - specialize (T5 P0). subst t P. rewrite Z.pow_0_r in *. lia.
    - destruct (Z.eq_dec R 0) as [R0|R0].
      + subst R. specialize (T6 P0 eq_refl). rewrite Z.add_0_r in T2. split; [|lia].
        destruct (Z.le_gt_cases t 3) as [|G]; [assumption|exfalso].
        assert (E : P * 10 ^ (t - k) * 10 ^ k = d * 10 ^ k) by (rewrite <- Z.mul_assoc, <- Z.pow_add_r by lia; replace (t - k + k) with t by lia; lia).
        apply Z.mul_cancel_r in E; [|lia]. destruct Hm as [Hm| ->].
        * apply Hm. rewrite <- E. replace (t - k) with (t - k - 1 + 1) by lia. rewrite pow10_succ by lia.
          replace (P * (10 * 10 ^ (t - k - 1))) with (P * 10 ^ (t - k - 1) * 10) by ring. apply Z.mod_mul. lia.
        * pose proof (pow10_pos (t - k) ltac:(lia)). nia.
      + exfalso. specialize (T7 R0). destruct (Z.le_gt_cases t k) as [L|G].
        * assert (E : 10 ^ k = 10 ^ (k - t) * 10 ^ t) by (rewrite <- Z.pow_add_r by lia; f_equal; lia).
          rewrite ED, E in T2. assert (R = (d * 10 ^ (k - t) - P) * 10 ^ t) by lia. apply (no_multiple (d * 10 ^ (k - t) - P) (10 ^ t) R); lia.
        * assert (10 ^ (k + 1) <= 10 ^ t) by (apply Z.pow_le_mono_r; lia). rewrite pow10_succ in H by lia.
          assert (10 ^ 8 * (10 * 10 ^ k) <= P * 10 ^ t) by (apply Z.mul_le_mono_nonneg; lia).
          assert (d * 10 ^ k < 10 ^ 9 * 10 ^ k) by (apply Z.mul_lt_mono_pos_r; lia).
          change (10 ^ 8) with 100000000 in *. change (10 ^ 9) with 1000000000 in *. lia. }
  destruct Q as (Q1 & Q2). destruct (C54_seq_pow 10 3 t) as [S _]; [cbn; lia|]. rewrite S by lia. cbn [bind].
  rewrite Q2, <- ED. rewrite wrap_small by lia. rewrite narrow_small by lia.
  unfold signed. destruct (is_minus (x_sign x)); [rewrite sint_ok by lia|]; reflexivity.
Qed.

Lemma small_readable : forall n, small_exponent n -> readable_exponent n.
Proof.
  intros n H. unfold small_exponent in H. unfold readable_exponent. set (D := Z.abs (exponent_value n)) in *.
  assert (D0 : 0 <= D) by (unfold D; lia). clearbody D.
  assert (T : exists k d, D = d * 10 ^ k /\ 0 <= k <= 3 /\ 0 <= d <= D /\ (d mod 10 <> 0 \/ d = 0)).
  { destruct (Z.eq_dec D 0) as [-> |N0]; [exists 0, 0; cbn; lia|].
    destruct (Z.eq_dec (D mod 10) 0) as [M0|M0]; [|exists 0, D; rewrite Z.pow_0_r; split; [lia|split; [lia|split; [lia|now left]]]].
    pose proof (Z.div_mod D 10 ltac:(lia)) as E0. rewrite M0 in E0. set (D1 := D / 10) in *.
    destruct (Z.eq_dec (D1 mod 10) 0) as [M1|M1]; [|exists 1, D1; rewrite Z.pow_1_r; split; [lia|split; [lia|split; [lia|now left]]]].
    pose proof (Z.div_mod D1 10 ltac:(lia)) as E1. rewrite M1 in E1. set (D2 := D1 / 10) in *.
    destruct (Z.eq_dec (D2 mod 10) 0) as [M2|M2]; [|exists 2, D2; change (10 ^ 2) with 100; split; [lia|split; [lia|split; [lia|now left]]]].
    pose proof (Z.div_mod D2 10 ltac:(lia)) as E2. rewrite M2 in E2. set (D3 := D2 / 10) in *.
    exists 3, D3. change (10 ^ 3) with 1000. split; [lia|split; [lia|split; [lia|left]]].
    intros M3. pose proof (Z.div_mod D3 10 ltac:(lia)) as E3. lia. }
  destruct T as (k & d & E & Hk & Hd & Hm). exists d, k. split; [assumption|]. change (10 ^ 9) with 1000000000. split; [lia|].
  split; [assumption|]. split; [assumption|lia].
Qed.

(** * The rest of krosh, as a function of what was parsed *)

Definition kr_finish (T : fmt) (neg : bool) (str_end : Z) (w : diy) : res krosh_result :=
  w <- normalize T w ;;
  v <- downsample T w ;;
  Ok {| kr_value := apply_sign T (negb neg) (ds_value v);
        kr_str_end := str_end; kr_status := ds_status v; kr_is_accurate := ds_is_accurate v |}.

Definition kr_scale (T : fmt) (neg : bool) (str_end K : Z) (w : diy) : res krosh_result :=
  if K =? 0 then kr_finish T neg str_end w
  else if fpow_lo T <=? K then
    if K <=? fpow_hi T then c <- cached_power T K ;; kr_finish T neg str_end (diy_mul T w c)
    else Ok {| kr_value := huge_value T; kr_str_end := str_end; kr_status := overflow; kr_is_accurate := true |}
  else Ok {| kr_value := 0; kr_str_end := str_end; kr_status := underflow; kr_is_accurate := true |}.

Definition kr_mantissa (T : fmt) (P frac : Z) : res diy :=
  w <- normalize T (mk_diy P 0) ;; round_mantissa T w frac.

(** what the parser knows about a number after scanning it *)
Definition parsed (t : ftype) (n : numeral) (s : list Z) (st : pstate) : Prop :=
  scan_inv (decimal_q (fmt_of t)) s (n_sign n) (n_int n) (n_frac n) st.
Definition power_of (n : numeral) (st : pstate) : Z :=
  pd_pow_gain st - pd_fraction_count st + exponent_value n.

Lemma skipn_zlen : forall a b : list Z, skipn (Z.to_nat (zlen a)) (a ++ b) = b.
Proof. intros a b. unfold zlen. rewrite Nat2Z.id, skipn_app, skipn_all2, Nat.sub_diag by lia. reflexivity. Qed.

Lemma first_after_mantissa : forall n c rest, ends_number c ->
  exists c' r', exponent_text n ++ c :: rest = c' :: r' /\ nondigit c' /\ c' <> 46.
Proof.
  intros n c rest H. destruct (ends_facts c H) as (C1 & C2 & _). unfold exponent_text.
  destruct (n_exp n) as [x|]; [|exists c, rest; auto].
  destruct (x_upper x); [exists 69|exists 101]; eexists; (split; [reflexivity|]); unfold nondigit; lia.
Qed.

Theorem krosh_numeral : forall t n c rest, well_formed n -> ends_number c -> within_limits n ->
  exists st, parsed t n (written n ++ c :: rest) st /\
    (coefficient n = 0 ->
       krosh (fmt_of t) (written n ++ c :: rest)
       = Ok {| kr_value := apply_sign (fmt_of t) (negb (is_minus (n_sign n))) 0;
               kr_str_end := zlen (mantissa_text n); kr_status := success; kr_is_accurate := true |}) /\
    (coefficient n <> 0 -> readable_exponent n ->
       forall w, kr_mantissa (fmt_of t) (dval (pd_digits st)) (pd_frac st) = Ok w -> m_f w <> 0 ->
       krosh (fmt_of t) (written n ++ c :: rest)
       = kr_scale (fmt_of t) (is_minus (n_sign n)) (zlen (written n)) (power_of n st) w).
Proof.
  intros t n c rest W Hc [L1 L2]. pose proof W as (W1 & W2 & W3 & W4).
  destruct (first_after_mantissa n c rest Hc) as (c' & r' & E' & N' & D').
  set (s := written n ++ c :: rest).
  assert (Es : s = mant (n_sign n) (n_int n) (n_frac n) ++ c' :: r').
  { unfold s, written. now rewrite <- app_assoc, E', mant_text. }
  rewrite mant_text in L1.
  destruct (parse_digits_ok t s (n_sign n) (n_int n) (n_frac n) c' r' W1 W2 Es) as (st & Hi & Hp).
  { apply stops_numeral; assumption. }
  { unfold zlen, parser_limit in *. lia. }
  exists st. split; [exact Hi|].
  pose proof (scan_value _ _ _ _ _ _ Hi) as (tt & R & T1 & T2 & T3 & T4 & T5).
  fold (frac_digits n) in *. fold (coefficient n) in *.
  pose proof Hi as (_ & _ & _ & _ & _ & D1 & D2 & D3 & D4 & _).
  pose proof (dval_bounds _ D1) as BP. pose proof (pow10_pos tt T1) as PT.
  assert (CZ : coefficient n = 0 <-> dval (pd_digits st) = 0).
  { split; [|intros Z0; apply T5; exact Z0]. intros C0. unfold coefficient in *. rewrite frac_odig, T2 in C0. nia. }
  split.
  - intros C0. apply CZ in C0. unfold krosh, parse_mantissa. rewrite Hp. cbn [bind digit_result dp_special dp_value].
    rewrite C0. cbn [Z.eqb negb bind mp_special mp_value m_f dp_K dp_str_end dp_sign mp_sign mp_str_end].
    now rewrite mant_text.
  - intros CN SE w Hw Nw. unfold krosh, parse_mantissa. rewrite Hp. cbn [bind digit_result dp_special dp_value].
    assert (dval (pd_digits st) =? 0 = false) as -> by (apply Z.eqb_neq; tauto). cbn [negb].
    unfold kr_mantissa in Hw. unfold digit_result. cbn [dp_frac dp_value]. cbv zeta. rewrite Hw. cbn [bind mp_special mp_value m_f dp_K dp_str_end dp_sign mp_sign mp_str_end mp_K].
    destruct (Z.eqb_spec (m_f w) 0); [contradiction|]. cbn [negb].
    rewrite Es, skipn_zlen, <- E'. rewrite parse_exponent_ok by assumption. cbn [bind].
    fold (power_of n st).
    assert (LD : zlen (n_int n ++ frac_digits n) < 3000).
    { assert (zlen (mant (n_sign n) (n_int n) (n_frac n)) <= 2049) by (unfold zlen, parser_limit in *; lia).
      rewrite zlen_mant in H. rewrite zlen_app, frac_odig.
      assert (0 <= b2z (has_sign (n_sign n)) /\ 0 <= b2z (is_some (n_frac n))) by (destruct (n_sign n), (n_frac n); cbn; lia). lia. }
    rewrite frac_odig in LD. destruct SE as (d & k & SE & _ & _ & _ & SE').
    rewrite sint_ok by (unfold power_of; lia). cbn [bind].
    unfold kr_scale, kr_finish.
    assert (EL : zlen (mant (n_sign n) (n_int n) (n_frac n)) + zlen (exponent_text n) = zlen (written n)).
    { unfold written. now rewrite mant_text, zlen_app. }
    rewrite EL. destruct (power_of n st =? 0); cbn [negb]; [reflexivity|].
    destruct (fpow_lo (fmt_of t) <=? power_of n st), (power_of n st <=? fpow_hi (fmt_of t)); cbn [andb negb]; reflexivity.
Qed.
