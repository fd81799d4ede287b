(** What the parser makes of the text behind the mantissa: dangling exponent markers (C41)
    and exponents of ten and more digits (C69). *)
From Coq Require Import Reals Lra Lia ZArith List String Ascii.
From Flocq Require Import Core.
From Verif Require Import Machine MachineFacts BitOps StaticPow Fraction Format DiyFp KComp Chars Krosh Atof Spec ParseSpec ParseApi Instances
  DiyFacts BoundFacts TableFacts GrisuFacts FtoaFacts RoundFacts DownFacts DvalFacts CmpFacts ArithProps ScanFacts LoopFacts ParseFacts GapFacts KroshNum ShortFacts FracFacts LongFacts ParseProps Refuted LocalFacts LocalProps NegFacts.
Open Scope Z_scope.

(** Once the mantissa is read, only what [parse_exponent] makes of the rest matters. *)
Lemma krosh_mantissa_any : forall t n, well_formed n -> coefficient n <> 0 -> (List.length (mantissa_text n) <= parser_limit)%nat ->
  exists K f e, -5000 <= K <= 5000 /\ 2 ^ (width t - 1) <= f < 2 ^ width t /\ -100 <= e <= 100 /\
    forall c r, breaks c -> krosh (fmt_of t) (mantissa_text n ++ c :: r) =
      ('(ev, ee) <- parse_exponent (c :: r) ;;
       K' <- sint (K + ev) ;;
       kr_scale (fmt_of t) (is_minus (n_sign n)) (zlen (mantissa_text n) + ee) K' (mk_diy f e)).
Proof.
  intros t n W CN L. pose proof W as (W1 & W2 & W3 & W4).
  assert (B0 : breaks 0) by (split; [unfold nondigit|]; lia).
  set (s0 := mantissa_text n ++ [0]).
  assert (PL : plain (mantissa_text n)).
  { rewrite <- (app_nil_r (mantissa_text n)). apply begins_plain, mantissa_begins, W. }
  assert (LZ : zlen (mantissa_text n) <= 2049) by (unfold zlen, parser_limit in *; lia).
  destruct (parse_digits_ok t s0 (n_sign n) (n_int n) (n_frac n) 0 [] W1 W2) as (st & Hi & Hp).
  { unfold s0. now rewrite mant_text. }
  { apply stops_numeral; [assumption|exact (proj1 B0)|lia]. }
  { now rewrite <- mant_text. }
  destruct (parse_digits_same s0 s0 (mantissa_text n) 0 0 [] [] eq_refl eq_refl B0 B0 (or_intror PL) t) as (dp & P1 & _ & _ & Q2 & Q3 & Q4 & _).
  rewrite Hp in P1. injection P1 as <-. cbn [digit_result dp_value dp_frac] in Q2, Q3, Q4.
  pose proof (scan_value _ _ _ _ _ _ Hi) as (tt & R & T1 & T2 & T3 & T4 & T5).
  assert (Z0 : dval (pd_digits st) <> 0).
  { intros Z0. apply CN. unfold coefficient. rewrite frac_odig. now apply T5. }
  pose proof Hi as (_ & _ & _ & _ & _ & D1 & D2 & D3 & D4 & _). pose proof (dval_bounds _ D1) as BP.
  destruct (mantissa_total t (dval (pd_digits st)) (pd_frac st) ltac:(lia) Q3 Q4) as (f & e & M1 & M2 & M3).
  pose proof (width_facts t). pose proof (pow2_pos (width t - 1) ltac:(lia)).
  exists (pd_pow_gain st - pd_fraction_count st), f, e. split; [|split; [exact M2|split; [exact M3|]]].
  { rewrite mant_text, zlen_mant in LZ. rewrite zlen_app in *.
    assert (0 <= b2z (has_sign (n_sign n)) /\ 0 <= b2z (is_some (n_frac n))) by (destruct (n_sign n), (n_frac n); cbn; lia). lia. }
  intros c r Hc. set (s := mantissa_text n ++ c :: r).
  destruct (parse_digits_same s s0 (mantissa_text n) c 0 r [] eq_refl eq_refl Hc B0 (or_intror PL) t) as (dp & P1 & P2 & _).
  rewrite Hp in P2. injection P2 as <-. rewrite krosh_by_parts, P1.
  cbn [bind digit_result dp_special dp_value dp_frac dp_str_end dp_K dp_sign].
  destruct (Z.eqb_spec (dval (pd_digits st)) 0); [contradiction|].
  rewrite M1. cbn [bind m_f]. destruct (Z.eqb_spec f 0); [lia|].
  unfold s. rewrite <- mant_text, skipn_zlen, negb_involutive. reflexivity.
Qed.

(** Two continuations of a mantissa with the same exponent, as the parser takes it, give the
    same result, but for the number of characters consumed. *)
Lemma same_exponent : forall t n c1 r1 c2 r2 ev k1 k2, well_formed n -> coefficient n <> 0 -> (List.length (mantissa_text n) <= parser_limit)%nat ->
  breaks c1 -> breaks c2 -> 0 <= k1 -> 0 <= k2 -> - 2 ^ 30 <= ev <= 2 ^ 30 ->
  parse_exponent (c1 :: r1) = Ok (ev, k1) -> parse_exponent (c2 :: r2) = Ok (ev, k2) ->
  let s1 := mantissa_text n ++ c1 :: r1 in let s2 := mantissa_text n ++ c2 :: r2 in
  (exists v st, forall want fb errno,
     atof (fmt_of t) s1 want fb errno = Ok (answer want errno v st (len (mantissa_text n) + k1)) /\
     atof (fmt_of t) s2 want fb errno = Ok (answer want errno v st (len (mantissa_text n) + k2))) \/
  (forall want fb errno, atof (fmt_of t) s1 want fb errno = fallback_answer t s1 want fb errno /\
     atof (fmt_of t) s2 want fb errno = fallback_answer t s2 want fb errno).
Proof.
  intros t n c1 r1 c2 r2 ev k1 k2 W CN L B1 B2 H1 H2 HE P1 P2 s1 s2.
  destruct (krosh_mantissa_any t n W CN L) as (K & f & e & HK & Hf & He & H).
  change (2 ^ 30) with 1073741824 in HE.
  pose proof (H c1 r1 B1) as E1. pose proof (H c2 r2 B2) as E2. fold s1 in E1. fold s2 in E2.
  rewrite P1 in E1. rewrite P2 in E2. cbn [bind] in E1, E2. rewrite sint_ok in E1, E2 by lia. cbn [bind] in E1, E2.
  destruct (scale_signs t (zlen (mantissa_text n)) (K + ev) f e Hf He) as (v & v' & st & acc & _ & _ & G).
  rewrite G in E1, E2. pose proof (mantissa_nonempty n W). pose proof (zlen_nonneg (mantissa_text n)).
  change (zlen (mantissa_text n)) with (len (mantissa_text n)) in *.
  destruct acc; [left|right].
  - exists (if is_minus (n_sign n) then v' else v), st. intros want fb errno.
    split; [apply (atof_fast t s1 want fb errno _ _ _ E1)|apply (atof_fast t s2 want fb errno _ _ _ E2)]; lia.
  - intros want fb errno.
    split; [apply (atof_slow t s1 want fb errno _ _ _ E1)|apply (atof_slow t s2 want fb errno _ _ _ E2)]; lia.
Qed.

Lemma marker_breaks : forall c, e_letter c -> breaks c.
Proof. intros c [-> | ->]; (split; [unfold nondigit|]; vm_compute; intuition congruence). Qed.

Lemma parse_exponent_none : forall c r, ends_number c -> parse_exponent (c :: r) = Ok (0, 0).
Proof.
  intros c r H. destruct (ends_facts c H) as (_ & _ & A & B). unfold parse_exponent. change (read (c :: r) 0) with (Ok c). cbn [bind].
  unfold ch_e, ch_E. destruct (Z.eqb_spec c 101); [lia|]. destruct (Z.eqb_spec c 69); [lia|]. reflexivity.
Qed.

Lemma dangling_exponent : forall mk sg c rest, e_letter mk -> begins_nothing c \/ sg <> NoSign /\ (c = code "+" \/ c = code "-") ->
  parse_exponent (mk :: sign_text sg ++ c :: rest) = Ok (0, 1 + len (sign_text sg)).
Proof.
  intros mk sg c rest Hm Hc. unfold parse_exponent.
  change (read (mk :: sign_text sg ++ c :: rest) 0) with (Ok mk). cbn [bind skipn].
  assert (negb (mk =? ch_e) && negb (mk =? ch_E) = false) as -> by (destruct Hm as [-> | ->]; reflexivity).
  assert (C : nondigit c /\ c <> 46 /\ (is_pm c = true -> sg <> NoSign) /\ is_n c || is_i c = false).
  { unfold nondigit, is_pm, is_n, is_i, ch_minus, ch_plus, ch_n, ch_N, ch_i, ch_I. destruct Hc as [Hc|[Hs Hc]].
    - unfold begins_nothing, between in Hc. change (code "0") with 48 in Hc. change (code "9") with 57 in Hc. change (code ".") with 46 in Hc.
      change (code "+") with 43 in Hc. change (code "-") with 45 in Hc. change (code "n") with 110 in Hc. change (code "N") with 78 in Hc.
      change (code "i") with 105 in Hc. change (code "I") with 73 in Hc. destruct Hc as (? & ? & ? & ? & ? & ? & ? & ?).
      repeat match goal with |- context [?x =? ?y] => destruct (Z.eqb_spec x y); [lia|] end. cbn. repeat split; try assumption. discriminate.
    - change (code "+") with 43 in Hc. change (code "-") with 45 in Hc.
      destruct Hc as [-> | ->]; cbn; repeat split; try lia; auto. }
  destruct C as (C1 & C2 & C3 & C4).
  assert (M0 : mant sg [] None = sign_text sg) by (unfold mant; cbn; apply app_nil_r).
  destruct (parse_digits_ok Float (sign_text sg ++ c :: rest) sg [] None c rest) as (st & Hi & Hp).
  { constructor. } { constructor. } { now rewrite M0. }
  { split; [exact C1|]. split; [congruence|]. split; [|rewrite C4; discriminate].
    rewrite M0. intros Hp C. specialize (C3 Hp). destruct sg; cbn in C; congruence. }
  { rewrite M0. destruct sg; cbn; lia. }
  change (fmt_of Float) with single in Hp. rewrite Hp, M0. cbn [bind digit_result dp_K dp_value dp_sign dp_str_end].
  destruct (scan_value _ _ _ _ _ _ Hi) as (tt & R & T1 & T2 & T3 & T4 & T5). cbn [odig app] in *. change (dval []) with 0 in *.
  pose proof Hi as (_ & _ & _ & _ & _ & D1 & _). pose proof (dval_bounds _ D1) as BP. pose proof (pow10_pos tt T1).
  assert (Z0 : dval (pd_digits st) = 0) by nia. destruct (T5 Z0) as (_ & _ & ->). rewrite Z0.
  destruct sg; reflexivity.
Qed.

(** C41: the letter e and a sign behind it are consumed even if no digit follows; the result
    is that of the number without them. *)
Theorem C41_marker_swallowed : forall t n mk sg c rest, well_formed n -> n_exp n = None -> coefficient n <> 0 -> within_limits n ->
  e_letter mk -> begins_nothing c \/ sg <> NoSign /\ (c = code "+" \/ c = code "-") ->
  let s := written n ++ mk :: sign_text sg ++ c :: rest in
  (exists v st, forall want fb errno,
     atof (fmt_of t) (written n ++ [0]) want fb errno = Ok (answer want errno v st (len (written n))) /\
     atof (fmt_of t) s want fb errno = Ok (answer want errno v st (len (written n ++ mk :: sign_text sg)))) \/
  (forall want fb errno,
     atof (fmt_of t) (written n ++ [0]) want fb errno = fallback_answer t (written n ++ [0]) want fb errno /\
     atof (fmt_of t) s want fb errno = fallback_answer t s want fb errno).
Proof.
  intros t n mk sg c rest W HX CN [L1 _] Hm Hc s.
  assert (EM : written n = mantissa_text n) by (unfold written, exponent_text; rewrite HX; apply app_nil_r).
  assert (N0 : ends_number 0) by (repeat split; vm_compute; intuition congruence).
  destruct (same_exponent t n 0 [] mk (sign_text sg ++ c :: rest) 0 0 (1 + len (sign_text sg)) W CN L1 (ends_breaks _ N0) (marker_breaks _ Hm))
    as [(v & st & H)|H].
  { lia. } { unfold len. lia. } { lia. } { now apply parse_exponent_none. } { now apply dangling_exponent. }
  - left. exists v, st. intros want fb errno. unfold s. rewrite EM. destruct (H want fb errno) as [-> ->].
    unfold len. rewrite app_length. cbn [List.length]. split; do 2 f_equal; lia.
  - right. intros want fb errno. unfold s. rewrite EM. apply H.
Qed.

(** * C69: exponents of ten to twelve digits *)

Lemma taken_scan : forall D E P q R, exponent_taken D E -> D = P * 10 ^ q + R -> 0 <= q -> 0 <= R < 10 ^ q -> 0 <= P < 10 ^ 9 ->
  (P = 0 -> q = 0) -> (P <> 0 -> R = 0 -> P mod 10 <> 0) -> (R <> 0 -> 10 ^ 8 <= P) ->
  q <= 3 /\ narrow_int (wrap 32 (P * 10 ^ q)) = E.
Proof.
  intros D E P q R ((D0 & D12) & M & D' & HD' & (k & HE) & BE) ED Hq HR HP P0 PR RP.
  pose proof (pow10_pos q Hq) as Pq.
  assert (Q3 : q <= 3).
  { destruct (Z.le_gt_cases q 3) as [|G]; [assumption|exfalso].
    assert (X : 10 ^ q = 10 ^ (q - 4) * 10000) by (change 10000 with (10 ^ 4); rewrite <- Z.pow_add_r by lia; f_equal; lia).
    destruct (Z.eq_dec R 0) as [-> |NR].
    - apply M. rewrite ED, X, Z.add_0_r, Z.mul_assoc. apply Z.mod_mul. lia.
    - specialize (RP NR). pose proof (pow10_pos (q - 4) ltac:(lia)).
      assert (10 ^ 8 * 10000 <= P * 10 ^ q) by (rewrite X; apply Z.mul_le_mono_nonneg; lia).
      change (10 ^ 8 * 10000) with (10 ^ 12) in *. lia. }
  split; [exact Q3|].
  assert (ED' : P * 10 ^ q = D').
  { destruct HD' as [[S ->]|(r & r0 & [S1 S2] & ->)].
    - destruct (Z.eq_dec R 0) as [-> |NR]; [lia|exfalso]. specialize (RP NR).
      assert (1 <= q) by (destruct (Z.eq_dec q 0) as [-> |]; [rewrite Z.pow_0_r in HR; lia|lia]).
      assert (10 ^ 1 <= 10 ^ q) by (apply Z.pow_le_mono_r; lia).
      assert (10 ^ 8 * 10 ^ 1 <= P * 10 ^ q) by (apply Z.mul_le_mono_nonneg; lia).
      change (10 ^ 8 * 10 ^ 1) with (10 ^ 9) in *. lia.
    - destruct (Z.eq_dec R 0) as [-> |NR].
      + rewrite Z.add_0_r in ED. rewrite <- ED.
        assert (Lt : 10 ^ (8 + r) < 10 ^ (9 + q)).
        { apply Z.le_lt_trans with (1 := S1). rewrite ED, Z.pow_add_r by lia. apply Z.mul_lt_mono_pos_r; lia. }
        apply Z.pow_lt_mono_r_iff in Lt; [|lia|lia].
        assert (X : 10 ^ q = 10 ^ (q - r) * 10 ^ r) by (rewrite <- Z.pow_add_r by lia; f_equal; lia).
        rewrite ED, X, Z.mul_assoc, Z.div_mul by (pose proof (pow10_pos r ltac:(lia)); lia). reflexivity.
      + specialize (RP NR).
        assert (L1 : 10 ^ (8 + q) < 10 ^ (9 + r)).
        { apply Z.le_lt_trans with (2 := S2). rewrite ED, Z.pow_add_r by lia.
          assert (10 ^ 8 * 10 ^ q <= P * 10 ^ q) by (apply Z.mul_le_mono_nonneg_r; lia). lia. }
        assert (L2 : 10 ^ (8 + r) < 10 ^ (9 + q)).
        { apply Z.le_lt_trans with (1 := S1). rewrite ED, (Z.pow_add_r 10 9) by lia.
          assert ((P + 1) * 10 ^ q <= 10 ^ 9 * 10 ^ q) by (apply Z.mul_le_mono_nonneg_r; lia). lia. }
        apply Z.pow_lt_mono_r_iff in L1; [|lia|lia]. apply Z.pow_lt_mono_r_iff in L2; [|lia|lia].
        assert (r = q) as -> by lia. f_equal. rewrite ED. apply Z.div_unique with R; lia. }
  assert (k = (E - D') / 2 ^ 32) by (apply Z.div_unique_exact; lia).
  rewrite ED'. unfold narrow_int, wrap. change (2 ^ 31) with 2147483648 in *. change (2 ^ 32) with 4294967296 in *.
  rewrite Z.add_mod_idemp_l by lia. replace (D' + 2147483648) with (E + 2147483648 + - k * 4294967296) by lia.
  rewrite Z.mod_add by lia. rewrite Z.mod_small by lia. lia.
Qed.

Lemma parse_exponent_taken : forall n x E c rest, well_formed n -> ends_number c -> n_exp n = Some x ->
  (List.length (exponent_text n) <= S parser_limit)%nat -> exponent_taken (dval (x_digits x)) E -> E <> - 2 ^ 31 ->
  parse_exponent (exponent_text n ++ c :: rest) = Ok (signed (x_sign x) E, len (exponent_text n)).
Proof.
  intros n x E c rest W Hc Hx HL HT NE.
  destruct (exponent_scan n x c rest W Hc Hx HL) as (P & q & R & T1 & T2 & T3 & T4 & T5 & T6 & T7 & ->).
  destruct (taken_scan _ E P q R HT T2 ltac:(lia) T3 T4 T5 T6 T7) as [Q1 Q2].
  destruct (C54_seq_pow 10 3 q) as [S _]; [cbn; lia|]. rewrite S by lia. cbn [bind]. rewrite Q2.
  destruct HT as (_ & _ & _ & _ & _ & B). unfold signed. change (2 ^ 31) with 2147483648 in *.
  destruct (is_minus (x_sign x)); [rewrite sint_ok by lia|]; reflexivity.
Qed.

Lemma exponent_first : forall n x, n_exp n = Some x -> exists mk r, exponent_text n = mk :: r /\ breaks mk.
Proof.
  intros n x Hx. unfold exponent_text. rewrite Hx. destruct (x_upper x); (eexists; eexists; split; [reflexivity|]); apply marker_breaks; [right|left]; reflexivity.
Qed.

(** The number is read as if the exponent taken for the written one stood there. *)
Theorem C69_exponent_wraps : forall t n x E n' c rest c' rest', well_formed n -> n_exp n = Some x -> coefficient n <> 0 -> within_limits n ->
  ends_number c -> ends_number c' -> exponent_taken (dval (x_digits x)) E ->
  well_formed n' -> n_sign n' = n_sign n -> n_int n' = n_int n -> n_frac n' = n_frac n ->
  exponent_value n' = signed (x_sign x) E -> small_exponent n' -> within_limits n' ->
  let s := written n ++ c :: rest in let s' := written n' ++ c' :: rest' in
  (exists v st, forall want fb errno,
     atof (fmt_of t) s want fb errno = Ok (answer want errno v st (len (written n))) /\
     atof (fmt_of t) s' want fb errno = Ok (answer want errno v st (len (written n')))) \/
  (forall want fb errno, atof (fmt_of t) s want fb errno = fallback_answer t s want fb errno /\
     atof (fmt_of t) s' want fb errno = fallback_answer t s' want fb errno).
Proof.
  intros t n x E n' c rest c' rest' W HX CN [L1 L2] Hc Hc' HT W' S1 S2 S3 EV SM [L1' L2'] s s'.
  assert (EM : mantissa_text n' = mantissa_text n) by (unfold mantissa_text; now rewrite S1, S2, S3).
  assert (SE : - 10000 < E < 10000) by (unfold small_exponent in SM; rewrite EV in SM; unfold signed in SM; destruct (is_minus (x_sign x)); lia).
  pose proof (parse_exponent_taken n x E c rest W Hc HX L2 HT ltac:(lia)) as P1.
  pose proof (parse_exponent_ok n' c' rest' W' Hc' (small_readable n' SM) L2') as P2. rewrite EV in P2.
  assert (F1 : exists a r, exponent_text n ++ c :: rest = a :: r /\ breaks a).
  { destruct (exponent_first n x HX) as (mk & r & -> & B). eexists. eexists. split; [reflexivity|exact B]. }
  assert (F2 : exists a r, exponent_text n' ++ c' :: rest' = a :: r /\ breaks a).
  { destruct (n_exp n') as [x'|] eqn:HX'.
    - destruct (exponent_first n' x' HX') as (mk & r & -> & B). eexists. eexists. split; [reflexivity|exact B].
    - unfold exponent_text. rewrite HX'. eexists. eexists. split; [reflexivity|now apply ends_breaks]. }
  destruct F1 as (a1 & r1 & F1 & B1). destruct F2 as (a2 & r2 & F2 & B2). rewrite F1 in P1. rewrite F2 in P2.
  destruct (same_exponent t n a1 r1 a2 r2 (signed (x_sign x) E) (len (exponent_text n)) (zlen (exponent_text n')) W CN L1 B1 B2) as [(v & st & H)|H].
  { unfold len; lia. } { apply zlen_nonneg. } { unfold signed. destruct (is_minus (x_sign x)); lia. } { exact P1. } { exact P2. }
  - left. exists v, st. intros want fb errno. unfold s, s', written. rewrite <- !app_assoc, F1, F2, EM.
    destruct (H want fb errno) as [-> ->]. unfold len, zlen. rewrite !app_length. split; do 2 f_equal; lia.
  - right. intros want fb errno. unfold s, s', written. rewrite <- !app_assoc, F1, F2, EM. apply H.
Qed.

(** ... and if that is large, the result is +infinity with overflow or +0 with underflow. *)
Theorem C69_exponent_wraps_far : forall t n x E c rest want fb errno, well_formed n -> n_exp n = Some x -> coefficient n <> 0 -> within_limits n ->
  ends_number c -> exponent_taken (dval (x_digits x)) E -> 10000 <= Z.abs E <= 2000000000 ->
  atof (fmt_of t) (written n ++ c :: rest) want fb errno =
    Ok (answer want errno (if signed (x_sign x) E <? 0 then zero_of t false else infinity_of t false)
                          (if signed (x_sign x) E <? 0 then underflow else overflow) (len (written n))).
Proof.
  intros t n x E c rest want fb errno W HX CN [L1 L2] Hc HT HE.
  pose proof (parse_exponent_taken n x E c rest W Hc HX L2 HT ltac:(lia)) as P1.
  destruct (exponent_first n x HX) as (mk & r & F1 & B1). 
  destruct (krosh_mantissa_any t n W CN L1) as (K & f & e & HK & Hf & He & H).
  pose proof (H mk (r ++ c :: rest) B1) as E1.
  replace (mk :: r ++ c :: rest) with (exponent_text n ++ c :: rest) in E1 by (now rewrite F1).
  rewrite P1 in E1. cbn [bind] in E1.
  assert (SR : 10000 <= Z.abs (signed (x_sign x) E) <= 2000000000) by (unfold signed; destruct (is_minus (x_sign x)); lia).
  set (ev := signed (x_sign x) E) in *. clearbody ev.
  rewrite sint_ok in E1 by lia. cbn [bind] in E1. unfold kr_scale in E1.
  assert (EL : fpow_lo (fmt_of t) = - table_max t /\ fpow_hi (fmt_of t) = table_max t) by (destruct t; auto).
  assert (T0 : 0 <= table_max t <= 400) by (destruct t; cbn; lia).
  destruct EL as [EL1 EL2]. rewrite EL1, EL2 in E1.
  unfold written. rewrite <- app_assoc.
  assert (LE : zlen (mantissa_text n) + len (exponent_text n) = len (mantissa_text n ++ exponent_text n)) by (unfold len, zlen; rewrite app_length; lia).
  rewrite LE in E1. pose proof (mantissa_nonempty n W). pose proof (zlen_nonneg (mantissa_text n)).
  assert (NZ : len (mantissa_text n ++ exponent_text n) <> 0) by (unfold len, zlen in *; rewrite app_length; lia).
  destruct (Z.eqb_spec (K + ev) 0); [lia|].
  destruct (Z.ltb_spec ev 0) as [Ne|Ne].
  - destruct (Z.leb_spec (- table_max t) (K + ev)); [lia|]. rewrite (atof_fast t _ want fb errno _ _ _ E1 NZ). reflexivity.
  - destruct (Z.leb_spec (- table_max t) (K + ev)); [|lia]. destruct (Z.leb_spec (K + ev) (table_max t)); [lia|].
    rewrite (atof_fast t _ want fb errno _ _ _ E1 NZ). destruct t; reflexivity.
Qed.
