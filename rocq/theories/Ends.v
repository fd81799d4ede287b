(** C75, C76: how much of any text atof takes; what ends a number. *)
From Coq Require Import Reals Lra Lia ZArith List String Ascii.
From Flocq Require Import Core.
From Verif Require Import Machine MachineFacts BitOps StaticPow Fraction Format DiyFp KComp Chars Krosh Atof Spec ParseSpec TextSpec ReadSpec ParseApi Instances
  DiyFacts BoundFacts TableFacts GrisuFacts FtoaFacts RoundFacts DownFacts DvalFacts CmpFacts ArithProps ScanFacts LoopFacts ParseFacts GapFacts KroshNum ShortFacts FracFacts LongFacts ParseProps Refuted LocalFacts LocalProps NegFacts Marker Tokens Truncate Defined.
Open Scope Z_scope.

(** * What follows a mantissa does not matter *)

Lemma extract_two : forall k a c1 c2 r1 r2 p, nondigit c1 -> nondigit c2 -> 0 <= p <= zlen a ->
  same (extract_loop (a ++ c1 :: r1) p k) (extract_loop (a ++ c2 :: r2) p k) (fun ds => List.length ds = k /\ Forall digit ds).
Proof.
  intros k a c1 c2 r1 r2. induction k as [|k IH]; intros p N1 N2 Hp; [apply same_ok; split; [reflexivity|constructor]|].
  assert (N : forall c, nondigit c -> (0 <=? c - ch_0) && (c - ch_0 <=? 9) = false).
  { intros c A. unfold nondigit in A. unfold ch_0. destruct (Z.leb_spec 0 (c - 48)), (Z.leb_spec (c - 48) 9); cbn; try reflexivity; lia. }
  cbn [extract_loop]. destruct (Z.eq_dec p (zlen a)) as [-> |L].
  - rewrite !read_app by reflexivity. cbn [bind]. cbv zeta. rewrite !N by assumption.
    apply same_ok. split; [apply repeat_length|apply digits_zeros].
  - destruct (read_in a p ltac:(lia)) as (x & R). rewrite !read_app1 by lia. rewrite R. cbn [bind]. cbv zeta.
    destruct ((0 <=? x - ch_0) && (x - ch_0 <=? 9)) eqn:E.
    + eapply same_bind; [apply IH; auto; lia|]. intros ds [D1 D2]. apply same_ok. split; [cbn; lia|].
      apply andb_true_iff in E as [A B]. apply Z.leb_le in A, B. constructor; [unfold digit; lia|assumption].
    + apply same_ok. split; [apply repeat_length|apply digits_zeros].
Qed.

Lemma extract_fraction_two : forall a c1 c2 r1 r2 p, nondigit c1 -> nondigit c2 -> 0 <= p <= zlen a ->
  extract_fraction_digits 4 (a ++ c1 :: r1) p = extract_fraction_digits 4 (a ++ c2 :: r2) p.
Proof.
  intros a c1 c2 r1 r2 p N1 N2 Hp. unfold extract_fraction_digits.
  destruct (extract_two 4 a c1 c2 r1 r2 p N1 N2 Hp) as (x & -> & -> & _). reflexivity.
Qed.

Lemma first_nonzero : forall A d B A' d' B' P z z', Forall digit (A ++ d :: B) -> A ++ d :: B = A' ++ d' :: B' ->
  0 < P -> 0 < d -> 0 < d' -> 0 <= z -> 0 <= z' -> dval A = P * 10 ^ z -> dval A' = P * 10 ^ z' -> (List.length A <= List.length A')%nat ->
  A = A' /\ z = z'.
Proof.
  intros A d B A' d' B' P z z' HD E HP Hd Hd' Hz Hz' E1 E2 L.
  assert (X : exists X, A' = A ++ X).
  { exists (skipn (List.length A) A'). rewrite <- (firstn_skipn (List.length A) A') at 1. f_equal.
    apply (f_equal (firstn (List.length A))) in E. rewrite !firstn_app, Nat.sub_diag, firstn_all, app_nil_r in E.
    replace (List.length A - List.length A')%nat with 0%nat in E by lia. cbn [firstn] in E. rewrite app_nil_r in E. now symmetry. }
  destruct X as (X & ->). rewrite <- app_assoc in E. apply app_inv_head in E.
  destruct X as [|x X].
  - rewrite app_nil_r in *. split; [reflexivity|]. rewrite E1 in E2.
    apply Z.mul_reg_l in E2; [|lia]. now apply Z.pow_inj_r in E2.
  - exfalso. cbn [app] in E. injection E as <- E. rewrite dval_app, dval_cons in E2.
    apply Forall_app in HD as [_ HD]. inversion_clear HD as [|? ? HD1 HD2]. rewrite E in HD2. apply Forall_app in HD2 as [HX _].
    pose proof (dval_bounds X HX) as BX. rewrite zlen_cons, E1 in E2.
    set (r := d * 10 ^ zlen X + dval X) in *. set (q := z + (1 + zlen X)) in *. pose proof (zlen_nonneg X).
    assert (PX : 0 < 10 ^ zlen X) by (apply pow10_pos; lia).
    assert (R0 : 0 < r) by (unfold r; assert (0 < d * 10 ^ zlen X) by (apply Z.mul_pos_pos; lia); lia).
    assert (R1 : r < 10 ^ (1 + zlen X)).
    { rewrite Z.pow_add_r by lia. change (10 ^ 1) with 10. unfold r, digit in *. assert (d * 10 ^ zlen X <= 9 * 10 ^ zlen X) by (apply Z.mul_le_mono_nonneg_r; lia). lia. }
    assert (EQ : P * 10 ^ q + r = P * 10 ^ z') by (unfold q; rewrite Z.pow_add_r by lia; rewrite <- E2; ring).
    assert (QZ : 10 ^ (1 + zlen X) <= 10 ^ q) by (apply Z.pow_le_mono_r; unfold q; lia).
    destruct (Z.le_gt_cases z' q) as [Lq|Lq].
    + assert (10 ^ z' <= 10 ^ q) by (apply Z.pow_le_mono_r; lia). assert (P * 10 ^ z' <= P * 10 ^ q) by (apply Z.mul_le_mono_nonneg_l; lia). lia.
    + assert (10 * 10 ^ q <= 10 ^ z').
      { replace (10 * 10 ^ q) with (10 ^ (1 + q)) by (rewrite Z.pow_add_r by (unfold q; lia); reflexivity). apply Z.pow_le_mono_r; lia. }
      assert (P * (10 * 10 ^ q) <= P * 10 ^ z') by (apply Z.mul_le_mono_nonneg_l; lia).
      assert (1 * 10 ^ q <= P * 10 ^ q) by (apply Z.mul_le_mono_nonneg_r; unfold q; lia). lia.
Qed.

Lemma frac_two : forall a s1 s2 so D nf P f1 f2, (forall p, 0 <= p <= zlen a -> extract_fraction_digits 4 s1 p = extract_fraction_digits 4 s2 p) ->
  0 <= so -> so + zlen D <= zlen a -> Forall digit D -> 0 < P -> frac_fact s1 so D nf P f1 -> frac_fact s2 so D nf P f2 -> f1 = f2.
Proof.
  intros a s1 s2 so D nf P f1 f2 HX S0 SL HD HP (A & d & B & z & T & E & H1 & H2 & H3 & H4 & H5 & H6) (A' & d' & B' & z' & T' & E' & H1' & H2' & H3' & H4' & H5' & H6').
  assert (A = A' /\ z = z') as [<- <-].
  { destruct (le_ge_dec (List.length A) (List.length A')).
    - apply (first_nonzero A d B A' d' B' P z z'); try assumption; try lia; congruence.
    - destruct (first_nonzero A' d' B' A d B P z' z); try assumption; try lia; try congruence; auto. }
  rewrite HX, H4' in H4; [congruence|].
  rewrite E in *. rewrite zlen_app, zlen_cons in *. pose proof (zlen_nonneg A). pose proof (zlen_nonneg B).
  destruct (_ <=? zlen A); cbn [b2z]; lia.
Qed.

Lemma digits_two : forall t n c1 r1 c2 r2, bare n -> cannot_continue n c1 -> cannot_continue n c2 ->
  parse_digits (fmt_of t) (mantissa_text n ++ c1 :: r1) = parse_digits (fmt_of t) (mantissa_text n ++ c2 :: r2).
Proof.
  intros t n c1 r1 c2 r2 X H1 H2.
  destruct (scan_any t n c1 r1 X H1) as (y & st & e & r & Ht & Hi & He & _ & _ & Hp).
  destruct (scan_any t n c2 r2 X H2) as (y' & st' & e' & r' & Ht' & Hi' & He' & _ & _ & Hp').
  assert (y' = y) as -> by (apply (taken_unique n); assumption). rewrite Hp, Hp'. rewrite He, He'.
  destruct (scan_value _ _ _ _ _ _ Hi) as (q & R & T1 & T2 & T3 & T4 & T5).
  destruct (scan_value _ _ _ _ _ _ Hi') as (q' & R' & T1' & T2' & T3' & T4' & T5').
  pose proof Ht as ((Y1 & Y2 & Y3) & YS & YL).
  assert (NZ : forall s st, scan_inv (decimal_q (fmt_of t)) s (n_sign y) (n_int y) (n_frac y) st -> coefficient y = 0 -> dval (pd_digits st) = 0).
  { intros s0 st0 H0 C0. destruct (scan_value _ _ _ _ _ _ H0) as (q0 & R0 & A1 & A2 & A3 & _ & _). unfold coefficient in C0. rewrite frac_odig in C0.
    pose proof H0 as (_ & _ & _ & _ & _ & D1 & _). pose proof (dval_bounds _ D1). pose proof (pow10_pos q0 A1).
    destruct (Z.eq_dec (dval (pd_digits st0)) 0); [assumption|exfalso].
    assert (0 < dval (pd_digits st0) * 10 ^ q0) by (apply Z.mul_pos_pos; lia). lia. }
  destruct (Z.eq_dec (coefficient y) 0) as [C0|C0].
  - pose proof (NZ _ _ Hi C0) as Z1. pose proof (NZ _ _ Hi' C0) as Z2.
    destruct (T5 Z1) as (_ & _ & K1). destruct (T5' Z2) as (_ & _ & K2).
    assert (F0 : forall s st, scan_inv (decimal_q (fmt_of t)) s (n_sign y) (n_int y) (n_frac y) st -> dval (pd_digits st) = 0 -> pd_frac st = 0).
    { clear. intros s st H Z0. destruct (scan_frac _ _ _ _ _ _ H) as (_ & _ & F). destruct (Z.eq_dec (pd_frac st) 0) as [|NE]; [assumption|exfalso].
      specialize (F NE). rewrite Z0 in F. pose proof (pow10_pos (exact_digits t - 1) ltac:(destruct t; cbn; lia)). lia. }
    unfold digit_result. rewrite Z1, Z2, K1, K2, (F0 _ _ Hi Z1), (F0 _ _ Hi' Z2). reflexivity.
  - destruct (scan_moved t _ y st Y1 Hi C0) as [M1 Z1]. destruct (scan_moved t _ y st' Y1 Hi' C0) as [M2 _].
    destruct (moved_unique _ _ _ _ _ _ M1 M2) as [ED EK]. unfold digit_result. rewrite <- ED, <- EK. do 2 f_equal.
    pose proof Hi as (_ & _ & _ & _ & _ & D1 & _ & _ & _ & D5). pose proof Hi' as (_ & _ & _ & _ & _ & D1' & _ & _ & _ & D5').
    pose proof (dval_bounds _ D1). pose proof (dval_bounds _ D1').
    assert (DF : forall s st, scan_inv (decimal_q (fmt_of t)) s (n_sign y) (n_int y) (n_frac y) st -> dval (pd_digits st) = dval (pd_digits st') ->
       (pd_frac st = 0 /\ exists q, 0 <= q /\ coefficient y = dval (pd_digits st) * 10 ^ q) \/
       (frac_fact s (zlen (sign_text (n_sign y))) (n_int y ++ odig (n_frac y)) (zlen (odig (n_frac y))) (dval (pd_digits st)) (pd_frac st) /\
        exists q R, 0 <= q /\ 0 < R < 10 ^ q /\ coefficient y = dval (pd_digits st) * 10 ^ q + R)).
    { clear - Z1 ED. intros s st0 (_ & _ & _ & _ & _ & E1 & E2 & E3 & E4 & E5) EE. unfold coefficient. rewrite frac_odig.
      destruct E5 as [(E & _)|[(_ & _ & _ & _ & E & _ & _ & _ & F)|(_ & _ & q & R & Q1 & Q2 & Q3 & _ & [(_ & F1 & _ & _ & F)|(_ & F1 & F)])]].
      - exfalso. rewrite E in EE. cbn in EE. congruence.
      - left. split; [exact F|]. exists (pd_zeros st0). split; [lia|exact E].
      - left. split; [exact F|]. exists q. split; [lia|]. rewrite Q2, F1. lia.
      - right. split; [exact F|]. exists q, R. split; [lia|]. split; [lia|exact Q2]. }
    assert (Ex : forall q1 q2 R d, 0 <= q1 -> 0 <= q2 -> 0 < R < 10 ^ q2 -> 0 < d -> d * 10 ^ q1 = d * 10 ^ q2 + R -> False).
    { clear. intros q1 q2 R d Q1 Q2 HR Hd E. destruct (same_split (d * 10 ^ q1) d q1 0 q2 R Hd Q1 Q2) as [_ B]; try lia. }
    destruct (DF _ _ Hi ED) as [(F1 & q1 & G1 & G2)|(F1 & q1 & Q1 & G1 & G2 & G3)], (DF _ _ Hi' eq_refl) as [(F2 & q2 & G1' & G2')|(F2 & q2 & Q2 & G1' & G2' & G3')].
    + congruence.
    + exfalso. rewrite <- ED in *. exact (Ex q1 q2 Q2 (dval (pd_digits st)) G1 G1' G2' ltac:(lia) (eq_trans (eq_sym G2) G3')).
    + exfalso. rewrite <- ED in *. exact (Ex q2 q1 Q1 (dval (pd_digits st)) G1' G1 G2 ltac:(lia) (eq_trans (eq_sym G2') G3)).
    + rewrite <- ED in F2.
      refine (frac_two (mantissa_text n) _ _ _ _ _ _ _ _ _ _ _ _ _ F1 F2).
      * intros p Hp0. apply extract_fraction_two; [exact (proj1 H1)|exact (proj1 H2)|exact Hp0].
      * apply zlen_nonneg.
      * assert (LY : zlen (mantissa_text y) <= zlen (mantissa_text n)).
        { unfold zlen. destruct YL as [[_ ->]|(_ & _ & b & ->)]; [lia|]. rewrite app_length. lia. }
        rewrite (mant_text y), zlen_mant in LY. rewrite zlen_app, zlen_sign. destruct (n_frac y); cbn [is_some b2z] in LY; lia.
      * apply Forall_app. split; [exact Y2|now rewrite <- frac_odig].
      * lia.
Qed.

(** where the scan of a bare number ends, and that no e is seen there if it was cut *)
Lemma behind_cut : forall (t : ftype) n c r, bare n -> cannot_continue n c -> 2049 < zlen (mantissa_text n) ->
  parse_exponent (skipn (Z.to_nat 2049) (mantissa_text n ++ c :: r)) = Ok (0, 0).
Proof.
  intros t n c r X H L. destruct (scan_any t n c r X H) as (y & st & e & z & Ht & Hi & He & Hs & Hr & Hp).
  destruct (Z.leb_spec (zlen (mantissa_text n)) 2049); [lia|]. destruct (Hr L) as [Hr1 Hr2]. rewrite Z.min_r in He by lia. subst e. rewrite Hs.
  destruct z as [|x z]; [contradiction|]. cbn [hd] in Hr1. unfold parse_exponent. change (read (x :: z) 0) with (Ok x). cbn [bind]. unfold ch_e, ch_E.
  destruct (Z.eqb_spec x 101) as [-> |]; [exfalso; apply Hr1; left; reflexivity|].
  destruct (Z.eqb_spec x 69) as [-> |]; [exfalso; apply Hr1; right; reflexivity|]. reflexivity.
Qed.

Lemma parse_exponent_no : forall c r, ~ e_letter c -> parse_exponent (c :: r) = Ok (0, 0).
Proof.
  intros c r H. unfold parse_exponent. change (read (c :: r) 0) with (Ok c). cbn [bind]. unfold ch_e, ch_E.
  destruct (Z.eqb_spec c 101) as [-> |]; [exfalso; apply H; left; reflexivity|].
  destruct (Z.eqb_spec c 69) as [-> |]; [exfalso; apply H; right; reflexivity|]. reflexivity.
Qed.

(** a bare number not followed by an exponent *)
Lemma krosh_bare : forall t n c r, bare n -> cannot_continue n c ->
  coefficient n = 0 \/ (parser_limit < List.length (mantissa_text n))%nat \/ ~ e_letter c ->
  exists v st acc, krosh (fmt_of t) (mantissa_text n ++ c :: r) =
      Ok {| kr_value := v; kr_str_end := Z.min (zlen (mantissa_text n)) 2049; kr_status := st; kr_is_accurate := acc |} /\
    (coefficient n = 0 -> (List.length (mantissa_text n) <= parser_limit)%nat -> v = zero_of t (is_minus (n_sign n)) /\ st = success /\ acc = true) /\
    forall c' r', cannot_continue n c' -> coefficient n = 0 \/ (parser_limit < List.length (mantissa_text n))%nat \/ ~ e_letter c' ->
      krosh (fmt_of t) (mantissa_text n ++ c' :: r') = krosh (fmt_of t) (mantissa_text n ++ c :: r).
Proof.
  intros t n c r X H Hc.
  destruct (scan_any t n c r X H) as (y & st & e & z & Ht & Hi & He & Hs & Hr & Hp).
  destruct (scan_frac _ _ _ _ _ _ Hi) as (P1 & P2 & P3). pose proof Ht as ((Y1 & Y2 & Y3) & YS & YL).
  assert (G : forall c' r', cannot_continue n c' -> coefficient n = 0 \/ (parser_limit < List.length (mantissa_text n))%nat \/ ~ e_letter c' ->
    dval (pd_digits st) <> 0 -> parse_exponent (skipn (Z.to_nat e) (mantissa_text n ++ c' :: r')) = Ok (0, 0)).
  { intros c' r' H' Hc' Z0. destruct (Z.le_gt_cases (zlen (mantissa_text n)) 2049) as [L|L].
    - rewrite Z.min_l in He by lia. rewrite He, skipn_zlen.
      destruct Hc' as [C0|[C0|C0]]; [exfalso|exfalso; unfold parser_limit, zlen in *; lia|now apply parse_exponent_no].
      assert (y = n) as ->.
      { apply (taken_unique n); [exact X|exact Ht|]. split; [exact X|]. split; [reflexivity|]. left. unfold parser_limit, zlen in *. split; [lia|reflexivity]. }
      destruct (scan_value _ _ _ _ _ _ Hi) as (q & R & T1 & T2 & T3 & _ & _). unfold coefficient in C0. rewrite frac_odig in C0.
      pose proof (pow10_pos q T1). assert (0 < dval (pd_digits st) * 10 ^ q) by (apply Z.mul_pos_pos; lia). lia.
    - rewrite Z.min_r in He by lia. subst e. now apply (behind_cut t). }
  assert (V0 : dval (pd_digits st) = 0 -> forall c' r', cannot_continue n c' -> krosh (fmt_of t) (mantissa_text n ++ c' :: r') =
    Ok {| kr_value := zero_of t (is_minus (n_sign n)); kr_str_end := e; kr_status := success; kr_is_accurate := true |}).
  { intros Z0 c' r' H'. rewrite krosh_by_parts, (digits_two t n c' r' c r X H' H), Hp. cbn [bind digit_result dp_special dp_value dp_str_end dp_sign].
    rewrite Z0. cbn [Z.eqb]. rewrite apply_sign_zero, YS. reflexivity. }
  destruct (Z.eq_dec (dval (pd_digits st)) 0) as [Z0|Z0].
  - exists (zero_of t (is_minus (n_sign n))), success, true. rewrite <- He. split; [now apply V0|]. split; [auto|]. intros c' r' H' _. rewrite !V0 by assumption. reflexivity.
  - destruct (mantissa_total t (dval (pd_digits st)) (pd_frac st) ltac:(lia) P2 P3) as (f & ee & M1 & M2 & M3).
    pose proof (width_facts t). pose proof (pow2_pos (width t - 1) ltac:(lia)).
    assert (KB : - 5000 <= pd_pow_gain st - pd_fraction_count st <= 5000).
    { pose proof Hi as (_ & _ & _ & _ & _ & D1 & D2 & D3 & D4 & _).
      assert (zlen (mantissa_text y) <= 2050).
      { unfold zlen, parser_limit in *. destruct YL as [[L1 ->]|(_ & L1 & _)]; lia. }
      rewrite mant_text, zlen_mant in *. rewrite zlen_app in *.
      assert (0 <= b2z (has_sign (n_sign y)) /\ 0 <= b2z (is_some (n_frac y))) by (destruct (n_sign y), (n_frac y); cbn; lia). lia. }
    destruct (kr_scale_total t (is_minus (n_sign y)) e (pd_pow_gain st - pd_fraction_count st) f ee M2 M3) as (v & s0 & acc & KS).
    assert (V : forall c' r', cannot_continue n c' -> coefficient n = 0 \/ (parser_limit < List.length (mantissa_text n))%nat \/ ~ e_letter c' ->
       krosh (fmt_of t) (mantissa_text n ++ c' :: r') = Ok {| kr_value := v; kr_str_end := e; kr_status := s0; kr_is_accurate := acc |}).
    { intros c' r' H' Hc'. rewrite krosh_by_parts, (digits_two t n c' r' c r X H' H), Hp. cbn [bind digit_result dp_special dp_value dp_frac dp_str_end dp_K dp_sign].
      destruct (Z.eqb_spec (dval (pd_digits st)) 0); [contradiction|].
      rewrite M1. cbn [bind m_f]. destruct (Z.eqb_spec f 0); [lia|]. rewrite (G c' r' H' Hc' Z0). cbn [bind].
      rewrite !Z.add_0_r, sint_ok by (change (2 ^ 31) with 2147483648; lia). cbn [bind]. rewrite negb_involutive. exact KS. }
    exists v, s0, acc. rewrite <- He. split; [now apply V|]. split; [|intros c' r' H' Hc'; rewrite !V by assumption; reflexivity].
    intros C0 L. exfalso. assert (y = n) as ->.
    { apply (taken_unique n); [exact X|exact Ht|]. split; [exact X|]. split; [reflexivity|]. left. auto. }
    destruct (scan_value _ _ _ _ _ _ Hi) as (q & R & T1 & T2 & T3 & _ & _). unfold coefficient in C0. rewrite frac_odig in C0.
    pose proof (pow10_pos q T1). assert (0 < dval (pd_digits st) * 10 ^ q) by (apply Z.mul_pos_pos; lia). lia.
Qed.

(** C76: a number ends where it cannot go on, and what stands there and behind does not matter,
    unless it is an exponent. *)
Theorem C76_what_follows : forall t n c1 r1 c2 r2, bare n -> cannot_continue n c1 -> cannot_continue n c2 ->
  coefficient n = 0 \/ ~ e_letter c1 /\ ~ e_letter c2 ->
  let s1 := mantissa_text n ++ c1 :: r1 in let s2 := mantissa_text n ++ c2 :: r2 in
  (exists v st, forall want fb errno,
     atof (fmt_of t) s1 want fb errno = Ok (answer want errno v st (Z.min (len (mantissa_text n)) 2049)) /\
     atof (fmt_of t) s2 want fb errno = Ok (answer want errno v st (Z.min (len (mantissa_text n)) 2049))) \/
  (forall want fb errno, atof (fmt_of t) s1 want fb errno = fallback_answer t s1 want fb errno /\
     atof (fmt_of t) s2 want fb errno = fallback_answer t s2 want fb errno).
Proof.
  intros t n c1 r1 c2 r2 X H1 H2 Hc s1 s2.
  destruct (krosh_bare t n c1 r1 X H1 ltac:(tauto)) as (v & st & acc & K1 & _ & KS).
  pose proof (KS c2 r2 H2 ltac:(tauto)) as K2. rewrite K1 in K2. fold s1 in K1. fold s2 in K2.
  change zlen with len in *. destruct (Z.eq_dec (Z.min (len (mantissa_text n)) 2049) 0) as [E|E].
  - left. exists 0, success. intros want fb errno. rewrite E in *. unfold atof. rewrite K1, K2. cbn [bind kr_str_end Z.eqb negb]. split; reflexivity.
  - destruct acc; [left; exists v, st|right]; intros want fb errno.
    + split; [exact (atof_fast t s1 want fb errno _ _ _ K1 E)|exact (atof_fast t s2 want fb errno _ _ _ K2 E)].
    + split; [exact (atof_slow t s1 want fb errno _ _ _ K1 E)|exact (atof_slow t s2 want fb errno _ _ _ K2 E)].
Qed.

(** ... and if it has no digit but zeros, not even that: the result is a zero, also for texts without
    any digit. *)
Theorem C76_no_digits : forall t n c r want fb errno, bare n -> cannot_continue n c -> coefficient n = 0 ->
  (List.length (mantissa_text n) <= parser_limit)%nat ->
  atof (fmt_of t) (mantissa_text n ++ c :: r) want fb errno =
    Ok (answer want errno (zero_of t (is_minus (n_sign n))) success (len (mantissa_text n))).
Proof.
  intros t n c r want fb errno X H C0 L.
  destruct (krosh_bare t n c r X H (or_introl C0)) as (v & st & acc & K1 & KZ & _). destruct (KZ C0 L) as (-> & -> & ->).
  rewrite Z.min_l in K1 by (unfold zlen, parser_limit in *; lia). change zlen with len in K1.
  destruct (Z.eq_dec (len (mantissa_text n)) 0) as [E|E]; [|exact (atof_fast t _ want fb errno _ _ _ K1 E)].
  assert (n_sign n = NoSign) as ->.
  { rewrite mant_text in E. change len with zlen in E. rewrite zlen_mant in E. pose proof (zlen_nonneg (n_int n)). pose proof (zlen_nonneg (odig (n_frac n))).
    destruct (n_sign n); [reflexivity| |]; cbn [has_sign b2z] in E; destruct (n_frac n); cbn [is_some b2z] in E; lia. }
  unfold atof. rewrite K1, E. reflexivity.
Qed.
