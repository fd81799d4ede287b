(** What atof does at and beyond the limits of the type: C32, C33, C34, C36. *)
From Coq Require Import Reals Lra Lia ZArith List String Ascii.
From Flocq Require Import Core.
From Verif Require Import Machine MachineFacts BitOps StaticPow Fraction Format DiyFp KComp Krosh Atof Spec ParseSpec ParseApi Instances
  DiyFacts BoundFacts TableFacts GrisuFacts FtoaFacts RoundFacts DownFacts DvalFacts CmpFacts ArithProps ScanFacts LoopFacts ParseFacts GapFacts KroshNum ShortFacts FracFacts LongFacts RangeFacts ScaledFacts ParseProps.
Open Scope Z_scope.

(** C34: decimal exponents outside the tables *)
Theorem C34_above_tables : forall t n c rest want fb errno d K, well_formed n -> ends_number c -> within_limits n -> readable_exponent n ->
  point_moved t n d K -> largest_power t < K ->
  atof (fmt_of t) (written n ++ c :: rest) want fb errno
  = Ok (answer want errno (infinity_of t false) overflow (len (written n))).
Proof.
  intros t n c rest want fb errno d K W Hc L SE PM G. destruct (krosh_scaled t n c rest d K W Hc L SE PM) as (A & _ & _).
  exact (atof_fast _ _ _ _ _ _ _ _ (A G) (written_nonempty n W)).
Qed.

Theorem C34_below_tables : forall t n c rest want fb errno d K, well_formed n -> ends_number c -> within_limits n -> readable_exponent n ->
  point_moved t n d K -> K < - largest_power t ->
  atof (fmt_of t) (written n ++ c :: rest) want fb errno = Ok (answer want errno (zero_of t false) underflow (len (written n))).
Proof.
  intros t n c rest want fb errno d K W Hc L SE PM G. destruct (krosh_scaled t n c rest d K W Hc L SE PM) as (_ & A & _).
  exact (atof_fast _ _ _ _ _ _ _ _ (A G) (written_nonempty n W)).
Qed.

Lemma pow10_le_moved : forall t n d K, point_moved t n d K -> (pow10 K <= abs_value n < pow10 (K + exact_digits t))%R.
Proof.
  intros t n d K PM. pose proof (abs_value_moved t n d K PM) as [A B]. destruct PM as (Hd & _).
  assert (0 <= exact_digits t) by (destruct t; cbn; lia). pose proof (bpow_gt_0 radix10 K). split.
  - apply Rle_trans with (2 := A). rewrite <- (Rmult_1_l (pow10 K)) at 1. apply Rmult_le_compat_r; [lra|]. apply IZR_le. lia.
  - apply Rlt_le_trans with (1 := B). rewrite (Z.add_comm K), bpow_plus. apply Rmult_le_compat_r; [lra|].
    rewrite <- pow10_IZR by lia. apply IZR_le. lia.
Qed.

Lemma rnd_overflow : forall t x, (bpow radix2 (max_exp t) <= x)%R -> (bpow radix2 (max_exp t) <= rnd t x)%R.
Proof. intros t x H. rewrite <- (rnd_bpow t (max_exp t)) by (destruct t; cbn; lia). now apply rnd_mono. Qed.

Lemma rnd_underflow : forall t x, (0 <= x)%R -> (x < / 2 * bpow radix2 (min_exp t))%R -> rnd t x = 0%R.
Proof.
  intros t x H0 H. destruct (Req_dec x 0) as [->|N]; [apply rnd_0|].
  unfold rnd. apply round_N_small_pos with (ex := mag radix2 x); [destruct (mag radix2 x) as [e He]; cbn; rewrite Rabs_pos_eq in He by assumption; now apply He|].
  destruct (mag radix2 x) as [e He]. cbn. specialize (He N). rewrite Rabs_pos_eq in He by assumption.
  assert (e - 1 < min_exp t - 1).
  { apply (lt_bpow radix2). apply Rle_lt_trans with (1 := proj1 He). replace (min_exp t - 1) with (-1 + min_exp t) by lia. rewrite bpow_plus. exact H. }
  unfold FLT_exp. lia.
Qed.

(** for double these answers have the right magnitude *)
Theorem C34_double_magnitude : forall n d K, well_formed n -> point_moved Double n d K ->
  (largest_power Double < K -> (bpow radix2 (max_exp Double) <= Rabs (rnd Double (value n)))%R) /\
  (K < - largest_power Double -> rnd Double (value n) = 0%R).
Proof.
  intros n d K W PM. pose proof (pow10_le_moved Double n d K PM) as [A B]. pose proof (abs_value_nonneg n W) as Y0.
  split; intros G; cbn [largest_power exact_digits] in *.
  - rewrite rnd_value_abs by assumption. apply rnd_overflow. apply Rle_trans with (1 := max_lt_10 Double).
    apply Rle_trans with (2 := A). apply bpow_le. lia.
  - assert (Z0 : rnd Double (abs_value n) = 0%R).
    { apply rnd_underflow; [assumption|]. apply Rlt_le_trans with (1 := B).
      apply Rle_trans with (pow10 (-325)); [apply bpow_le; lia|].
      apply Rle_trans with (1 * pow10 (-325))%R; [lra|].
      replace (/ 2 * bpow radix2 (min_exp Double))%R with (1 * bpow radix2 (-1075))%R.
      - left. apply dec_lt_bin. vm_compute. reflexivity.
      - replace (-1075) with (-1 + -1074) by lia. rewrite bpow_plus. change (bpow radix2 (-1)) with (/ 2)%R. cbn [min_exp]. ring. }
    pose proof (rnd_value_abs Double n W) as E. rewrite Z0 in E.
    destruct (Req_dec (rnd Double (value n)) 0) as [|N]; [assumption|]. apply Rabs_pos_lt in N. lra.
Qed.

Lemma zero_signed : forall t neg, zero t (zero_of t neg).
Proof. intros t neg. split; [|split]; destruct t, neg; vm_compute; try split; congruence. Qed.
Lemma infinite_signed : forall t neg, infinite t (infinity_of t neg).
Proof. intros t neg. split; [|split]; destruct t, neg; vm_compute; try split; congruence. Qed.
Lemma apply_sign_zero : forall t neg, apply_sign (fmt_of t) (negb neg) 0 = zero_of t neg.
Proof. intros t neg. destruct t, neg; reflexivity. Qed.
Lemma apply_sign_inf : forall t neg, apply_sign (fmt_of t) (negb neg) (infinity_of t false) = infinity_of t neg.
Proof. intros t neg. destruct t, neg; vm_compute; reflexivity. Qed.

(** C36: everything below the smallest denormal becomes zero, also what is nearer to the
    smallest denormal than to zero. *)
Theorem C36_flushed_to_zero : forall t n c rest want fb errno, well_formed n -> ends_number c -> within_limits n -> readable_exponent n ->
  (0 < Rabs (value n) <= bpow radix2 (min_exp t) * (1 - bpow radix2 (- precision t)))%R ->
  exists v, zero t v /\
    atof (fmt_of t) (written n ++ c :: rest) want fb errno = Ok (answer want errno v underflow (len (written n))).
Proof.
  intros t n c rest want fb errno W Hc L SE [H1 H2]. pose proof (width_facts t) as Ww. rewrite value_abs in * by assumption.
  assert (CN : coefficient n <> 0). { intros C. unfold abs_value in H1. rewrite C in H1. lra. }
  destruct (point_moved_exists t n W L CN) as (d & K & PM).
  pose proof (bpow_gt_0 radix2 (- precision t)) as Pp. pose proof (bpow_gt_0 radix2 (min_exp t)) as Pm.
  destruct (Z.lt_ge_cases K (- largest_power t)) as [G1|G1].
  { exists (zero_of t false). split; [apply zero_signed|]. now apply C34_below_tables with d K. }
  destruct (Z.lt_ge_cases (largest_power t) K) as [G2|G2].
  { exfalso. pose proof (pow10_le_moved t n d K PM) as [A _].
    assert (1 <= pow10 K)%R by (apply (bpow_le radix10 0 K); destruct t; cbn [largest_power] in G2; lia).
    assert (bpow radix2 (min_exp t) < 1)%R by (apply (bpow_lt radix2 (min_exp t) 0); lia). nra. }
  destruct (krosh_scaled t n c rest d K W Hc L SE PM) as (_ & _ & A). destruct A as (q & x & A1 & A2 & A3 & A4); [lia|].
  pose proof (pow2_pos (width t - 2) ltac:(lia)).
  destruct (scaled_relative t q x (abs_value n) ltac:(lia) A4) as ([B1 B2] & B3).
  destruct (finish_norm t (is_minus (n_sign n)) (zlen (written n)) q x ltac:(lia) A3) as (f & e & F1 & F2 & F3).
  assert (Zs : (IZR q * bpow radix2 x < bpow radix2 (min_exp t))%R).
  { apply Rnot_le_lt. intros C.
    assert (bpow radix2 (min_exp t) * (1 - bpow radix2 (- precision t)) <= IZR q * bpow radix2 x * (1 - bpow radix2 (- precision t)))%R.
    { apply Rmult_le_compat_r; [|exact C]. assert (bpow radix2 (- precision t) < 1)%R by (apply (bpow_lt radix2 _ 0); lia). lra. }
    lra. }
  rewrite <- F2 in Zs. rewrite (downsample_small t f e F1 Zs) in F3. cbn [bind ds_value ds_status ds_is_accurate] in F3.
  rewrite F3, apply_sign_zero in A1.
  exists (zero_of t (is_minus (n_sign n))). split; [apply zero_signed|].
  exact (atof_fast _ _ _ _ _ _ _ _ A1 (written_nonempty n W)).
Qed.

(** C33: overflow is noticed when the value is too large by a factor of [2^63] ([2^31]) ... *)
Theorem C33_overflow_partial : forall t n c rest want fb errno, well_formed n -> ends_number c -> within_limits n -> readable_exponent n ->
  (bpow radix2 (max_exp t + width t - 1) * (1 + bpow radix2 (- precision t)) <= Rabs (value n))%R ->
  exists v, infinite t v /\
    atof (fmt_of t) (written n ++ c :: rest) want fb errno = Ok (answer want errno v overflow (len (written n))).
Proof.
  intros t n c rest want fb errno W Hc L SE H. pose proof (width_facts t) as Ww. rewrite value_abs in * by assumption.
  pose proof (bpow_gt_0 radix2 (max_exp t + width t - 1)) as Pm. pose proof (bpow_gt_0 radix2 (- precision t)) as Pp.
  assert (H' : (bpow radix2 (max_exp t + width t - 1) <= abs_value n)%R).
  { apply Rle_trans with (2 := H). rewrite <- (Rmult_1_r (bpow radix2 (max_exp t + width t - 1))) at 1. apply Rmult_le_compat_l; lra. }
  assert (CN : coefficient n <> 0). { intros C. unfold abs_value in H'. rewrite C in H'. lra. }
  destruct (point_moved_exists t n W L CN) as (d & K & PM).
  destruct (Z.lt_ge_cases (largest_power t) K) as [G2|G2].
  { exists (infinity_of t false). split; [apply infinite_signed|]. now apply C34_above_tables with d K. }
  destruct (Z.lt_ge_cases K (- largest_power t)) as [G1|G1].
  { exfalso. pose proof (pow10_le_moved t n d K PM) as [_ B].
    assert (pow10 (K + exact_digits t) <= 1)%R by (apply (bpow_le radix10 _ 0); destruct t; cbn [largest_power exact_digits] in *; lia).
    assert (1 < bpow radix2 (max_exp t + width t - 1))%R by (apply (bpow_lt radix2 0); lia). lra. }
  destruct (krosh_scaled t n c rest d K W Hc L SE PM) as (_ & _ & A). destruct A as (q & x & A1 & A2 & A3 & A4); [lia|].
  pose proof (pow2_pos (width t - 2) ltac:(lia)).
  destruct (scaled_relative t q x (abs_value n) ltac:(lia) A4) as ([B1 B2] & B3).
  destruct (finish_norm t (is_minus (n_sign n)) (zlen (written n)) q x ltac:(lia) A3) as (f & e & F1 & F2 & F3).
  assert (Zs : (bpow radix2 (max_exp t + width t - 1) <= IZR q * bpow radix2 x)%R).
  { apply Rmult_le_reg_r with (1 + bpow radix2 (- precision t))%R; lra. }
  rewrite <- F2 in Zs. rewrite (downsample_huge t f e F1 Zs) in F3. cbn [bind ds_value ds_status ds_is_accurate] in F3.
  rewrite F3, apply_sign_inf in A1.
  exists (infinity_of t (is_minus (n_sign n))). split; [apply infinite_signed|].
  exact (atof_fast _ _ _ _ _ _ _ _ A1 (written_nonempty n W)).
Qed.

(** numbers of ordinary size have a readable exponent *)
Lemma size_readable : forall n, well_formed n -> within_limits n -> (pow10 (-400) <= Rabs (value n) <= pow10 400)%R ->
  readable_exponent n /\ coefficient n <> 0.
Proof.
  intros n W L [H1 H2]. rewrite value_abs in * by assumption.
  pose proof (coefficient_bound n W L) as CB. pose proof (digits_length n L) as DL.
  pose proof (zlen_nonneg (n_int n)). pose proof (zlen_nonneg (frac_digits n)).
  assert (CN : coefficient n <> 0).
  { intros C. unfold abs_value in H1. rewrite C, Rmult_0_l in H1. pose proof (bpow_gt_0 radix10 (-400)). lra. }
  split; [|exact CN]. unfold abs_value in *.
  assert (R1 : scale n <= 400).
  { apply (le_bpow radix10). apply Rle_trans with (2 := H2). rewrite <- (Rmult_1_l (pow10 (scale n))) at 1.
    apply Rmult_le_compat_r; [apply bpow_ge_0|]. apply IZR_le. lia. }
  assert (R2 : -400 < 2049 + scale n).
  { apply (lt_bpow radix10). apply Rle_lt_trans with (1 := H1). rewrite bpow_plus. apply Rmult_lt_compat_r; [apply bpow_gt_0|].
    rewrite <- pow10_IZR by lia. apply IZR_lt. lia. }
  apply small_readable. unfold small_exponent. unfold scale, zlen in *. lia.
Qed.

(** between the smallest denormal and that threshold: a normalized number that differs from
    the value by little is packed into the type *)
Lemma krosh_packed : forall t n c rest, well_formed n -> ends_number c -> within_limits n ->
  (bpow radix2 (min_exp t) * (1 + bpow radix2 (- precision t)) <= Rabs (value n)
     <= bpow radix2 (max_exp t + width t - 1) * (1 - bpow radix2 (- precision t)))%R ->
  (t = Float -> pow10 (-42) <= Rabs (value n))%R ->
  exists f e, 2 ^ (width t - 1) <= f < 2 ^ width t /\ min_exp t + 1 <= e + width t /\ e < max_exp t /\
    let z := (IZR f * bpow radix2 e)%R in
    (z * (1 - bpow radix2 (- precision t)) < Rabs (value n) < z * (1 + bpow radix2 (- precision t)))%R /\
    (Rabs (z - Rabs (value n)) < any_length_margin t * bpow radix2 (e + (width t - precision t)))%R /\
    krosh (fmt_of t) (written n ++ c :: rest)
    = Ok {| kr_value := apply_sign (fmt_of t) (negb (is_minus (n_sign n)))
              ((down_field t e * 2 ^ (precision t - 1)) mod 2 ^ width t + half_even f (down_shift t e) mod 2 ^ (precision t - 1));
            kr_str_end := zlen (written n); kr_status := success;
            kr_is_accurate := negb (f mod 2 ^ down_shift t e =? 2 ^ (down_shift t e - 1)) |}.
Proof.
  intros t n c rest W Hc L [H1 H2] HF. pose proof (width_facts t) as Ww.
  assert (SE : readable_exponent n).
  { apply size_readable; [assumption|assumption|].
    pose proof (bpow_gt_0 radix2 (min_exp t)) as Pm. pose proof (bpow_gt_0 radix2 (- precision t)) as Pp.
    pose proof (bpow_gt_0 radix2 (max_exp t + width t - 1)) as PM.
    assert (X1 : (pow10 (-400) < bpow radix2 (min_exp t))%R).
    { rewrite <- (Rmult_1_l (bpow radix2 _)), <- (Rmult_1_l (pow10 _)). apply dec_lt_bin. destruct t; vm_compute; reflexivity. }
    assert (X2 : (bpow radix2 (max_exp t + width t - 1) < pow10 400)%R).
    { rewrite <- (Rmult_1_l (bpow radix2 _)), <- (Rmult_1_l (pow10 _)). apply bin_lt_dec. destruct t; vm_compute; reflexivity. }
    split; nra. }
  rewrite value_abs in * by assumption.
  pose proof (bpow_gt_0 radix2 (min_exp t)) as Pm. pose proof (bpow_gt_0 radix2 (- precision t)) as Pp.
  assert (P1 : (bpow radix2 (- precision t) <= / 4)%R) by (apply (bpow_le radix2 _ (-2)); lia).
  assert (Y0 : (bpow radix2 (min_exp t) <= abs_value n)%R) by nra.
  pose proof (bpow_gt_0 radix2 (max_exp t + width t - 1)) as PM.
  assert (Y1 : (abs_value n < bpow radix2 (max_exp t + width t - 1))%R) by nra.
  assert (CN : coefficient n <> 0). { intros C. unfold abs_value in Y0. rewrite C in Y0. lra. }
  destruct (point_moved_exists t n W L CN) as (d & K & PMv). pose proof (pow10_le_moved t n d K PMv) as [PA PB].
  assert (G1 : - largest_power t <= K).
  { destruct (Z.lt_ge_cases K (- largest_power t)) as [G|G]; [exfalso|lia]. destruct t.
    - assert (pow10 (K + exact_digits Float) <= pow10 (-42))%R by (apply bpow_le; cbn [largest_power exact_digits] in *; lia).
      specialize (HF eq_refl). lra.
    - assert (pow10 (K + exact_digits Double) <= pow10 (-325))%R by (apply bpow_le; cbn [largest_power exact_digits] in *; lia).
      assert (1 * pow10 (-325) < 1 * bpow radix2 (-1074))%R by (apply dec_lt_bin; vm_compute; reflexivity). cbn [min_exp] in *. lra. }
  assert (G2 : K <= largest_power t).
  { destruct (Z.lt_ge_cases (largest_power t) K) as [G|G]; [exfalso|lia].
    assert (X : (bpow radix2 (max_exp t + width t - 1) < pow10 (largest_power t + 1))%R).
    { rewrite <- (Rmult_1_l (bpow radix2 _)), <- (Rmult_1_l (pow10 _)). apply bin_lt_dec. destruct t; vm_compute; reflexivity. }
    assert (pow10 (largest_power t + 1) <= pow10 K)%R by (apply bpow_le; lia). lra. }
  destruct (krosh_scaled t n c rest d K W Hc L SE PMv) as (_ & _ & A). destruct A as (q & x & A1 & A2 & A3 & A4); [lia|].
  pose proof (pow2_pos (width t - 2) ltac:(lia)).
  destruct (scaled_relative t q x (abs_value n) ltac:(lia) A4) as ([B1 B2] & B3).
  destruct (finish_norm t (is_minus (n_sign n)) (zlen (written n)) q x ltac:(lia) A3) as (f & e & F1 & F2 & F3).
  rewrite <- F2 in B1, B2, B3. set (z := (IZR f * bpow radix2 e)%R) in *.
  pose proof (normalized_mag (width t) f e ltac:(lia) F1) as HM. fold z in HM.
  assert (Z1 : (bpow radix2 (min_exp t) <= z)%R).
  { apply Rmult_le_reg_r with (1 + bpow radix2 (- precision t))%R; lra. }
  assert (Z2 : (z < bpow radix2 (max_exp t + width t - 1))%R).
  { apply Rmult_lt_reg_r with (1 - bpow radix2 (- precision t))%R; lra. }
  assert (K1 : min_exp t < e + width t) by (apply (lt_bpow radix2); lra).
  assert (K2 : e + width t - 1 < max_exp t + width t - 1) by (apply (lt_bpow radix2); lra).
  exists f, e. split; [exact F1|]. split; [lia|]. split; [lia|]. cbv zeta. fold z. split; [split; assumption|]. split.
  { rewrite <- F2 in A4. fold z in A4. apply Rlt_le_trans with (1 := A4). destruct (long_delta_facts t) as (D1 & _ & D3).
    assert (XE : x <= e + 1).
    { assert (width t - 2 + x < e + width t); [|lia]. apply (lt_bpow radix2). apply Rle_lt_trans with (2 := proj2 HM). rewrite F2, bpow_plus.
      apply Rmult_le_compat_r; [apply bpow_ge_0|]. rewrite (bpow_IZR radix2) by lia. apply IZR_le. exact (proj1 A2). }
    apply Rle_trans with (long_delta t * bpow radix2 (precision t + 1 - width t) * bpow radix2 (e + (width t - precision t)))%R.
    - rewrite Rmult_assoc, <- bpow_plus. apply Rmult_le_compat_l; [lra|]. apply bpow_le. lia.
    - apply Rmult_le_compat_r; [apply bpow_ge_0|exact D3]. }
  rewrite A1, F3, downsample_eval by lia. reflexivity.
Qed.

(** ... and for every smaller value beyond the range of the type it is not: the status is
    success unless the fallback decides. *)
Theorem C33_overflow_missed : forall t n c rest want fb errno, well_formed n -> ends_number c -> within_limits n ->
  (bpow radix2 (max_exp t) <= Rabs (value n) <= bpow radix2 (max_exp t + width t - 1) * (1 - bpow radix2 (- precision t)))%R ->
  let s := written n ++ c :: rest in
  (exists v, atof (fmt_of t) s want fb errno = Ok (answer want errno v success (len (written n)))) \/
  atof (fmt_of t) s want fb errno = fallback_answer t s want fb errno.
Proof.
  intros t n c rest want fb errno W Hc L [H1 H2] s. pose proof (width_facts t) as Ww.
  assert (B1 : (1 < bpow radix2 (max_exp t))%R) by (apply (bpow_lt radix2 0); lia).
  assert (B2 : (bpow radix2 (min_exp t) <= / 2)%R) by (apply (bpow_le radix2 _ (-1)); lia).
  assert (B3 : (bpow radix2 (- precision t) <= 1)%R) by (apply (bpow_le radix2 _ 0); lia).
  pose proof (bpow_gt_0 radix2 (min_exp t)). pose proof (bpow_gt_0 radix2 (- precision t)).
  destruct (krosh_packed t n c rest W Hc L) as (f & e & F1 & F2 & F3 & F4 & _ & A1); [split; [nra|exact H2]|pose proof (bpow_lt radix10 (-42) 0 eq_refl) as X; cbn [bpow] in X |- *; lra|].
  fold s in A1. destruct (negb (f mod 2 ^ down_shift t e =? 2 ^ (down_shift t e - 1))) eqn:E.
  - left. eexists. exact (atof_fast _ _ _ _ _ _ _ _ A1 (written_nonempty n W)).
  - right. exact (atof_slow _ _ _ _ _ _ _ _ A1 (written_nonempty n W)).
Qed.

(** * The lost carry *)

Lemma krosh_short_scaled : forall t n c rest, well_formed n -> ends_number c -> within_limits n -> short_decimal t n -> in_range t (value n) ->
  exists q x, krosh (fmt_of t) (written n ++ c :: rest) = kr_finish (fmt_of t) (is_minus (n_sign n)) (zlen (written n)) (mk_diy q x) /\
    2 ^ (width t - 2) <= q < 2 ^ width t /\ -10000 <= x <= 10000 /\
    (Rabs (IZR q * bpow radix2 x - abs_value n) < bpow radix2 x)%R.
Proof.
  intros t n c rest W Hc L S R. pose proof (width_facts t) as Ww.
  destruct (range_small_exponent t n W L R) as [SE CN].
  destruct (krosh_numeral t n c rest W Hc L) as (st & Hp & _ & HK). specialize (HK CN SE).
  destruct (short_ready t n _ st Hp W L S R) as (P1 & P2 & P3 & P4). rewrite P3 in HK.
  destruct (kr_mantissa_exact t _ P1) as (m & N1 & N2 & N3).
  destruct (kr_scale_ok t (is_minus (n_sign n)) (zlen (written n)) (power_of n st) _ (- m) N2 ltac:(lia) P2) as (q & x & S1 & S2 & S3 & S4).
  exists q, x. pose proof (pow2_pos (width t - 1) ltac:(lia)).
  split; [rewrite (HK _ N3) by (cbn [m_f]; lia); exact S1|]. split; [exact S2|]. split; [exact S3|].
  specialize (S4 (IZR (dval (pd_digits st))) 0%R).
  assert (EM : (IZR (dval (pd_digits st) * 2 ^ m) * bpow radix2 (- m) = IZR (dval (pd_digits st)))%R).
  { rewrite mult_IZR, <- (bpow_IZR radix2) by lia. rewrite Rmult_assoc, <- bpow_plus. replace (m + - m) with 0 by lia. cbn. ring. }
  rewrite EM in S4. replace (IZR (dval (pd_digits st)) - IZR (dval (pd_digits st)))%R with 0%R in S4 by ring. rewrite Rabs_R0 in S4.
  specialize (S4 ltac:(pose proof (bpow_gt_0 radix2 (- m)); lra) ltac:(lra)).
  rewrite P4. replace ((0 + 1) * bpow radix2 x)%R with (bpow radix2 x) in S4 by ring. exact S4.
Qed.

(** C32: a number that rounds up to the power of two [2^k] becomes [2^(k-1)] (and zero if
    [2^k] is the smallest normal value), unless the fallback decides. *)
Theorem C32_carry_lost : forall t n c rest want fb errno k, well_formed n -> ends_number c -> within_limits n ->
  short_decimal t n -> in_range t (value n) ->
  min_exp t + precision t - 1 <= k -> Rabs (rnd t (value n)) = bpow radix2 k ->
  (Rabs (value n) <= bpow radix2 k * (1 - bpow radix2 (2 - width t)))%R ->
  let s := written n ++ c :: rest in
  (exists v, atof (fmt_of t) s want fb errno = Ok (answer want errno v success (len (written n))) /\ finite t v /\
     Rabs (real_of t v) = (if k =? min_exp t + precision t - 1 then 0 else bpow radix2 (k - 1))%R) \/
  atof (fmt_of t) s want fb errno = fallback_answer t s want fb errno.
Proof.
  intros t n c rest want fb errno k W Hc L S R Hk Hr Hy s. pose proof (width_facts t) as Ww.
  destruct (krosh_short_scaled t n c rest W Hc L S R) as (q & x & A1 & A2 & A3 & A4). fold s in A1.
  destruct R as [R1 R2]. rewrite rnd_value_abs in * by assumption. rewrite value_abs in * by assumption.
  pose proof (pow2_pos (width t - 2) ltac:(lia)) as PW. pose proof (bpow_gt_0 radix2 x) as Px. pose proof (bpow_gt_0 radix2 k) as Pk.
  assert (Km : k < max_exp t) by (apply (lt_bpow radix2); rewrite <- Hr; exact R2).
  destruct (finish_norm t (is_minus (n_sign n)) (zlen (written n)) q x ltac:(lia) A3) as (f & e & F1 & F2 & F3).
  set (z := (IZR q * bpow radix2 x)%R) in *.
  pose proof (Rabs_def2 _ _ A4) as [B1 B2].
  assert (Zl : (bpow radix2 (width t - 2 + x) <= z)%R).
  { unfold z. rewrite bpow_plus. apply Rmult_le_compat_r; [lra|]. rewrite (bpow_IZR radix2) by lia. apply IZR_le. exact (proj1 A2). }
  (* z is below the power of two *)
  assert (Zk : (z < bpow radix2 k)%R).
  { apply Rnot_le_lt. intros C.
    assert (E : (bpow radix2 x <= z * bpow radix2 (2 - width t))%R).
    { apply Rle_trans with (bpow radix2 (width t - 2 + x) * bpow radix2 (2 - width t))%R.
      - rewrite <- bpow_plus. apply bpow_le. lia.
      - apply Rmult_le_compat_r; [apply bpow_ge_0|exact Zl]. }
    assert (bpow radix2 k * (1 - bpow radix2 (2 - width t)) <= z * (1 - bpow radix2 (2 - width t)))%R.
    { apply Rmult_le_compat_r; [|exact C]. assert (bpow radix2 (2 - width t) < 1)%R by (apply (bpow_lt radix2 _ 0); lia). lra. }
    lra. }
  assert (Z0 : (0 <= z)%R) by (pose proof (bpow_gt_0 radix2 (width t - 2 + x)); lra).
  destruct (transfer_exact t q x (abs_value n)) as [TR|(m & Fm & Em)]; [lia|exact A4|exact R2| |].
  - fold z in TR. destruct (downsample_carry t f e k F1) as (v & acc & D1 & D2 & D3 & D4 & D5); [lia|now rewrite F2|rewrite F2, TR; exact Hr|].
    rewrite D1 in F3. cbn [bind ds_value ds_status ds_is_accurate] in F3. rewrite F3 in A1. destruct acc.
    + left. eexists. split; [exact (atof_fast _ _ _ _ _ _ _ _ A1 (written_nonempty n W))|].
      assert (V0 : 0 <= v < 2 ^ (width t - 1)) by (destruct D2 as [[? ?] _]; lia).
      assert (LP : (0 <= lost_carry t k)%R) by (unfold lost_carry; destruct (_ =? _); [lra|apply bpow_ge_0]).
      fold (lost_carry t k). unfold apply_sign. destruct (is_minus (n_sign n)); cbn [negb].
      * rewrite neg_bits_small by assumption. destruct (neg_fields t v V0) as (G1 & G2 & G3 & G4).
        split; [split; [exact G1|rewrite G3; apply D2]|].
        assert (E : real_of t (v + 2 ^ (width t - 1)) = (- real_of t v)%R).
        { unfold real_of, magnitude, significand, exponent. rewrite G2, G3, G4. cbn [Z.eqb].
          assert (sign_field t v = 0) as -> by (unfold sign_field; apply Z.div_small; lia). reflexivity. }
        rewrite E, D4, Rabs_Ropp. now apply Rabs_pos_eq.
      * split; [exact D2|]. rewrite D4. now apply Rabs_pos_eq.
    + right. exact (atof_slow _ _ _ _ _ _ _ _ A1 (written_nonempty n W)).
  - right. fold z in Em.
    assert (TZ : tie t z) by (exists m; split; [assumption|now rewrite Rabs_pos_eq]).
    pose proof (normalized_mag (width t) f e ltac:(lia) F1) as HM. rewrite F2 in HM.
    assert (He2 : e + width t <= max_exp t).
    { assert (e + width t - 1 < k) by (apply (lt_bpow radix2); lra). lia. }
    assert (He1 : min_exp t + 1 <= e + width t).
    { assert (bpow radix2 (min_exp t) <= z)%R.
      { apply Rnot_lt_le. intros C. apply grid_below in C; [|lia]. fold z in C. lra. }
      assert (min_exp t < e + width t) by (apply (lt_bpow radix2); lra). lia. }
    rewrite downsample_eval in F3 by lia. cbn [bind ds_value ds_status ds_is_accurate] in F3.
    pose proof (tie_normalized t f e F1 He2) as TN. rewrite F2 in TN. destruct TN as [TN _]. rewrite (TN TZ), Z.eqb_refl in F3. cbn [negb] in F3.
    rewrite F3 in A1. exact (atof_slow _ _ _ _ _ _ _ _ A1 (written_nonempty n W)).
Qed.
