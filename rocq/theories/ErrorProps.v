(** How far from the number the result can be, for numbers of any length: C68; and the order
    of the results: C50. *)
From Coq Require Import Reals Lra Lia ZArith List String Ascii.
From Flocq Require Import Core.
From Verif Require Import Machine MachineFacts BitOps StaticPow Fraction Format DiyFp KComp Krosh Atof Spec ParseSpec ParseApi Instances
  DiyFacts BoundFacts TableFacts GrisuFacts FtoaFacts RoundFacts DownFacts DvalFacts CmpFacts ArithProps ScanFacts LoopFacts ParseFacts GapFacts KroshNum ShortFacts FracFacts LongFacts RangeFacts ScaledFacts ParseProps RangeProps.
Open Scope Z_scope.

Lemma signed_value : forall t neg v, finite t v -> v < 2 ^ (width t - 1) ->
  let u := apply_sign (fmt_of t) (negb neg) v in
  finite t u /\ (negative t u <-> neg = true) /\ exponent t u = exponent t v /\
  real_of t u = (if neg then - real_of t v else real_of t v)%R.
Proof.
  intros t neg v Fv Lv u. assert (HV : 0 <= v < 2 ^ (width t - 1)) by (destruct Fv as [[? ?] _]; lia).
  assert (S0 : sign_field t v = 0) by (unfold sign_field; apply Z.div_small; lia).
  unfold u, apply_sign. destruct neg; cbn [negb].
  - rewrite neg_bits_small by assumption. destruct (neg_fields t v HV) as (F1 & F2 & F3 & F4).
    split; [split; [exact F1|rewrite F3; apply Fv]|]. split; [unfold negative; rewrite F2; tauto|].
    split; [unfold exponent; now rewrite F3|].
    unfold real_of, magnitude, significand, exponent. now rewrite F2, F3, F4, S0.
  - split; [exact Fv|]. split; [unfold negative; rewrite S0; split; discriminate|]. split; reflexivity.
Qed.

Lemma real_of_pos : forall t v, finite t v -> v < 2 ^ (width t - 1) -> real_of t v = magnitude t v.
Proof.
  intros t v Fv Lv. assert (HV : 0 <= v < 2 ^ (width t - 1)) by (destruct Fv as [[? ?] _]; lia).
  unfold real_of. assert (sign_field t v = 0) as -> by (unfold sign_field; apply Z.div_small; lia). reflexivity.
Qed.

Lemma magnitude_lt_exp : forall t v, pattern t v -> (magnitude t v < bpow radix2 (precision t + exponent t v))%R.
Proof.
  intros t v Pv. pose proof (width_facts t) as W. unfold magnitude. rewrite bpow_plus. apply Rmult_lt_compat_r; [apply bpow_gt_0|].
  rewrite (bpow_IZR radix2) by lia. apply IZR_lt. change (significand t v < 2 ^ precision t).
  unfold significand, frac_field. pose proof (pow2_pos (precision t - 1) ltac:(lia)). rewrite (pow2_half (precision t)) by lia.
  pose proof (Z.mod_pos_bound v (2 ^ (precision t - 1)) ltac:(lia)). destruct (_ =? 0); lia.
Qed.

(** Numbers of any length, inside of the range of the type: unless the fallback decides, the
    result is off by at most half a unit in the last place and a little -- except that a
    number at a power of two, [2^k], can become [2^(k-1)] (or zero). *)
Theorem C68_error_bound : forall t n c rest want fb errno, well_formed n -> ends_number c -> within_limits n ->
  (bpow radix2 (min_exp t) * (1 + bpow radix2 (- precision t)) <= Rabs (value n)
     <= bpow radix2 (max_exp t) * (1 - bpow radix2 (1 - precision t)))%R ->
  (t = Float -> pow10 (-42) <= Rabs (value n))%R ->
  let s := written n ++ c :: rest in
  (exists v, atof (fmt_of t) s want fb errno = Ok (answer want errno v success (len (written n))) /\
     finite t v /\ (negative t v <-> n_sign n = Minus) /\
     ((Rabs (real_of t v - value n) <= (/ 2 + any_length_margin t) * ulp_of t v)%R \/
      exists k, min_exp t + precision t - 1 <= k /\
        (bpow radix2 k * (1 - bpow radix2 (1 - precision t)) <= Rabs (value n) < bpow radix2 k * (1 + bpow radix2 (- precision t)))%R /\
        Rabs (real_of t v) = (if k =? min_exp t + precision t - 1 then 0 else bpow radix2 (k - 1))%R)) \/
  atof (fmt_of t) s want fb errno = fallback_answer t s want fb errno.
Proof.
  intros t n c rest want fb errno W Hc L [H1 H2] HF s. pose proof (width_facts t) as Ww.
  assert (B3 : (bpow radix2 (- precision t) <= / 4)%R) by (apply (bpow_le radix2 _ (-2)); lia).
  pose proof (bpow_gt_0 radix2 (- precision t)) as Pp. pose proof (bpow_gt_0 radix2 (max_exp t)) as PM. pose proof (bpow_gt_0 radix2 (min_exp t)) as Pm.
  assert (U2 : bpow radix2 (1 - precision t) = (2 * bpow radix2 (- precision t))%R).
  { replace (1 - precision t) with (1 + - precision t) by lia. now rewrite bpow_plus. }
  rewrite U2 in *. clear U2.
  set (u := bpow radix2 (- precision t)) in *. set (y := Rabs (value n)) in H1, H2, HF |- *.
  destruct (krosh_packed t n c rest W Hc L) as (f & e & F1 & F2 & F3 & F4 & F5 & A1).
  { fold u y. split; [exact H1|]. apply Rle_trans with (1 := H2). apply Rle_trans with (bpow radix2 (max_exp t) * (1 - u))%R.
    - apply Rmult_le_compat_l; lra.
    - apply Rmult_le_compat_r; [lra|]. apply bpow_le. lia. }
  { exact HF. }
  fold s in A1. cbv zeta in F5. set (z := (IZR f * bpow radix2 e)%R) in *. fold u y in F4. fold y in F5.
  assert (Z1 : (bpow radix2 (min_exp t) < z)%R) by (apply Rmult_lt_reg_r with (1 + u)%R; lra).
  assert (Z2 : (z <= bpow radix2 (max_exp t) * (1 - u))%R).
  { apply Rmult_le_reg_r with (1 - u)%R; [lra|]. apply Rle_trans with (bpow radix2 (max_exp t) * (1 - 2 * u))%R; [lra|].
    rewrite Rmult_assoc. apply Rmult_le_compat_l; nra. }
  assert (RZ : (rnd t z < bpow radix2 (max_exp t))%R).
  { apply Rle_lt_trans with (bpow radix2 (max_exp t) * (1 - u))%R.
    - assert (GF : rnd t (bpow radix2 (max_exp t) * (1 - u)) = (bpow radix2 (max_exp t) * (1 - u))%R).
      { apply round_generic; [apply valid_rnd_N|]. apply generic_format_FLT.
        exists (Defs.Float radix2 (2 ^ precision t - 1) (max_exp t - precision t)).
        - unfold F2R. cbn [Fnum Fexp]. rewrite minus_IZR, <- (bpow_IZR radix2) by lia.
          replace (bpow radix2 (max_exp t)) with (bpow radix2 (precision t) * bpow radix2 (max_exp t - precision t))%R by (rewrite <- bpow_plus; f_equal; lia).
          assert (bpow radix2 (precision t) * u = 1)%R. { unfold u. rewrite <- bpow_plus. replace (precision t + - precision t) with 0 by lia. reflexivity. }
          rewrite Rmult_minus_distr_l, Rmult_1_r, Rmult_minus_distr_r. f_equal. rewrite Rmult_1_l.
          rewrite (Rmult_comm (bpow radix2 (precision t))), Rmult_assoc, H. ring.
        - cbn [Fnum]. pose proof (pow2_pos (precision t) ltac:(lia)). rewrite Z.abs_eq by lia. change (2 ^ precision t - 1 < 2 ^ precision t). lia.
        - cbn [Fexp]. destruct t; cbn; lia. }
      rewrite <- GF. now apply rnd_mono.
    - apply Rlt_le_trans with (bpow radix2 (max_exp t) * 1)%R; [apply Rmult_lt_compat_l; lra|lra]. }
  pose proof (downsample_eval t f e F1 F2 F3) as DE.
  set (v0 := (down_field t e * 2 ^ (precision t - 1)) mod 2 ^ width t + half_even f (down_shift t e) mod 2 ^ (precision t - 1)) in *.
  destruct (negb (f mod 2 ^ down_shift t e =? 2 ^ (down_shift t e - 1))) eqn:EA;
    [left|right; exact (atof_slow _ _ _ _ _ _ _ _ A1 (written_nonempty n W))].
  eexists. split; [exact (atof_fast _ _ _ _ _ _ _ _ A1 (written_nonempty n W))|].
  assert (NS : is_minus (n_sign n) = true <-> n_sign n = Minus) by (destruct (n_sign n); cbn; split; congruence).
  assert (VY : value n = (if is_minus (n_sign n) then - y else y)%R).
  { unfold y. rewrite value_abs by assumption. reflexivity. }
  assert (Cs : (exists k, min_exp t + precision t - 1 <= k /\ (z < bpow radix2 k)%R /\ rnd t z = bpow radix2 k) \/ ~ carries t z).
  { destruct (Classical_Prop.classic (carries t z)) as [C|C]; [left|right; exact C]. apply carries_pos; [lra|exact C]. }
  destruct Cs as [(k & K1 & K2 & K3)|NC].
  - (* carry *)
    assert (K4 : k < max_exp t) by (apply (lt_bpow radix2); rewrite <- K3; exact RZ).
    destruct (downsample_carry t f e k F1) as (v & acc & D1 & D2 & D3 & D4 & _); [lia|exact K2|exact K3|].
    rewrite DE in D1. injection D1 as D1 _. rewrite D1.
    destruct (signed_value t (is_minus (n_sign n)) v D2 D3) as (S1 & S2 & S3 & S4).
    split; [exact S1|]. split; [rewrite S2; exact NS|]. right. exists k. split; [exact K1|]. split.
    + pose proof (bpow_gt_0 radix2 k) as Pk. set (P := bpow radix2 k) in *.
      assert (Zl : (P * (1 - u) <= z)%R).
      { apply Rnot_lt_le. intros C.
        assert (rnd t z <= P * (1 - u))%R; [|nra].
        assert (GF : rnd t (P * (1 - u)) = (P * (1 - u))%R \/ k = min_exp t + precision t - 1).
        { destruct (Z.eq_dec k (min_exp t + precision t - 1)) as [|N]; [auto|left].
          apply round_generic; [apply valid_rnd_N|]. apply generic_format_FLT.
          exists (Defs.Float radix2 (2 ^ precision t - 1) (k - precision t)).
          - unfold F2R. cbn [Fnum Fexp]. rewrite minus_IZR, <- (bpow_IZR radix2) by lia. unfold P.
            replace (bpow radix2 k) with (bpow radix2 (precision t) * bpow radix2 (k - precision t))%R by (rewrite <- bpow_plus; f_equal; lia).
            assert (bpow radix2 (precision t) * u = 1)%R. { unfold u. rewrite <- bpow_plus. replace (precision t + - precision t) with 0 by lia. reflexivity. }
            rewrite Rmult_minus_distr_l, Rmult_1_r, Rmult_minus_distr_r. f_equal. rewrite Rmult_1_l.
            rewrite (Rmult_comm (bpow radix2 (precision t))), Rmult_assoc, H. ring.
          - cbn [Fnum]. pose proof (pow2_pos (precision t) ltac:(lia)). rewrite Z.abs_eq by lia. change (2 ^ precision t - 1 < 2 ^ precision t). lia.
          - cbn [Fexp]. lia. }
        destruct GF as [GF|EK]; [rewrite <- GF; apply rnd_mono; lra|]. exfalso.
        pose proof (error_le_half_ulp radix2 (FLT_exp (min_exp t) (precision t)) (fun x => negb (Z.even x)) z) as ER.
        fold (rnd t z) in ER. rewrite K3 in ER.
        assert (Uz : ulp radix2 (FLT_exp (min_exp t) (precision t)) z = bpow radix2 (min_exp t)).
        { apply ulp_FLT_small; [red; lia|]. rewrite Rabs_pos_eq by lra. apply Rlt_le_trans with (1 := K2). apply bpow_le. lia. }
        rewrite Uz in ER. apply Rabs_le_inv in ER.
        assert (EP : (P * u = / 2 * bpow radix2 (min_exp t))%R).
        { unfold P, u. rewrite <- bpow_plus, EK. replace (min_exp t + precision t - 1 + - precision t) with (-1 + min_exp t) by lia. rewrite bpow_plus. reflexivity. }
        fold P in ER. lra. }
      split.
      * apply Rle_trans with (z * (1 - u))%R; [|lra].
        apply Rle_trans with (P * (1 - u) * (1 - u))%R; [|apply Rmult_le_compat_r; lra].
        rewrite Rmult_assoc. apply Rmult_le_compat_l; nra.
      * apply Rlt_trans with (z * (1 + u))%R; [lra|]. apply Rmult_lt_compat_r; lra.
    + rewrite S4. assert (LP : (0 <= lost_carry t k)%R) by (unfold lost_carry; destruct (k =? _); [lra|apply bpow_ge_0]).
      rewrite <- D4 in LP. destruct (is_minus _); [rewrite Rabs_Ropp|]; rewrite Rabs_pos_eq by assumption; exact D4.
  - destruct (downsample_ok t f e F1) as (v & acc & D1 & D2 & D3 & D4 & _); [fold z; lra|exact RZ|exact NC|].
    fold z in D4. rewrite DE in D1. injection D1 as D1 _. rewrite D1.
    destruct (signed_value t (is_minus (n_sign n)) v D2 D3) as (S1 & S2 & S3 & S4).
    split; [exact S1|]. split; [rewrite S2; exact NS|]. left.
    rewrite S4, VY. unfold ulp_of. rewrite S3.
    assert (ED : (Rabs (real_of t v - y) <= (/ 2 + any_length_margin t) * bpow radix2 (exponent t v))%R).
    2:{ destruct (is_minus _); [|exact ED]. replace (- real_of t v - - y)%R with (- (real_of t v - y))%R by ring. now rewrite Rabs_Ropp. }
    pose proof (normalized_mag (width t) f e ltac:(lia) F1) as HM. fold z in HM.
    assert (AM : (0 < any_length_margin t)%R) by (destruct t; cbn; lra).
    (* the rounding error *)
    assert (CE : cexp radix2 (FLT_exp (min_exp t) (precision t)) z = e + down_shift t e).
    { unfold cexp. assert (mag radix2 z = e + width t :> Z) as -> by (apply mag_unique_pos; exact HM). unfold FLT_exp, down_shift. lia. }
    assert (ER : (Rabs (rnd t z - z) <= / 2 * bpow radix2 (e + down_shift t e))%R).
    { pose proof (error_le_half_ulp radix2 (FLT_exp (min_exp t) (precision t)) (fun x => negb (Z.even x)) z) as ER.
      fold (rnd t z) in ER. rewrite ulp_neq_0, CE in ER by lra. exact ER. }
    assert (EX : e + down_shift t e <= exponent t v).
    { destruct (Z.le_gt_cases (min_exp t) (e + (width t - precision t))) as [N|N].
      - assert (down_shift t e = width t - precision t) as -> by (unfold down_shift; lia).
        assert (e + width t - 1 < precision t + exponent t v); [|lia]. apply (lt_bpow radix2).
        apply Rle_lt_trans with (2 := magnitude_lt_exp t v (proj1 D2)). rewrite <- real_of_pos, D4 by assumption.
        rewrite <- (rnd_bpow t (e + width t - 1)) by lia. apply rnd_mono. lra.
      - assert (e + down_shift t e = min_exp t) as -> by (unfold down_shift; lia). unfold exponent. lia. }
    apply Rle_trans with ((/ 2 + any_length_margin t) * bpow radix2 (e + down_shift t e))%R.
    + rewrite D4. replace (rnd t z - y)%R with ((rnd t z - z) + (z - y))%R by ring.
      apply Rle_trans with (1 := Rabs_triang _ _). rewrite Rmult_plus_distr_r. apply Rplus_le_compat; [exact ER|].
      left. apply Rlt_le_trans with (1 := F5). apply Rmult_le_compat_l; [lra|]. apply bpow_le. unfold down_shift. lia.
    + apply Rmult_le_compat_l; [lra|]. apply bpow_le. exact EX.
Qed.

(** C50: order is kept between numbers that are short, in range and not rounded up to a power
    of two, when the fallback is a good one. *)
Theorem C50_monotone_partial : forall t n n' c c' rest rest' fb errno errno',
  well_formed n -> ends_number c -> within_limits n -> short_decimal t n -> in_range t (value n) -> ~ carries t (value n) ->
  well_formed n' -> ends_number c' -> within_limits n' -> short_decimal t n' -> in_range t (value n') -> ~ carries t (value n') ->
  good_fallback t fb -> (value n <= value n')%R ->
  exists r r', atof (fmt_of t) (written n ++ c :: rest) true fb errno = Ok r /\
    atof (fmt_of t) (written n' ++ c' :: rest') true fb errno' = Ok r' /\
    finite t (at_value r) /\ finite t (at_value r') /\ (real_of t (at_value r) <= real_of t (at_value r'))%R /\
    (value n = value n' -> real_of t (at_value r) = real_of t (at_value r')).
Proof.
  intros t n n' c c' rest rest' fb errno errno' W1 H1 L1 S1 R1 C1 W2 H2 L2 S2 R2 C2 G V.
  destruct (C29_correct_with_fallback t n c rest fb errno W1 H1 L1 S1 R1 C1 G) as (r & E & A & _).
  destruct (C29_correct_with_fallback t n' c' rest' fb errno' W2 H2 L2 S2 R2 C2 G) as (r' & E' & A' & _).
  exists r, r'. split; [exact E|]. split; [exact E'|].
  destruct A as [(B1 & B2 & B3 & _)|(B1 & _)]; [|exfalso; destruct R1; lra].
  destruct A' as [(B1' & B2' & B3' & _)|(B1' & _)]; [|exfalso; destruct R2; lra].
  split; [exact B2|]. split; [exact B2'|]. rewrite B3, B3'. split; [now apply rnd_mono|]. intros ->. reflexivity.
Qed.
