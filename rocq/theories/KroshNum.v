(** From the parsed parts (digits, fraction, power of ten) to the result. *)
From Coq Require Import Reals Lra Lia ZArith List String Ascii.
From Flocq Require Import Core.
From Verif Require Import Machine MachineFacts BitOps StaticPow Fraction Format DiyFp KComp Krosh Spec ParseSpec Instances
  DiyFacts BoundFacts TableFacts GrisuFacts FtoaFacts RoundFacts DownFacts DvalFacts ArithProps ScanFacts LoopFacts ParseFacts GapFacts.
Open Scope Z_scope.

(** * normalize and downsample *)

Lemma kr_finish_ok : forall t neg se g e, 0 < g < 2 ^ width t -> -10000 <= e <= 10000 ->
  let z := (IZR g * bpow radix2 e)%R in
  (bpow radix2 (min_exp t) <= z)%R -> (rnd t z < bpow radix2 (max_exp t))%R -> ~ carries t z ->
  exists v acc, kr_finish (fmt_of t) neg se (mk_diy g e)
      = Ok {| kr_value := apply_sign (fmt_of t) (negb neg) v; kr_str_end := se; kr_status := success; kr_is_accurate := acc |} /\
    finite t v /\ v < 2 ^ (width t - 1) /\ real_of t v = rnd t z /\ (acc = false <-> tie t z).
Proof.
  intros t neg se g e Hg He z H1 H2 H3. unfold kr_finish.
  destruct (normalize_ok t g e Hg) as (n & N1 & N2 & N3); [lia|].
  rewrite N3. cbn [bind].
  assert (EZ : (IZR (g * 2 ^ n) * bpow radix2 (e - n))%R = z).
  { unfold z. rewrite mult_IZR, <- (bpow_IZR radix2) by lia. rewrite Rmult_assoc, <- bpow_plus. do 2 f_equal. lia. }
  pose proof (downsample_ok t (g * 2 ^ n) (e - n) N2) as D. cbv zeta in D. rewrite EZ in D.
  destruct (D H1 H2 H3) as (v & acc & D1 & D2 & D3 & D4 & D5).
  rewrite D1. cbn [bind ds_value ds_status ds_is_accurate].
  exists v, acc. split; [reflexivity|]. auto.
Qed.

Lemma neg_bits_small : forall t v, 0 <= v < 2 ^ (width t - 1) -> neg_bits (fmt_of t) v = v + 2 ^ (width t - 1).
Proof.
  intros t v H. unfold neg_bits. rewrite fw_width. pose proof (width_facts t) as W.
  replace (v + 2 ^ (width t - 1)) with (1 * 2 ^ (width t - 1) + v) by lia.
  rewrite <- lor_disjoint by lia. rewrite Z.mul_1_l. apply Z.bits_inj'. intros i Hi.
  rewrite Z.lxor_spec, Z.lor_spec. rewrite Z.pow2_bits_eqb by lia.
  destruct (Z.eqb_spec (width t - 1) i) as [<-|N].
  - assert (Z.testbit v (width t - 1) = false) as ->; [|reflexivity].
    rewrite testbit_top; [destruct (Z.leb_spec (2 ^ (width t - 1)) v); [lia|reflexivity]|lia|].
    pose proof (pow2_half (width t) ltac:(lia)). replace (width t - 1 + 1) with (width t) by lia. lia.
  - now rewrite Bool.xorb_false_r.
Qed.

Lemma neg_fields : forall t v, 0 <= v < 2 ^ (width t - 1) -> let u := v + 2 ^ (width t - 1) in
  pattern t u /\ sign_field t u = 1 /\ exp_field t u = exp_field t v /\ frac_field t u = frac_field t v.
Proof.
  intros t v H u. pose proof (width_facts t) as W. pose proof (pow2_half (width t) ltac:(lia)) as E2.
  pose proof (pow2_pos (width t - 1) ltac:(lia)) as PW. pose proof (pow2_pos (precision t - 1) ltac:(lia)) as PP.
  assert (EW : 2 ^ (width t - 1) = 2 ^ (width t - precision t) * 2 ^ (precision t - 1)) by (rewrite <- Z.pow_add_r by lia; f_equal; lia).
  pose proof (pow2_pos (width t - precision t) ltac:(lia)) as PQ.
  unfold pattern, sign_field, exp_field, frac_field, u. split; [lia|].
  split; [symmetry; apply Z.div_unique with v; lia|]. rewrite EW. split.
  - rewrite Z.div_add by lia. rewrite <- (Z.mul_1_l (2 ^ (width t - precision t))) at 1. apply Z.mod_add. lia.
  - apply Z.mod_add. lia.
Qed.

Lemma signed_correct : forall t neg v y, finite t v -> v < 2 ^ (width t - 1) -> (0 <= y)%R ->
  real_of t v = rnd t y -> (rnd t y < bpow radix2 (max_exp t))%R ->
  correctly_rounded t neg (if neg then - y else y) (apply_sign (fmt_of t) (negb neg) v).
Proof.
  intros t neg v y Fv Lv Hy Ev Hm. left. pose proof (rnd_nonneg t y Hy) as R0.
  pose proof (width_facts t) as W. pose proof (pow2_pos (width t - 1) ltac:(lia)).
  assert (S0 : sign_field t v = 0) by (unfold sign_field; apply Z.div_small; destruct Fv as [[? ?] _]; lia).
  destruct neg; cbn [negb apply_sign].
  - unfold apply_sign; cbn [negb]. assert (0 <= v < 2 ^ (width t - 1)) as HV by (destruct Fv as [[? ?] _]; lia).
    rewrite neg_bits_small by assumption. destruct (neg_fields t v HV) as (F1 & F2 & F3 & F4).
    rewrite rnd_opp, Rabs_Ropp, Rabs_pos_eq by assumption. split; [assumption|].
    split; [split; [assumption|rewrite F3; apply Fv]|].
    split; [|unfold negative; rewrite F2; tauto].
    unfold real_of in *. rewrite F2. rewrite S0 in Ev. cbn [Z.eqb] in *.
    rewrite <- Ev. unfold magnitude, significand, exponent. now rewrite F3, F4.
  - unfold apply_sign; cbn [negb]. rewrite Rabs_pos_eq by assumption. split; [assumption|]. split; [assumption|].
    split; [assumption|]. unfold negative. rewrite S0. split; discriminate.
Qed.

(** * Scaling by a power of ten *)

Lemma bpow_10_radix : forall k, (0 < pow10 k)%R. Proof. intros. apply bpow_gt_0. Qed.

Lemma scaled_product : forall t f e K cf ce eta, 2 ^ (width t - 1) <= f < 2 ^ width t ->
  2 ^ (width t - 1) <= cf < 2 ^ width t ->
  (Rabs (IZR cf * bpow radix2 ce - pow10 K) <= / 2 * bpow radix2 ce)%R ->
  (bpow radix2 (ce + width t - 1) <= pow10 K)%R ->
  let q := mulr (width t) f cf in let x := e + ce + width t in
  2 ^ (width t - 2) <= q < 2 ^ width t /\
  forall M, (Rabs (IZR f * bpow radix2 e - M) <= eta * bpow radix2 e)%R -> (0 <= eta)%R ->
  (Rabs (IZR q * bpow radix2 x - M * pow10 K) < (eta + 1) * bpow radix2 x)%R.
Proof.
  intros t f e K cf ce eta Hf Hc C1 C2 q x. pose proof (width_facts t) as W.
  pose proof (pow2_half (width t) ltac:(lia)) as E1. pose proof (pow2_half (width t - 1) ltac:(lia)) as E2.
  replace (width t - 1 - 1) with (width t - 2) in E2 by lia.
  pose proof (pow2_pos (width t - 2) ltac:(lia)) as P2.
  destruct (diy_mul_f t (mk_diy f e) (mk_diy cf ce)) as (_ & M2); cbn [m_f]; [lia|lia|]. cbn [m_f] in M2. fold q in M2.
  assert (Q1 : 2 ^ (width t - 2) <= q).
  { unfold q, mulr. apply Z.div_le_lower_bound; [lia|].
    assert (2 ^ (width t - 1) * 2 ^ (width t - 1) <= f * cf) by (apply Z.mul_le_mono_nonneg; lia).
    assert (2 ^ width t * 2 ^ (width t - 2) = 2 ^ (width t - 1) * 2 ^ (width t - 1)) by (rewrite E1, E2; ring).
    lia. }
  split; [lia|]. intros M HM He.
  pose proof (mulr_bounds (width t) f cf ltac:(lia)) as [B1 B2]. fold q in B1, B2.
  apply IZR_lt in B1. apply IZR_le in B2. rewrite minus_IZR, !mult_IZR in B1. rewrite plus_IZR, !mult_IZR in B2.
  assert (EH : IZR (2 ^ (width t - 1)) = (/ 2 * IZR (2 ^ width t))%R) by (rewrite E1, mult_IZR; lra).
  rewrite EH in *.
  assert (EW : bpow radix2 (width t) = IZR (2 ^ width t)) by (apply (bpow_IZR radix2); lia).
  unfold x. rewrite !bpow_plus, EW.
  set (W2 := IZR (2 ^ width t)) in *. set (F := IZR f) in *. set (C := IZR cf) in *. set (Q := IZR q) in *.
  assert (HF : (F <= W2 - 1)%R) by (unfold F, W2; rewrite <- minus_IZR; apply IZR_le; lia).
  assert (HC : (C <= W2 - 1)%R) by (unfold C, W2; rewrite <- minus_IZR; apply IZR_le; lia).
  assert (HF0 : (0 <= F)%R) by (apply IZR_le; lia).
  pose proof (bpow_gt_0 radix2 e) as Pe. pose proof (bpow_gt_0 radix2 ce) as Pc.
  set (u := bpow radix2 e) in *. set (v := bpow radix2 ce) in *. set (T := pow10 K) in *.
  pose proof (bpow_10_radix K) as PT. fold T in PT.
  assert (PW : (0 < W2)%R) by (rewrite <- EW; apply bpow_gt_0).
  (* three error terms *)
  assert (A1 : (Rabs (Q * (u * v * W2) - F * u * (C * v)) <= / 2 * W2 * (u * v))%R).
  { replace (Q * (u * v * W2) - F * u * (C * v))%R with ((Q * W2 - F * C) * (u * v))%R by ring.
    assert (0 < u * v)%R by (apply Rmult_lt_0_compat; assumption).
    rewrite Rabs_mult, (Rabs_pos_eq (u * v)) by lra. apply Rmult_le_compat_r; [lra|]. apply Rabs_le. lra. }
  assert (A2 : (Rabs (F * u * (C * v) - F * u * T) < / 2 * W2 * (u * v))%R).
  { replace (F * u * (C * v) - F * u * T)%R with (F * u * (C * v - T))%R by ring.
    assert (0 <= F * u)%R by (apply Rmult_le_pos; lra).
    rewrite Rabs_mult, (Rabs_pos_eq (F * u)) by assumption.
    apply Rle_lt_trans with (F * u * (/ 2 * v))%R; [apply Rmult_le_compat_l; assumption|].
    replace (/ 2 * W2 * (u * v))%R with (W2 * u * (/ 2 * v))%R by ring.
    apply Rmult_lt_compat_r; [lra|]. apply Rmult_lt_compat_r; lra. }
  assert (A3 : (Rabs (F * u * T - M * T) <= eta * W2 * (u * v))%R).
  { replace (F * u * T - M * T)%R with ((F * u - M) * T)%R by ring.
    rewrite Rabs_mult, (Rabs_pos_eq T) by lra.
    assert (T <= W2 * v)%R.
    { apply Rabs_le_inv in C1. destruct C1 as [C1a C1b]. assert (C * v <= (W2 - 1) * v)%R by (apply Rmult_le_compat_r; lra). lra. }
    apply Rle_trans with (eta * u * (W2 * v))%R; [|right; ring].
    apply Rmult_le_compat; [apply Rabs_pos|lra|assumption|assumption]. }
  replace (Q * (u * v * W2) - M * T)%R with ((Q * (u * v * W2) - F * u * (C * v)) + (F * u * (C * v) - F * u * T) + (F * u * T - M * T))%R by ring.
  eapply Rle_lt_trans; [apply Rabs_triang|]. eapply Rle_lt_trans; [apply Rplus_le_compat_r, Rabs_triang|].
  replace ((eta + 1) * (u * v * W2))%R with (/ 2 * W2 * (u * v) + / 2 * W2 * (u * v) + eta * W2 * (u * v))%R by field. lra.
Qed.

(** What scaling computes, before rounding: [q * 2^x] *)
Lemma kr_scale_ok : forall t neg se K f e, 2 ^ (width t - 1) <= f < 2 ^ width t -> -100 <= e <= 100 ->
  - table_max t <= K <= table_max t ->
  exists q x, kr_scale (fmt_of t) neg se K (mk_diy f e) = kr_finish (fmt_of t) neg se (mk_diy q x) /\
    2 ^ (width t - 2) <= q < 2 ^ width t /\ -10000 <= x <= 10000 /\
    forall M eta, (Rabs (IZR f * bpow radix2 e - M) <= eta * bpow radix2 e)%R -> (0 <= eta)%R ->
      (Rabs (IZR q * bpow radix2 x - M * pow10 K) < (eta + 1) * bpow radix2 x)%R.
Proof.
  intros t neg se K f e Hf He HK. pose proof (width_facts t) as W. unfold kr_scale.
  assert (EL : fpow_lo (fmt_of t) = - table_max t /\ fpow_hi (fmt_of t) = table_max t) by (destruct t; auto).
  destruct EL as [-> ->].
  pose proof (pow2_half (width t - 1) ltac:(lia)) as E2. replace (width t - 1 - 1) with (width t - 2) in E2 by lia.
  pose proof (pow2_pos (width t - 2) ltac:(lia)).
  destruct (Z.eqb_spec K 0) as [->|NK].
  - exists f, e. split; [reflexivity|]. split; [lia|]. split; [lia|]. intros M eta HM Heta.
    change (pow10 0) with 1%R. rewrite Rmult_1_r. pose proof (bpow_gt_0 radix2 e). lra.
  - destruct (Z.leb_spec (- table_max t) K); [|lia]. destruct (Z.leb_spec K (table_max t)); [|lia].
    destruct (cached_power_ok t K HK) as (cf & ce & C1 & C2 & C3 & C4 & C5). rewrite C1. cbn [bind].
    exists (mulr (width t) f cf), (e + ce + width t).
    destruct (diy_mul_f t (mk_diy f e) (mk_diy cf ce)) as (M1 & _); cbn [m_f]; [lia|lia|].
    pose proof (diy_mul_e t (mk_diy f e) (mk_diy cf ce)) as M2. cbn [m_e m_f] in M1, M2. specialize (M2 ltac:(lia)).
    split.
    { f_equal. destruct (diy_mul (fmt_of t) _ _) as [a b]. cbn [m_f m_e] in *. congruence. }
    destruct (scaled_product t f e K cf ce 0 Hf C2 C4 C5) as (Q1 & _).
    split; [exact Q1|]. split; [lia|]. intros M eta HM Heta.
    destruct (scaled_product t f e K cf ce eta Hf C2 C4 C5) as (_ & Q2). apply Q2; assumption.
Qed.

(** * Few digits *)

Lemma kr_mantissa_exact : forall t P, 0 < P < 2 ^ width t ->
  exists n, 0 <= n < width t /\ 2 ^ (width t - 1) <= P * 2 ^ n < 2 ^ width t /\
    kr_mantissa (fmt_of t) P 0 = Ok (mk_diy (P * 2 ^ n) (- n)).
Proof.
  intros t P H. destruct (normalize_ok t P 0 H) as (n & N1 & N2 & N3); [lia|].
  exists n. split; [lia|]. split; [exact N2|]. unfold kr_mantissa. rewrite N3. reflexivity.
Qed.

Lemma carries_pos : forall t x, (0 <= x)%R -> carries t x ->
  exists k, min_exp t + precision t - 1 <= k /\ (x < bpow radix2 k)%R /\ rnd t x = bpow radix2 k.
Proof.
  intros t x H (k & K1 & K2 & K3). exists k. rewrite Rabs_pos_eq in K2 by assumption.
  rewrite Rabs_pos_eq in K3 by (now apply rnd_nonneg). auto.
Qed.

(** a multiple of [2^x] below [2^k] is at least [2^x] below *)
Lemma grid_below : forall g x k, 0 < g -> (IZR g * bpow radix2 x < bpow radix2 k)%R ->
  (IZR g * bpow radix2 x + bpow radix2 x <= bpow radix2 k)%R.
Proof.
  intros g x k Hg H. pose proof (bpow_gt_0 radix2 x) as Px.
  assert (x < k).
  { apply (lt_bpow radix2). apply Rle_lt_trans with (2 := H). rewrite <- (Rmult_1_l (bpow radix2 x)) at 1.
    apply Rmult_le_compat_r; [lra|]. apply IZR_le. lia. }
  assert (EK : bpow radix2 k = (IZR (2 ^ (k - x)) * bpow radix2 x)%R).
  { rewrite <- (bpow_IZR radix2) by lia. rewrite <- bpow_plus. f_equal. lia. }
  rewrite EK in *.
  apply Rmult_lt_reg_r in H; [|assumption]. apply lt_IZR in H.
  assert (L : (IZR (g + 1) <= IZR (2 ^ (k - x)))%R) by (apply IZR_le; lia). rewrite plus_IZR in L.
  replace (IZR g * bpow radix2 x + bpow radix2 x)%R with ((IZR g + 1) * bpow radix2 x)%R by ring.
  apply Rmult_le_compat_r; lra.
Qed.

Theorem kr_short : forall t neg se K P, 0 < P < 2 ^ width t -> - table_max t <= K <= table_max t ->
  let y := (IZR P * pow10 K)%R in
  (bpow radix2 (min_exp t) <= y)%R -> (rnd t y < bpow radix2 (max_exp t))%R -> ~ carries t y ->
  exists w v acc, kr_mantissa (fmt_of t) P 0 = Ok w /\ m_f w <> 0 /\
    kr_scale (fmt_of t) neg se K w
      = Ok {| kr_value := apply_sign (fmt_of t) (negb neg) v; kr_str_end := se; kr_status := success; kr_is_accurate := acc |} /\
    finite t v /\ v < 2 ^ (width t - 1) /\
    (acc = true -> real_of t v = rnd t y) /\
    (acc = false -> forall mg, (bpow radix2 (precision t + 1 - width t) <= mg)%R -> ~ clear_of_ties t mg y).
Proof.
  intros t neg se K P HP HK y H1 H2 H3. pose proof (width_facts t) as W.
  destruct (kr_mantissa_exact t P HP) as (n & N1 & N2 & N3).
  destruct (kr_scale_ok t neg se K (P * 2 ^ n) (- n) N2 ltac:(lia) HK) as (q & x & S1 & S2 & S3 & S4).
  pose proof (pow2_pos (width t - 2) ltac:(lia)) as PW.
  assert (EM : (IZR (P * 2 ^ n) * bpow radix2 (- n) = IZR P)%R).
  { rewrite mult_IZR, <- (bpow_IZR radix2) by lia. rewrite Rmult_assoc, <- bpow_plus. replace (n + - n) with 0 by lia. cbn. ring. }
  specialize (S4 (IZR P) 0%R). rewrite EM in S4.
  replace (IZR P - IZR P)%R with 0%R in S4 by ring. rewrite Rabs_R0 in S4.
  specialize (S4 ltac:(pose proof (bpow_gt_0 radix2 (- n)); lra) ltac:(lra)). fold y in S4.
  replace ((0 + 1) * bpow radix2 x)%R with (bpow radix2 x) in S4 by ring.
  set (z := (IZR q * bpow radix2 x)%R) in *.
  pose proof (bpow_gt_0 radix2 x) as Px. pose proof (bpow_gt_0 radix2 (min_exp t)) as Pm.
  assert (Hz0 : (0 <= z)%R) by (apply Rmult_le_pos; [apply IZR_le; lia|lra]).
  pose proof (Rabs_def2 _ _ S4) as [S5 S6].
  assert (Hz1 : (bpow radix2 (min_exp t) <= z)%R).
  { apply Rnot_lt_le. intros C. apply grid_below in C; [|lia]. fold z in C. lra. }
  destruct (transfer_exact t q x y) as [TR|(m & Fm & Em)]; [lia|exact S4|exact H2| |].
  - (* rounds to the same value *)
    fold z in TR.
    assert (Hc : ~ carries t z).
    { intros C. apply carries_pos in C; [|assumption]. destruct C as (k & K1 & K2 & K3).
      apply H3. exists k. split; [exact K1|]. rewrite !Rabs_pos_eq; [|apply rnd_nonneg; lra|lra].
      split; [|rewrite <- TR; exact K3]. apply grid_below in K2; [|lia]. fold z in K2. lra. }
    destruct (kr_finish_ok t neg se q x) as (v & acc & V1 & V2 & V3 & V4 & V5); try assumption; try lia; [fold z; lra|].
    exists (mk_diy (P * 2 ^ n) (- n)), v, acc. split; [exact N3|]. cbn [m_f]. split; [lia|].
    rewrite S1. split; [exact V1|]. split; [exact V2|]. split; [exact V3|].
    split; [intros _; rewrite V4; exact TR|].
    intros A mg Hmg Hcl. apply V5 in A. fold z in A.
    apply (near_tie t q x y mg ltac:(lia) S4 ltac:(lra) Hmg Hcl). exact A.
  - (* a tie *)
    fold z in Em.
    assert (TZ : tie t z) by (exists m; split; [assumption|now rewrite Rabs_pos_eq]).
    assert (Hmag : (magnitude t m < bpow radix2 (max_exp t))%R) by now apply magnitude_lt_max.
    assert (A : exists v, kr_finish (fmt_of t) neg se (mk_diy q x)
        = Ok {| kr_value := apply_sign (fmt_of t) (negb neg) v; kr_str_end := se; kr_status := success; kr_is_accurate := false |} /\
        finite t v /\ v < 2 ^ (width t - 1)).
    { unfold kr_finish. destruct (normalize_ok t q x ltac:(lia) ltac:(lia)) as (s & T1 & T2 & T3).
      rewrite T3. cbn [bind].
      assert (EZ : (IZR (q * 2 ^ s) * bpow radix2 (x - s))%R = z).
      { unfold z. rewrite mult_IZR, <- (bpow_IZR radix2) by lia. rewrite Rmult_assoc, <- bpow_plus. do 2 f_equal. lia. }
      pose proof (normalized_mag (width t) (q * 2 ^ s) (x - s) ltac:(lia) T2) as HMg. rewrite EZ in HMg.
      assert (He1 : min_exp t + 1 <= x - s + width t).
      { assert (min_exp t < x - s + width t) by (apply (lt_bpow radix2); lra). lia. }
      assert (He2 : x - s + width t <= max_exp t).
      { assert (z < bpow radix2 (max_exp t))%R.
        { rewrite Em, midpoint_above_mplus. now apply mplus_lt. }
        assert (x - s + width t - 1 < max_exp t) by (apply (lt_bpow radix2); lra). lia. }
      rewrite downsample_eval by lia. cbn [bind ds_value ds_status ds_is_accurate].
      pose proof (tie_normalized t (q * 2 ^ s) (x - s) T2 He2) as TN. rewrite EZ in TN.
      destruct TN as [TN _]. rewrite (TN TZ), Z.eqb_refl. cbn [negb].
      eexists. split; [reflexivity|].
      set (DF := down_field t (x - s)).
      assert (BF : 0 <= DF < all_ones t).
      { unfold DF, down_field. assert (min_exp t + all_ones t - 2 = max_exp t - precision t /\ 2 < all_ones t) by (destruct t; cbn; lia). lia. }
      pose proof (pow2_pos (precision t - 1) ltac:(lia)) as PP.
      assert (0 <= half_even (q * 2 ^ s) (down_shift t (x - s)) mod 2 ^ (precision t - 1) < 2 ^ (precision t - 1)) as BM by (apply Z.mod_pos_bound; lia).
      destruct (fields_of t DF (half_even (q * 2 ^ s) (down_shift t (x - s)) mod 2 ^ (precision t - 1)) ltac:(lia) BM) as (F1 & F2 & F3 & F4 & F5).
      rewrite (Z.mod_small (DF * _)).
      - split; [split; [exact F1|rewrite F4; lia]|exact F2].
      - pose proof (pow2_half (width t) ltac:(lia)). split; [apply Z.mul_nonneg_nonneg; lia|lia]. }
    destruct A as (v & A1 & A2 & A3).
    exists (mk_diy (P * 2 ^ n) (- n)), v, false. split; [exact N3|]. cbn [m_f]. split; [lia|].
    rewrite S1. split; [exact A1|]. split; [exact A2|]. split; [exact A3|]. split; [discriminate|].
    intros _ mg Hmg Hcl. exact (near_tie t q x y mg ltac:(lia) S4 ltac:(lra) Hmg Hcl TZ).
Qed.
