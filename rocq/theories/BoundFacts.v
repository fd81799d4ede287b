(** Decoding of bit patterns and the interval boundaries. *)
From Verif Require Import Machine MachineFacts BitOps Format DiyFp Spec Instances DiyFacts.
Open Scope Z_scope.

Lemma exp_field_range : forall t v, 0 <= exp_field t v <= all_ones t.
Proof.
  intros t v. unfold exp_field, all_ones.
  pose proof (Z.mod_pos_bound (v / 2 ^ (precision t - 1)) (2 ^ (width t - precision t))) as H.
  assert (0 < 2 ^ (width t - precision t)) by (destruct t; reflexivity). lia.
Qed.

Lemma frac_field_range : forall t v, 0 <= frac_field t v < 2 ^ (precision t - 1).
Proof. intros t v. unfold frac_field. apply Z.mod_pos_bound. destruct t; reflexivity. Qed.

Lemma significand_range : forall t v, 0 <= significand t v < 2 ^ precision t.
Proof.
  intros t v. unfold significand. pose proof (frac_field_range t v).
  assert (2 ^ precision t = 2 * 2 ^ (precision t - 1)) by (destruct t; reflexivity).
  destruct (exp_field t v =? 0); lia.
Qed.

Lemma diy_of_bits_ok : forall t v,
  diy_of_bits (fmt_of t) v = mk_diy (significand t v) (exponent t v).
Proof.
  intros t v. unfold diy_of_bits.
  set (mm := mask _ _). set (em := Z.lxor _ _).
  assert (Ef : Z.land v mm = frac_field t v).
  { unfold mm, frac_field. rewrite fw_width, fdig_precision, mask_eq by (destruct t; cbn; lia).
    apply land_mask. destruct t; cbn; lia. }
  assert (Ee : Z.shiftr (Z.land v em) (fdig (fmt_of t) - 1) = exp_field t v).
  { rewrite fdig_precision. unfold exp_field. rewrite Z.shiftr_land.
    replace (Z.shiftr em (precision t - 1)) with (2 ^ (width t - precision t) - 1) by (destruct t; reflexivity).
    rewrite land_mask, Z.shiftr_div_pow2 by (destruct t; cbn; lia). reflexivity. }
  rewrite Ef, Ee. pose proof (exp_field_range t v). pose proof (frac_field_range t v).
  unfold significand, exponent.
  destruct (Z.eqb_spec (exp_field t v) 0) as [E|E]; cbn [negb].
  - rewrite E. f_equal. destruct t; reflexivity.
  - rewrite wrap_small.
    + f_equal; [destruct t; reflexivity|].
      rewrite Z.max_r by lia.
      replace (fmaxe (fmt_of t) - 1 + (fdig (fmt_of t) - 1)) with (1 - min_exp t) by (destruct t; reflexivity). lia.
    + replace (hidden_bit (fmt_of t)) with (2 ^ (precision t - 1)) by (destruct t; reflexivity).
      rewrite fw_width. revert H0. generalize (frac_field t v). intros g H0.
      clear - H0. destruct t; cbn in *; lia.
Qed.

Lemma normalize_ieee_loop_ok : forall w b fuel f e, 0 <= b -> b + 1 < w ->
  0 < f < 2 ^ (b + 1) -> 2 ^ b <= f * 2 ^ Z.of_nat fuel ->
  - 2 ^ 31 + Z.of_nat fuel <= e < 2 ^ 31 ->
  exists n, 0 <= n <= Z.of_nat fuel /\ 2 ^ b <= f * 2 ^ n < 2 ^ (b + 1) /\
    normalize_ieee_loop w b fuel (mk_diy f e) = Ok (mk_diy (f * 2 ^ n) (e - n)).
Proof.
  intros w b. induction fuel as [|k IH]; intros f e Hb Hbw Hf Hk He.
  - exists 0. rewrite Z.pow_0_r, Z.mul_1_r, Z.sub_0_r in *.
    split; [lia|]. split; [cbn in Hk; lia|]. cbn.
    rewrite nth_bit_testbit, testbit_top by lia.
    cbn in Hk. destruct (Z.leb_spec (2 ^ b) f); [reflexivity|lia].
  - cbn [normalize_ieee_loop]. cbn [m_f m_e].
    rewrite nth_bit_testbit, testbit_top by lia.
    destruct (Z.leb_spec (2 ^ b) f) as [Hc|Hc].
    + exists 0. rewrite Z.pow_0_r, Z.mul_1_r, Z.sub_0_r. repeat split; lia.
    + assert (E2 : 2 ^ (b + 1) = 2 * 2 ^ b) by (rewrite Z.pow_add_r by lia; lia).
      assert (2 ^ (b + 1) <= 2 ^ w) by (apply Z.pow_le_mono_r; lia).
      rewrite sint_ok by lia. cbn [bind].
      rewrite Z.shiftl_mul_pow2, Z.pow_1_r, wrap_small by lia.
      replace (Z.of_nat (S k)) with (1 + Z.of_nat k) in * by lia.
      rewrite Z.pow_add_r in Hk by lia.
      destruct (IH (f * 2) (e - 1)) as (n & N1 & N2 & N3); try lia.
      exists (n + 1). rewrite Z.pow_add_r by lia. split; [lia|]. split; [lia|].
      rewrite N3. f_equal. f_equal; lia.
Qed.

(** The lower boundary mantissa for a value with significand [f], scaled by [2^s]
    (relative to the unit of half an ulp). *)
Definition lower_mant (t : ftype) (f s : Z) : Z :=
  if f =? 2 ^ (precision t - 1) then (4 * f - 1) * 2 ^ (s - 1) else (2 * f - 1) * 2 ^ s.

Lemma exponent_range : forall t v, - 3000 < exponent t v < 3000.
Proof.
  intros t v. unfold exponent. pose proof (exp_field_range t v) as H.
  revert H. generalize (exp_field t v). intros x H.
  assert (all_ones t <= 2047 /\ -1074 <= min_exp t < 0) by (destruct t; cbn; lia). lia.
Qed.

Lemma boundaries_ok : forall t v, 0 < significand t v ->
  exists s, width t - precision t - 1 <= s < width t /\
    2 ^ (width t - 1) <= (2 * significand t v + 1) * 2 ^ s < 2 ^ width t /\
    boundaries (fmt_of t) v
    = Ok (mk_diy (lower_mant t (significand t v) s) (exponent t v - 1 - s),
          mk_diy ((2 * significand t v + 1) * 2 ^ s) (exponent t v - 1 - s)).
Proof.
  intros t v Hf. pose proof (significand_range t v) as Hr. pose proof (exponent_range t v) as He.
  unfold boundaries. rewrite diy_of_bits_ok. cbn [m_f m_e].
  set (f := significand t v) in *. set (e := exponent t v) in *. clearbody f e.
  set (p := precision t) in *. set (w := width t) in *.
  assert (Hp : 24 <= p /\ p + 8 <= w <= 64 /\ w = fw (fmt_of t) /\ p = fdig (fmt_of t))
    by (unfold p, w; destruct t; cbn; lia).
  destruct Hp as (Hp & Hpw & Ew & Ep).
  replace (hidden_bit (fmt_of t)) with (2 ^ (p - 1)) by (unfold p; destruct t; reflexivity).
  rewrite <- Ew.
  assert (E2p : 2 ^ p = 2 * 2 ^ (p - 1)).
  { replace p with (1 + (p - 1)) at 1 by lia. rewrite Z.pow_add_r by lia. lia. }
  assert (E2p1 : 2 ^ (p + 1) = 2 * 2 ^ p) by (rewrite Z.pow_add_r by lia; lia).
  assert (Hwp : 2 ^ w = 2 ^ (p + 1) * 2 ^ (w - p - 1)) by (rewrite <- Z.pow_add_r by lia; f_equal; lia).
  assert (Hwp1 : 2 ^ (w - 1) = 2 ^ p * 2 ^ (w - p - 1)) by (rewrite <- Z.pow_add_r by lia; f_equal; lia).
  assert (Hs7 : 128 <= 2 ^ (w - p - 1)) by (change 128 with (2 ^ 7); apply Z.pow_le_mono_r; lia).
  rewrite !Z.shiftl_mul_pow2 by (destruct (f =? 2 ^ (p - 1)); cbn [b2z]; lia).
  rewrite Z.pow_1_r.
  assert (Hfw : 4 * f + 4 <= 2 ^ w).
  { assert (2 ^ (p + 1) * 128 <= 2 ^ (p + 1) * 2 ^ (w - p - 1)) by (apply Z.mul_le_mono_nonneg_l; lia). lia. }
  rewrite (wrap_small w (f * 2)) by lia.
  rewrite (wrap_small w (f * 2 + 1)) by lia.
  unfold normalize_from_ieee754. cbn [m_f m_e].
  destruct (Z.eqb_spec (f * 2 + 1) 0) as [?|_]; [lia|]. cbn [negb assert_ bind].
  rewrite <- Ew, <- Ep.
  destruct (normalize_ieee_loop_ok w p (Z.to_nat w) (f * 2 + 1) (e - 1)) as (n & N1 & N2 & N3); try lia.
  { rewrite Z2Nat.id by lia.
    assert (2 ^ p <= 2 ^ w) by (apply Z.pow_le_mono_r; lia). nia. }
  rewrite N3. cbn [bind m_f m_e].
  rewrite Z2Nat.id in N1 by lia.
  assert (Hn : n <= p).
  { destruct (Z.le_gt_cases n p); [assumption|].
    assert (2 ^ (p + 1) <= 2 ^ n) by (apply Z.pow_le_mono_r; lia). nia. }
  set (d := w - p - 1) in *.
  assert (Ens : 2 ^ (n + d) = 2 ^ n * 2 ^ d) by (apply Z.pow_add_r; lia).
  exists (n + d). split; [lia|].
  assert (Hd0 : 0 < 2 ^ d) by (apply Z.pow_pos_nonneg; lia).
  assert (Hpf : 2 ^ (w - 1) <= (2 * f + 1) * 2 ^ (n + d) < 2 ^ w).
  { rewrite Ens, Hwp, Hwp1. clear - N2 Hd0.
    replace ((2 * f + 1) * (2 ^ n * 2 ^ d)) with ((f * 2 + 1) * 2 ^ n * 2 ^ d) by ring.
    split; [apply Z.mul_le_mono_nonneg_r; lia|apply Z.mul_lt_mono_pos_r; lia]. }
  split; [exact Hpf|].
  rewrite !Z.shiftl_mul_pow2 by lia.
  replace ((f * 2 + 1) * 2 ^ n * 2 ^ d) with ((2 * f + 1) * 2 ^ (n + d)) by (rewrite Ens; ring).
  rewrite (wrap_small w ((2 * f + 1) * 2 ^ (n + d))) by lia.
  unfold lower_mant. fold p.
  destruct (Z.eqb_spec f (2 ^ (p - 1))) as [E|E]; cbn [b2z].
  - replace (1 + 1) with 2 by lia. rewrite (wrap_small w (f * 2 ^ 2)) by (change (2 ^ 2) with 4; lia).
    change (2 ^ 2) with 4. rewrite (wrap_small w (f * 4 - 1)) by lia.
    replace (e - 2 - (e - 1 - n - d)) with (n + d - 1) by lia.
    assert (Ens1 : 2 ^ (n + d) = 2 * 2 ^ (n + d - 1)).
    { replace (n + d) with (1 + (n + d - 1)) at 1 by lia. rewrite Z.pow_add_r by lia. lia. }
    rewrite shl_ok; [|lia|lia|].
    2:{ set (X := 2 ^ (n + d - 1)) in *. clear - Hpf Ens1 Hf. rewrite Ens1 in Hpf.
        assert (0 <= X) by (unfold X; apply Z.pow_nonneg; lia). lia. }
    cbn [bind]. f_equal. f_equal; f_equal; lia.
  - replace (1 + 0) with 1 by lia. rewrite Z.pow_1_r.
    rewrite (wrap_small w (f * 2)) by lia.
    rewrite (wrap_small w (f * 2 - 1)) by lia.
    replace (e - 1 - (e - 1 - n - d)) with (n + d) by lia.
    rewrite shl_ok; [|lia|lia|].
    2:{ set (X := 2 ^ (n + d)) in *. clear - Hpf Hf.
        assert (0 <= X) by (unfold X; apply Z.pow_nonneg; lia). lia. }
    cbn [bind]. f_equal. f_equal; f_equal; lia.
Qed.

(** For normal values the shift is the smallest one. *)
Lemma boundaries_shift_normal : forall t f s,
  2 ^ (precision t - 1) <= f < 2 ^ precision t -> 0 <= s ->
  2 ^ (width t - 1) <= (2 * f + 1) * 2 ^ s < 2 ^ width t -> s = width t - precision t - 1.
Proof.
  intros t f s Hf Hs H. set (d := width t - precision t - 1).
  assert (Hd : 7 <= d) by (unfold d; destruct t; cbn; lia).
  assert (E1 : 2 ^ (width t - 1) = 2 ^ precision t * 2 ^ d).
  { rewrite <- Z.pow_add_r by (destruct t; cbn in *; lia). f_equal. unfold d; lia. }
  assert (E2 : 2 ^ width t = 2 * 2 ^ (width t - 1)) by (destruct t; reflexivity).
  assert (E3 : 2 ^ precision t = 2 * 2 ^ (precision t - 1)) by (destruct t; reflexivity).
  assert (0 < 2 ^ (precision t - 1)) by (destruct t; reflexivity).
  set (P := 2 ^ precision t) in *.
  destruct (Z.lt_trichotomy s d) as [C|[C|C]]; [|assumption|].
  - assert (2 ^ (s + 1) <= 2 ^ d) by (apply Z.pow_le_mono_r; lia).
    rewrite Z.pow_add_r, Z.pow_1_r in H1 by lia. 
    assert (0 < 2 ^ s) by (apply Z.pow_pos_nonneg; lia). nia.
  - assert (2 ^ (d + 1) <= 2 ^ s) by (apply Z.pow_le_mono_r; lia).
    rewrite Z.pow_add_r, Z.pow_1_r in H1 by lia.
    assert (0 < 2 ^ d) by (apply Z.pow_pos_nonneg; lia). nia.
Qed.
