(** Values of the type as members of Flocq's FLT format; who rounds to a value. *)
From Coq Require Import Reals Lra Lia ZArith List.
From Flocq Require Import Core.
From Verif Require Import Machine MachineFacts Spec BoundFacts GrisuFacts TableFacts FtoaFacts.
Open Scope Z_scope.

Notation fexp t := (FLT_exp (min_exp t) (precision t)).

Global Instance prec_pos : forall t, Prec_gt_0 (precision t).
Proof. destruct t; reflexivity. Qed.
Global Instance fexp_valid : forall t, Valid_exp (fexp t).
Proof. intros; apply FLT_exp_valid, prec_pos. Qed.
Global Instance fexp_mono : forall t, Monotone_exp (fexp t).
Proof. intros; apply FLT_exp_monotone. Qed.

Lemma magnitude_nonneg : forall t v, (0 <= magnitude t v)%R.
Proof.
  intros. unfold magnitude. apply Rmult_le_pos; [|apply bpow_ge_0].
  apply IZR_le. apply significand_range.
Qed.

Lemma magnitude_pos : forall t v, 0 < significand t v -> (0 < magnitude t v)%R.
Proof.
  intros. unfold magnitude. apply Rmult_lt_0_compat; [|apply bpow_gt_0]. now apply IZR_lt.
Qed.

Lemma format_mag : forall t v, generic_format radix2 (fexp t) (magnitude t v).
Proof.
  intros t v. apply generic_format_FLT.
  exists (Defs.Float radix2 (significand t v) (exponent t v)).
  - reflexivity.
  - cbn [Fnum]. pose proof (significand_range t v). rewrite Z.abs_eq by lia. apply H.
  - cbn [Fexp]. apply exponent_ge.
Qed.

(** normal values have a full significand; otherwise the exponent is minimal *)
Lemma significand_full : forall t v, 2 ^ (precision t - 1) <= significand t v \/ exponent t v = min_exp t.
Proof.
  intros t v. unfold significand, exponent. pose proof (frac_field_range t v).
  destruct (Z.eqb_spec (exp_field t v) 0) as [E|E]; [right|left]; [rewrite E; lia|lia].
Qed.

Lemma mag_full : forall t v, 2 ^ (precision t - 1) <= significand t v ->
  mag radix2 (magnitude t v) = precision t + exponent t v :> Z.
Proof.
  intros t v H. apply mag_unique_pos. unfold magnitude.
  pose proof (significand_range t v) as [_ R].
  assert (P : 0 < precision t) by apply prec_pos.
  replace (precision t + exponent t v - 1) with (precision t - 1 + exponent t v) by lia.
  rewrite !bpow_plus. split.
  - apply Rmult_le_compat_r; [apply bpow_ge_0|]. rewrite bpow_IZR by lia. now apply IZR_le.
  - apply Rmult_lt_compat_r; [apply bpow_gt_0|]. rewrite bpow_IZR by lia. now apply IZR_lt.
Qed.

Lemma cexp_mag : forall t v, 0 < significand t v ->
  cexp radix2 (fexp t) (magnitude t v) = exponent t v.
Proof.
  intros t v H. unfold cexp, FLT_exp. pose proof (exponent_ge t v).
  destruct (significand_full t v) as [F|F].
  - rewrite mag_full by assumption. lia.
  - assert (L : mag radix2 (magnitude t v) <= precision t + exponent t v).
    { apply mag_le_bpow.
      - apply Rgt_not_eq, magnitude_pos; assumption.
      - rewrite Rabs_pos_eq by apply magnitude_nonneg. unfold magnitude. rewrite bpow_plus.
        apply Rmult_lt_compat_r; [apply bpow_gt_0|].
        pose proof (significand_range t v) as [_ R]. rewrite bpow_IZR by (destruct t; cbn; lia). now apply IZR_lt. }
    lia.
Qed.

Lemma ulp_mag : forall t v, 0 < significand t v -> ulp radix2 (fexp t) (magnitude t v) = ulp_of t v.
Proof.
  intros t v H. rewrite ulp_neq_0 by (apply Rgt_not_eq, magnitude_pos; assumption).
  rewrite cexp_mag by assumption. reflexivity.
Qed.

Lemma succ_mag : forall t v, 0 < significand t v ->
  succ radix2 (fexp t) (magnitude t v) = (magnitude t v + ulp_of t v)%R.
Proof. intros t v H. rewrite succ_eq_pos by apply magnitude_nonneg. now rewrite ulp_mag. Qed.

Lemma pred_mag : forall t v, 0 < significand t v ->
  pred radix2 (fexp t) (magnitude t v) = (magnitude t v - gap_below t v)%R.
Proof.
  intros t v H. rewrite pred_eq_pos by apply magnitude_nonneg.
  unfold pred_pos. pose proof (prec_pos t) as P. unfold Prec_gt_0 in P.
  unfold gap_below.
  destruct (Req_bool_spec (magnitude t v) (bpow radix2 (mag radix2 (magnitude t v) - 1))) as [E|E].
  - (* a power of two *)
    destruct (Z.eqb_spec (significand t v) (2 ^ (precision t - 1))) as [F|F]; cbn [andb].
    + rewrite mag_full by lia. unfold FLT_exp.
      destruct (Z.ltb_spec (min_exp t) (exponent t v)).
      * replace (Z.max _ _) with (-1 + exponent t v) by lia. rewrite bpow_plus. reflexivity.
      * pose proof (exponent_ge t v). replace (Z.max _ _) with (exponent t v) by lia. reflexivity.
    + assert (L : exponent t v = min_exp t).
      { destruct (significand_full t v) as [G|G]; [|assumption].
        exfalso. rewrite mag_full in E by assumption.
        apply F. unfold magnitude in E. 
        replace (precision t + exponent t v - 1) with (precision t - 1 + exponent t v) in E by lia.
        rewrite bpow_plus in E. apply Rmult_eq_reg_r in E; [|apply Rgt_not_eq, bpow_gt_0].
        rewrite bpow_IZR in E by lia. now apply eq_IZR in E. }
      f_equal. unfold ulp_of. rewrite L. f_equal. unfold FLT_exp.
      assert (mag radix2 (magnitude t v) <= precision t + exponent t v).
      { pose proof (cexp_mag t v H) as C. unfold cexp, FLT_exp in C. rewrite L in C. lia. }
      lia.
  - destruct (Z.eqb_spec (significand t v) (2 ^ (precision t - 1))) as [F|F]; cbn [andb].
    + exfalso. apply E. rewrite mag_full by lia. unfold magnitude. rewrite F.
      replace (precision t + exponent t v - 1) with (precision t - 1 + exponent t v) by lia.
      rewrite bpow_plus. f_equal. rewrite bpow_IZR by lia. reflexivity.
    + now rewrite ulp_mag.
Qed.

Lemma midpoint_above_mplus : forall t v, midpoint_above t v = mplus t v.
Proof. intros. unfold midpoint_above, mplus, magnitude, ulp_of. ring. Qed.

Lemma midpoint_below_mminus : forall t v, (midpoint_below t v <= mminus t v)%R.
Proof.
  intros. unfold midpoint_below, mminus, gap_below, magnitude.
  assert (0 < ulp_of t v)%R by apply bpow_gt_0. unfold ulp_of in *.
  destruct (significand t v =? 2 ^ (precision t - 1)); cbn [andb]; [destruct (min_exp t <? exponent t v)|]; lra.
Qed.

Lemma rnd_between : forall t v x, 0 < significand t v ->
  (midpoint_below t v < x < midpoint_above t v)%R -> rnd t x = magnitude t v.
Proof.
  intros t v x H [L U]. unfold rnd. apply Rle_antisym.
  - apply round_N_le_midp; [apply fexp_valid|apply format_mag|].
    rewrite succ_mag by assumption. unfold midpoint_above in U. lra.
  - apply round_N_ge_midp; [apply fexp_valid|apply format_mag|].
    rewrite pred_mag by assumption. unfold midpoint_below in L. lra.
Qed.

Lemma rnd_opp : forall t x, rnd t (- x) = (- rnd t x)%R.
Proof. intros. unfold rnd. rewrite round_NE_opp. reflexivity. Qed.

Lemma rnd_mono : forall t x y, (x <= y)%R -> (rnd t x <= rnd t y)%R.
Proof. intros. unfold rnd. apply round_le; [apply fexp_valid|apply valid_rnd_N|assumption]. Qed.

Lemma magnitude_lt_max : forall t v, finite t v -> (magnitude t v < bpow radix2 (max_exp t))%R.
Proof.
  intros t v H. apply Rle_lt_trans with (mplus t v); [|now apply mplus_lt].
  rewrite <- midpoint_above_mplus. unfold midpoint_above. assert (0 < ulp_of t v)%R by apply bpow_gt_0. lra.
Qed.

(** real_of agrees on magnitudes *)
Lemma real_of_sign : forall t v, real_of t v = (if sign_field t v =? 1 then - magnitude t v else magnitude t v)%R.
Proof. reflexivity. Qed.

(** The bits of a non-zero value are determined by the real number. *)
Lemma magnitude_inj : forall t v w, 0 < significand t v -> 0 < significand t w ->
  magnitude t v = magnitude t w -> exp_field t v = exp_field t w /\ frac_field t v = frac_field t w.
Proof.
  intros t v w Hv Hw E.
  assert (X : exponent t v = exponent t w) by (rewrite <- (cexp_mag t v Hv), <- (cexp_mag t w Hw), E; reflexivity).
  assert (S : significand t v = significand t w).
  { unfold magnitude in E. rewrite X in E. apply Rmult_eq_reg_r in E; [|apply Rgt_not_eq, bpow_gt_0]. now apply eq_IZR in E. }
  pose proof (frac_field_range t v). pose proof (frac_field_range t w).
  pose proof (exp_field_range t v). pose proof (exp_field_range t w).
  unfold significand, exponent in *.
  destruct (Z.eqb_spec (exp_field t v) 0), (Z.eqb_spec (exp_field t w) 0); lia.
Qed.

Lemma real_of_inj : forall t v w, nonzero t v -> nonzero t w -> real_of t v = real_of t w -> v = w.
Proof.
  intros t v w Hv Hw E.
  pose proof (nonzero_significand t v Hv) as Sv. pose proof (nonzero_significand t w Hw) as Sw.
  pose proof (magnitude_pos t v Sv). pose proof (magnitude_pos t w Sw).
  destruct (pattern_split t v (proj1 (proj1 Hv))) as [Ev Bv]. destruct (pattern_split t w (proj1 (proj1 Hw))) as [Ew Bw].
  unfold real_of in E.
  destruct (Z.eqb_spec (sign_field t v) 1), (Z.eqb_spec (sign_field t w) 1); try lra;
    (destruct (magnitude_inj t v w Sv Sw ltac:(lra)) as [E1 E2]; rewrite Ev, Ew, E1, E2; f_equal; f_equal; f_equal; lia).
Qed.
