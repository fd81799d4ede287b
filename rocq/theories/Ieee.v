(** The specification's reading of bit patterns and its notion of correct rounding, checked
    against Flocq's formalisation of IEEE 754 (binary interchange formats). *)
From Coq Require Import ZArith Bool Reals List Lia Lra.
From Flocq Require Import Core.
From Flocq Require Import IEEE754.BinarySingleNaN IEEE754.Binary IEEE754.Bits.
From Verif Require Import Spec.
Open Scope Z_scope.

(** What Flocq's decoding of the pattern says. *)
Definition ieee_finite (t : ftype) (v : Z) : bool :=
  match t with Float => is_finite 24 128 (b32_of_bits v) | Double => is_finite 53 1024 (b64_of_bits v) end.
Definition ieee_nan (t : ftype) (v : Z) : bool :=
  match t with Float => is_nan 24 128 (b32_of_bits v) | Double => is_nan 53 1024 (b64_of_bits v) end.
Definition ieee_sign (t : ftype) (v : Z) : bool :=
  match t with Float => Bsign 24 128 (b32_of_bits v) | Double => Bsign 53 1024 (b64_of_bits v) end.
Definition ieee_real (t : ftype) (v : Z) : R :=
  match t with Float => B2R 24 128 (b32_of_bits v) | Double => B2R 53 1024 (b64_of_bits v) end.

Lemma sign_le : forall t v, pattern t v -> (2 ^ (width t - 1) <=? v) = (sign_field t v =? 1).
Proof.
  intros t v [H0 H1]. unfold sign_field.
  assert (E : 2 ^ width t = 2 * 2 ^ (width t - 1)) by (destruct t; reflexivity).
  assert (0 < 2 ^ (width t - 1)) by (destruct t; reflexivity).
  destruct (Z.leb_spec (2 ^ (width t - 1)) v).
  - symmetry. apply Z.eqb_eq. symmetry. apply (Z.div_unique _ _ 1 (v - 2 ^ (width t - 1))); lia.
  - symmetry. apply Z.eqb_neq. rewrite Z.div_small by lia. lia.
Qed.

Lemma frac_range : forall t v, 0 <= frac_field t v < 2 ^ (precision t - 1).
Proof. intros. unfold frac_field. apply Z.mod_pos_bound. destruct t; reflexivity. Qed.
Lemma exp_range : forall t v, 0 <= exp_field t v <= all_ones t.
Proof.
  intros. unfold exp_field, all_ones.
  assert (0 < 2 ^ (width t - precision t)) by (destruct t; reflexivity).
  pose proof (Z.mod_pos_bound (v / 2 ^ (precision t - 1)) (2 ^ (width t - precision t)) H). lia.
Qed.

Lemma zeq_eqb : forall a b, Zeq_bool a b = (a =? b).
Proof.
  intros a b. destruct (Z.eqb_spec a b) as [->|N]; [now apply Zeq_is_eq_bool|].
  destruct (Zeq_bool a b) eqn:E; [apply Zeq_bool_eq in E; contradiction|reflexivity].
Qed.

(** Flocq's decoding, stated with the fields *)
Definition decoded (t : ftype) (v : Z) : full_float :=
  match t with Float => binary_float_of_bits_aux 23 8 v | Double => binary_float_of_bits_aux 52 11 v end.

Lemma decoded_eq : forall t v, pattern t v -> decoded t v =
  let s := sign_field t v =? 1 in
  if exp_field t v =? 0 then
    match frac_field t v with
    | Z0 => F754_zero s | Zpos p => F754_finite s p (min_exp t) | Zneg _ => F754_nan false xH end
  else if exp_field t v =? all_ones t then
    match frac_field t v with Z0 => F754_infinity s | Zpos p => F754_nan s p | Zneg _ => F754_nan false xH end
  else match frac_field t v + 2 ^ (precision t - 1) with
    | Zpos p => F754_finite s p (min_exp t + exp_field t v - 1) | _ => F754_nan false xH end.
Proof.
  intros t v H. cbv zeta. rewrite <- sign_le by assumption. unfold decoded, exp_field, frac_field.
  destruct t; unfold binary_float_of_bits_aux, split_bits; rewrite !zeq_eqb;
    [change (2 ^ 23 * 2 ^ 8) with (2 ^ (width Float - 1))|change (2 ^ 52 * 2 ^ 11) with (2 ^ (width Double - 1))].
  - change (2 ^ (precision Float - 1)) with (2 ^ 23). change (2 ^ (width Float - precision Float)) with (2 ^ 8).
    change (all_ones Float) with (2 ^ 8 - 1). destruct (_ =? 0); [reflexivity|]. destruct (_ =? _); [reflexivity|].
    destruct (v mod 2 ^ 23 + 2 ^ 23); try reflexivity. f_equal.
    change (SpecFloat.emin (23 + 1) (2 ^ (8 - 1))) with (-149). change (min_exp Float) with (-149). lia.
  - change (2 ^ (precision Double - 1)) with (2 ^ 52). change (2 ^ (width Double - precision Double)) with (2 ^ 11).
    change (all_ones Double) with (2 ^ 11 - 1). destruct (_ =? 0); [reflexivity|]. destruct (_ =? _); [reflexivity|].
    destruct (v mod 2 ^ 52 + 2 ^ 52); try reflexivity. f_equal.
    change (SpecFloat.emin (52 + 1) (2 ^ (11 - 1))) with (-1074). change (min_exp Double) with (-1074). lia.
Qed.

Lemma ieee_decoded : forall t v, ieee_finite t v = is_finite_FF (decoded t v) /\ ieee_nan t v = is_nan_FF (decoded t v) /\ ieee_sign t v = sign_FF (decoded t v) /\ ieee_real t v = FF2R radix2 (decoded t v).
Proof.
  intros [|] v; cbn [ieee_finite ieee_nan ieee_sign ieee_real decoded];
  unfold b32_of_bits, b64_of_bits, binary_float_of_bits; rewrite is_finite_FF2B, is_nan_FF2B, Bsign_FF2B, B2R_FF2B; auto.
Qed.

(** C81: finite numbers, infinities, NaNs, signs and values are those of IEEE 754. *)
Theorem C81_values : forall t v, pattern t v ->
  (finite t v <-> ieee_finite t v = true) /\ (nan t v <-> ieee_nan t v = true) /\ (infinite t v <-> ieee_finite t v = false /\ ieee_nan t v = false) /\ (negative t v <-> ieee_sign t v = true) /\ (finite t v -> real_of t v = ieee_real t v).
Proof.
  intros t v H. destruct (ieee_decoded t v) as (-> & -> & -> & ->). rewrite decoded_eq by assumption. cbv zeta.
  pose proof (frac_range t v) as F. pose proof (exp_range t v) as X.
  assert (0 < 2 ^ (precision t - 1)) by (destruct t; reflexivity).
  assert (A0 : 0 <> all_ones t) by (destruct t; discriminate).
  unfold finite, nan, infinite, negative, real_of, magnitude, significand, exponent.
  rewrite <- Z.eqb_eq with (n := sign_field t v). set (s := sign_field t v =? 1).
  assert (Q : forall A B C D E : Prop, A -> B -> C -> D -> E -> A /\ B /\ C /\ D /\ E) by tauto.
  destruct (Z.eqb_spec (exp_field t v) 0) as [E|E].
  - rewrite E. destruct (frac_field t v) as [|p|p]; [| |lia]; cbn [is_finite_FF is_nan_FF sign_FF FF2R];
    (apply Q; [intuition congruence|intuition congruence|intuition congruence|reflexivity|intros _]).
    + rewrite Rmult_0_l; destruct s; lra.
    + rewrite Z.max_l by lia. unfold F2R. cbn [Fnum Fexp]. replace (min_exp t + 1 - 1) with (min_exp t) by lia.
      destruct s; cbn [cond_Zopp Z.opp]; [change (Z.neg p) with (- Z.pos p); rewrite opp_IZR; lra|reflexivity].
  - destruct (Z.eqb_spec (exp_field t v) (all_ones t)) as [E1|E1].
    + destruct (frac_field t v) as [|p|p]; [| |lia]; cbn [is_finite_FF is_nan_FF sign_FF FF2R];
      (apply Q; [intuition congruence|intuition congruence|intuition congruence|reflexivity|tauto]).
    + destruct (frac_field t v + 2 ^ (precision t - 1)) as [|p|p] eqn:G; [lia| |lia]. cbn [is_finite_FF is_nan_FF sign_FF FF2R].
      apply Q; [intuition congruence|intuition congruence|intuition congruence|reflexivity|].
      intros _. rewrite Z.max_r by lia. unfold F2R. cbn [Fnum Fexp].
      destruct s; cbn [cond_Zopp Z.opp]; [change (Z.neg p) with (- Z.pos p); rewrite opp_IZR; lra|reflexivity].
Qed.

(** A pattern is determined by its value and sign. *)
Lemma real_sign_inj : forall t v w, finite t v -> finite t w -> real_of t v = real_of t w ->
  (negative t v <-> negative t w) -> v = w.
Proof.
  intros t v w Hv Hw E S. pose proof Hv as [Pv _]. pose proof Hw as [Pw _].
  destruct (C81_values t v Pv) as (A1 & _ & _ & A4 & A5). destruct (C81_values t w Pw) as (B1 & _ & _ & B4 & B5).
  rewrite A5, B5 in E by assumption.
  assert (S' : ieee_sign t v = ieee_sign t w).
  { destruct (ieee_sign t v), (ieee_sign t w); try reflexivity; exfalso; [assert (false = true)|assert (false = true)]; intuition congruence. }
  apply A1 in Hv. apply B1 in Hw. unfold pattern in *.
  destruct t; cbn [ieee_finite ieee_real ieee_sign width] in *.
  - rewrite <- (bits_of_binary_float_of_bits 23 8 eq_refl eq_refl eq_refl v) by exact Pv.
    rewrite <- (bits_of_binary_float_of_bits 23 8 eq_refl eq_refl eq_refl w) by exact Pw.
    f_equal. exact (B2R_Bsign_inj 24 128 (b32_of_bits v) (b32_of_bits w) Hv Hw E S').
  - rewrite <- (bits_of_binary_float_of_bits 52 11 eq_refl eq_refl eq_refl v) by exact Pv.
    rewrite <- (bits_of_binary_float_of_bits 52 11 eq_refl eq_refl eq_refl w) by exact Pw.
    f_equal. exact (B2R_Bsign_inj 53 1024 (b64_of_bits v) (b64_of_bits w) Hv Hw E S').
Qed.

(** There is only one correctly rounded result. *)
Theorem C81_unique : forall t neg x v w, correctly_rounded t neg x v -> correctly_rounded t neg x w -> v = w.
Proof.
  intros t neg x v w [(A1 & A2 & A3 & A4)|[A1 A2]] [(B1 & B2 & B3 & B4)|[B1 B2]]; [|lra|lra|congruence].
  apply (real_sign_inj t); [assumption|assumption|congruence|]. rewrite A4, B4. reflexivity.
Qed.

(** Flocq's rounding of [m * 2^e] to nearest, ties to even, as a pattern ([neg]: the sign of a zero). *)
Definition ieee_round (t : ftype) (m e : Z) (neg : bool) : Z :=
  match t with
  | Float => bits_of_b32 (binary_normalize 24 128 eq_refl eq_refl mode_NE m e neg)
  | Double => bits_of_b64 (binary_normalize 53 1024 eq_refl eq_refl mode_NE m e neg)
  end.

Lemma sign_cases : forall m e neg, (m < 0 -> neg = true) -> (0 < m -> neg = false) ->
  match Rcompare (F2R (Core.Defs.Float radix2 m e)) 0 with Eq => neg | Lt => true | Gt => false end = neg /\
  (m <> 0 -> Rlt_bool (F2R (Core.Defs.Float radix2 m e)) 0 = neg).
Proof.
  intros m e neg H1 H2. destruct (Z.lt_trichotomy m 0) as [M|[M|M]].
  - assert (F2R (Core.Defs.Float radix2 m e) < 0)%R by now apply F2R_lt_0.
    rewrite Rcompare_Lt, Rlt_bool_true by assumption. now rewrite H1.
  - subst m. rewrite F2R_0. rewrite Rcompare_Eq by reflexivity. split; [reflexivity|congruence].
  - assert (0 < F2R (Core.Defs.Float radix2 m e))%R by now apply F2R_gt_0.
    rewrite Rcompare_Gt by assumption. rewrite Rlt_bool_false by lra. now rewrite H2.
Qed.

Theorem C81_rounding : forall t m e neg v, (m < 0 -> neg = true) -> (0 < m -> neg = false) ->
  (correctly_rounded t neg (IZR m * bpow radix2 e) v <-> v = ieee_round t m e neg).
Proof.
  intros t m e neg v H1 H2. change (IZR m * bpow radix2 e)%R with (F2R (Core.Defs.Float radix2 m e)).
  set (x := F2R _).
  assert (C : correctly_rounded t neg x (ieee_round t m e neg)).
  2:{ split; [|intros ->; exact C]. intros D. exact (C81_unique t neg x _ _ D C). }
  destruct (sign_cases m e neg H1 H2) as [S1 S2]. fold x in S1, S2.
  assert (M0 : (bpow radix2 (max_exp t) <= Rabs (rnd t x))%R -> m <> 0).
  { intros B ->. unfold x in B. rewrite F2R_0 in B. unfold rnd in B. rewrite round_0 in B by apply valid_rnd_N.
    rewrite Rabs_R0 in B. pose proof (bpow_gt_0 radix2 (max_exp t)). lra. }
  unfold correctly_rounded. destruct t.
  - set (b := binary_normalize 24 128 eq_refl eq_refl mode_NE m e neg).
    change (ieee_round Float m e neg) with (bits_of_b32 b).
    assert (P : pattern Float (bits_of_b32 b)) by exact (bits_of_binary_float_range 23 8 eq_refl eq_refl b).
    assert (B : b32_of_bits (bits_of_b32 b) = b) by exact (binary_float_of_bits_of_binary_float 23 8 eq_refl eq_refl eq_refl b).
    pose proof (binary_normalize_correct 24 128 eq_refl eq_refl mode_NE m e neg) as Q. fold b in Q. fold x in Q.
    change (round radix2 (SpecFloat.fexp 24 128) (round_mode mode_NE) x) with (rnd Float x) in Q.
    destruct (Rlt_bool_spec (Rabs (rnd Float x)) (bpow radix2 128)) as [L|L].
    + left. destruct Q as (Q1 & Q2 & Q3). destruct (C81_values Float _ P) as (A1 & _ & _ & A4 & A5).
      cbn [ieee_finite ieee_sign ieee_real] in *. rewrite B in *.
      split; [exact L|]. split; [now apply A1|]. split; [rewrite (A5 (proj2 A1 Q2)); exact Q1|].
      rewrite A4, Q3, S1. reflexivity.
    + right. split; [exact L|]. rewrite S2 in Q by (apply M0; exact L).
      clear P B S1. destruct b; cbn [B2FF] in Q; try discriminate Q. injection Q as ->.
      destruct neg; reflexivity.
  - set (b := binary_normalize 53 1024 eq_refl eq_refl mode_NE m e neg).
    change (ieee_round Double m e neg) with (bits_of_b64 b).
    assert (P : pattern Double (bits_of_b64 b)) by exact (bits_of_binary_float_range 52 11 eq_refl eq_refl b).
    assert (B : b64_of_bits (bits_of_b64 b) = b) by exact (binary_float_of_bits_of_binary_float 52 11 eq_refl eq_refl eq_refl b).
    pose proof (binary_normalize_correct 53 1024 eq_refl eq_refl mode_NE m e neg) as Q. fold b in Q. fold x in Q.
    change (round radix2 (SpecFloat.fexp 53 1024) (round_mode mode_NE) x) with (rnd Double x) in Q.
    destruct (Rlt_bool_spec (Rabs (rnd Double x)) (bpow radix2 1024)) as [L|L].
    + left. destruct Q as (Q1 & Q2 & Q3). destruct (C81_values Double _ P) as (A1 & _ & _ & A4 & A5).
      cbn [ieee_finite ieee_sign ieee_real] in *. rewrite B in *.
      split; [exact L|]. split; [now apply A1|]. split; [rewrite (A5 (proj2 A1 Q2)); exact Q1|].
      rewrite A4, Q3, S1. reflexivity.
    + right. split; [exact L|]. rewrite S2 in Q by (apply M0; exact L).
      clear P B S1. destruct b; cbn [B2FF] in Q; try discriminate Q. injection Q as ->.
      destruct neg; reflexivity.
Qed.
