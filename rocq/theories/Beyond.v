(** What atof makes of numbers too large for the type: C66. *)
From Coq Require Import Reals Lra Lia ZArith List String Ascii.
From Flocq Require Import Core.
From Verif Require Import Machine MachineFacts BitOps StaticPow Fraction Format DiyFp KComp Krosh Atof Spec ParseSpec ParseApi Instances
  DiyFacts BoundFacts TableFacts GrisuFacts FtoaFacts RoundFacts DownFacts DvalFacts CmpFacts ArithProps ScanFacts LoopFacts ParseFacts GapFacts KroshNum ShortFacts FracFacts LongFacts RangeFacts ScaledFacts ParseProps RangeProps.
Open Scope Z_scope.

Lemma neg_bits_twice : forall t u, neg_bits (fmt_of t) (neg_bits (fmt_of t) u) = u.
Proof. intros t u. unfold neg_bits. now rewrite Z.lxor_assoc, Z.lxor_nilpotent, Z.lxor_0_r. Qed.

Lemma neg_bits_large : forall t u, 0 <= u < 2 ^ (width t - 1) -> neg_bits (fmt_of t) (u + 2 ^ (width t - 1)) = u.
Proof. intros t u H. rewrite <- neg_bits_small by assumption. apply neg_bits_twice. Qed.

(** the rounded significand of a normalized number *)
Lemma half_even_normal : forall t f, 2 ^ (width t - 1) <= f < 2 ^ width t ->
  2 ^ (precision t - 1) <= half_even f (width t - precision t) <= 2 ^ precision t.
Proof.
  intros t f Hf. pose proof (width_facts t) as W. pose proof (pow2_pos (width t - 1) ltac:(lia)).
  pose proof (half_even_bound f (width t - precision t) (width t) ltac:(lia) ltac:(lia)) as HB.
  replace (width t - (width t - precision t)) with (precision t) in HB by lia. split; [|lia].
  assert (2 ^ (precision t - 1) <= f / 2 ^ (width t - precision t)).
  { apply Z.div_le_lower_bound; [apply pow2_pos; lia|]. rewrite <- Z.pow_add_r by lia.
    replace (width t - precision t + (precision t - 1)) with (width t - 1) by lia. lia. }
  destruct (half_even_cases f (width t - precision t)) as [-> | ->]; lia.
Qed.

Lemma half_even_close : forall t f e, 2 ^ (width t - 1) <= f < 2 ^ width t ->
  let z := (IZR f * bpow radix2 e)%R in
  (Rabs (IZR (half_even f (width t - precision t)) * bpow radix2 (e + (width t - precision t)) - z) <= z * bpow radix2 (- precision t))%R.
Proof.
  intros t f e Hf z. pose proof (width_facts t) as W. set (sh := width t - precision t).
  pose proof (half_even_error f sh ltac:(unfold sh; lia)) as [A B].
  assert (E1 : IZR (2 ^ sh) = bpow radix2 sh) by (symmetry; apply (bpow_IZR radix2); unfold sh; lia).
  assert (E2 : IZR (2 ^ (sh - 1)) = bpow radix2 (sh - 1)) by (symmetry; apply (bpow_IZR radix2); unfold sh; lia).
  apply IZR_le in A. apply IZR_le in B. rewrite opp_IZR, minus_IZR, mult_IZR, E1, E2 in A. rewrite minus_IZR, mult_IZR, E1, E2 in B.
  assert (C : (bpow radix2 (sh - 1) * bpow radix2 e <= z * bpow radix2 (- precision t))%R).
  { unfold z. rewrite (Rmult_comm (IZR f)), Rmult_assoc, (Rmult_comm (bpow radix2 (sh - 1))). apply Rmult_le_compat_l; [apply bpow_ge_0|].
    apply Rle_trans with (bpow radix2 (width t - 1) * bpow radix2 (- precision t))%R.
    - rewrite <- bpow_plus. apply bpow_le. unfold sh. lia.
    - apply Rmult_le_compat_r; [apply bpow_ge_0|]. rewrite (bpow_IZR radix2) by lia. apply IZR_le. exact (proj1 Hf). }
  apply Rle_trans with (2 := C). rewrite bpow_plus, (Rmult_comm (bpow radix2 e)), <- Rmult_assoc. unfold z.
  rewrite <- Rmult_minus_distr_r, Rabs_mult, (Rabs_pos_eq (bpow radix2 e)) by apply bpow_ge_0.
  apply Rmult_le_compat_r; [apply bpow_ge_0|]. apply Rabs_le. lra.
Qed.

(** the bits made of it when the exponent is too large *)
Lemma beyond_bits : forall t f e, 2 ^ (width t - 1) <= f < 2 ^ width t -> max_exp t <= e + width t - 1 -> e < max_exp t ->
  let h := half_even f (width t - precision t) in
  let F := h mod 2 ^ (precision t - 1) in
  let v := (down_field t e * 2 ^ (precision t - 1)) mod 2 ^ width t + half_even f (down_shift t e) mod 2 ^ (precision t - 1) in
  if e + width t - 1 =? max_exp t then v = all_ones t * 2 ^ (precision t - 1) + F
  else v = ((e + width t - 2 - max_exp t) * 2 ^ (precision t - 1) + F) + 2 ^ (width t - 1).
Proof.
  intros t f e Hf H1 H2 h F v. pose proof (width_facts t) as W.
  assert (ES : down_shift t e = width t - precision t) by (unfold down_shift; lia).
  assert (EF : down_field t e = e + width t - 1 - max_exp t + all_ones t).
  { unfold down_field. assert (max_exp t - precision t - min_exp t + 2 = all_ones t) by (destruct t; reflexivity). lia. }
  unfold v. rewrite ES. fold h F.
  pose proof (pow2_pos (precision t - 1) ltac:(lia)) as PP.
  assert (EA : (all_ones t + 1) * 2 ^ (precision t - 1) = 2 ^ (width t - 1)) by (destruct t; reflexivity).
  assert (E2 : 2 ^ width t = 2 * 2 ^ (width t - 1)) by (destruct t; reflexivity).
  assert (A0 : 200 <= all_ones t) by (destruct t; vm_compute; congruence).
  destruct (Z.eqb_spec (e + width t - 1) (max_exp t)) as [E|E].
  - rewrite EF, E, Z.sub_diag, Z.add_0_l. rewrite Z.mod_small; [reflexivity|nia].
  - assert (DF : down_field t e * 2 ^ (precision t - 1) = (e + width t - 2 - max_exp t) * 2 ^ (precision t - 1) + 2 ^ (width t - 1)).
    { rewrite EF, <- EA. ring. }
    rewrite DF. rewrite Z.mod_small; [ring|].
    assert ((e + width t - 2 - max_exp t) * 2 ^ (precision t - 1) < 2 ^ (width t - 1)).
    { rewrite <- EA. apply Z.mul_lt_mono_pos_r; lia. }
    assert (0 <= (e + width t - 2 - max_exp t) * 2 ^ (precision t - 1)) by (apply Z.mul_nonneg_nonneg; lia). lia.
Qed.

(** bits with an exponent field of ones *)
Lemma ones_bits : forall t F neg, 0 <= F < 2 ^ (precision t - 1) ->
  let v := apply_sign (fmt_of t) (negb neg) (all_ones t * 2 ^ (precision t - 1) + F) in
  (F = 0 -> infinite t v) /\ (F <> 0 -> nan t v).
Proof.
  intros t F neg HF v. assert (A0 : 0 <= all_ones t) by (destruct t; vm_compute; congruence).
  destruct (fields_of t (all_ones t) F ltac:(lia) HF) as (P1 & P2 & P3 & P4 & P5).
  assert (V : pattern t v /\ exp_field t v = all_ones t /\ frac_field t v = F).
  { unfold v, apply_sign. destruct neg; cbn [negb].
    - assert (P0 : 0 <= all_ones t * 2 ^ (precision t - 1) + F < 2 ^ (width t - 1)) by (destruct P1; lia).
      rewrite neg_bits_small by exact P0. destruct (neg_fields t _ P0) as (N1 & N2 & N3 & N4).
      rewrite N3, N4. auto.
    - auto. }
  destruct V as (V1 & V2 & V3). split; intros E; (split; [exact V1|split; [exact V2|congruence]]).
Qed.

(** bits with the sign bit already set *)
Lemma flipped_bits : forall t E F neg, 0 <= E < all_ones t -> 0 <= F < 2 ^ (precision t - 1) ->
  let v := apply_sign (fmt_of t) (negb neg) (E * 2 ^ (precision t - 1) + F + 2 ^ (width t - 1)) in
  finite t v /\ sign_field t v = (if neg then 0 else 1) /\ exp_field t v = E /\ frac_field t v = F.
Proof.
  intros t E F neg HE HF v. destruct (fields_of t E F ltac:(lia) HF) as (P1 & P2 & P3 & P4 & P5).
  assert (P0 : 0 <= E * 2 ^ (precision t - 1) + F < 2 ^ (width t - 1)) by (destruct P1; lia).
  unfold v, apply_sign. destruct neg; cbn [negb].
  - rewrite neg_bits_large by exact P0. repeat split; try assumption; try apply P1. rewrite P4. lia.
  - destruct (neg_fields t _ P0) as (N1 & N2 & N3 & N4). repeat split; try assumption; try apply N1; try congruence. rewrite N3, P4. lia.
Qed.

Lemma beyond_packed : forall t n c rest, well_formed n -> ends_number c -> within_limits n ->
  (bpow radix2 (max_exp t) * (1 + bpow radix2 (- precision t)) <= Rabs (value n)
     <= bpow radix2 (max_exp t + width t - 1) * (1 - bpow radix2 (- precision t)))%R ->
  exists f e, 2 ^ (width t - 1) <= f < 2 ^ width t /\ max_exp t <= e + width t - 1 /\ e < max_exp t /\
    let z := (IZR f * bpow radix2 e)%R in
    (bpow radix2 (e + width t - 1) <= z < bpow radix2 (e + width t))%R /\
    (z * (1 - bpow radix2 (- precision t)) < Rabs (value n) < z * (1 + bpow radix2 (- precision t)))%R /\
    exists acc, krosh (fmt_of t) (written n ++ c :: rest)
    = Ok {| kr_value := apply_sign (fmt_of t) (negb (is_minus (n_sign n)))
              ((down_field t e * 2 ^ (precision t - 1)) mod 2 ^ width t + half_even f (down_shift t e) mod 2 ^ (precision t - 1));
            kr_str_end := zlen (written n); kr_status := success; kr_is_accurate := acc |}.
Proof.
  intros t n c rest W Hc L [H1 H2]. pose proof (width_facts t) as Ww.
  assert (B1 : (1 < bpow radix2 (max_exp t))%R) by (apply (bpow_lt radix2 0); lia).
  assert (B2 : (bpow radix2 (min_exp t) <= / 2)%R) by (apply (bpow_le radix2 _ (-1)); lia).
  assert (B3 : (bpow radix2 (- precision t) <= 1)%R) by (apply (bpow_le radix2 _ 0); lia).
  pose proof (bpow_gt_0 radix2 (min_exp t)). pose proof (bpow_gt_0 radix2 (- precision t)).
  destruct (krosh_packed t n c rest W Hc L) as (f & e & F1 & F2 & F3 & F4 & _ & A1); [split; [nra|exact H2]|intros _; apply Rle_trans with 1%R; [apply (bpow_le radix10 (-42) 0); lia|nra]|].
  pose proof (normalized_mag (width t) f e ltac:(lia) F1) as HM.
  exists f, e. split; [exact F1|]. split.
  - set (z := (IZR f * bpow radix2 e)%R) in *. cbv zeta in F4.
    assert (Z1 : (bpow radix2 (max_exp t) < z)%R) by (apply Rmult_lt_reg_r with (1 + bpow radix2 (- precision t))%R; lra).
    assert (max_exp t < e + width t) by (apply (lt_bpow radix2); lra). lia.
  - split; [exact F3|]. cbv zeta. split; [exact HM|]. split; [exact F4|]. eexists. exact A1.
Qed.

(** Between [2^1024] and [2^1025] ([2^128] and [2^129]): infinity or NaN, with status success. *)
Theorem C66_just_beyond : forall t n c rest want fb errno, well_formed n -> ends_number c -> within_limits n ->
  (bpow radix2 (max_exp t) * (1 + bpow radix2 (- precision t)) <= Rabs (value n)
     <= bpow radix2 (max_exp t + 1) * (1 - bpow radix2 (- precision t)))%R ->
  let s := written n ++ c :: rest in
  (exists v, atof (fmt_of t) s want fb errno = Ok (answer want errno v success (len (written n))) /\ (infinite t v \/ nan t v) /\
     ((bpow radix2 (max_exp t) * (1 + bpow radix2 (2 - precision t)) <= Rabs (value n)
        <= bpow radix2 (max_exp t + 1) * (1 - bpow radix2 (1 - precision t)))%R -> nan t v)) \/
  atof (fmt_of t) s want fb errno = fallback_answer t s want fb errno.
Proof.
  intros t n c rest want fb errno W Hc L [H1 H2] s. pose proof (width_facts t) as Ww.
  assert (B3 : (bpow radix2 (- precision t) <= / 4)%R) by (apply (bpow_le radix2 _ (-2)); lia).
  pose proof (bpow_gt_0 radix2 (- precision t)) as Pp.
  destruct (beyond_packed t n c rest W Hc L) as (f & e & F1 & F2 & F3 & HM & F4 & acc & A1).
  { split; [exact H1|]. apply Rle_trans with (1 := H2). apply Rmult_le_compat_r; [lra|]. apply bpow_le. lia. }
  set (z := (IZR f * bpow radix2 e)%R) in *. set (u := bpow radix2 (- precision t)) in *.
  assert (Z2 : (z < bpow radix2 (max_exp t + 1))%R) by (apply Rmult_lt_reg_r with (1 - u)%R; lra).
  assert (Ee : e + width t - 1 = max_exp t).
  { assert (e + width t - 1 < max_exp t + 1) by (apply (lt_bpow radix2); lra). lia. }
  pose proof (beyond_bits t f e F1 F2 F3) as B. cbv zeta in B. rewrite Ee, Z.eqb_refl in B. rewrite B in A1.
  pose proof (half_even_normal t f F1) as HN. pose proof (half_even_close t f e F1) as HC. cbv zeta in HC. fold z u in HC.
  set (h := half_even f (width t - precision t)) in *.
  pose proof (pow2_pos (precision t - 1) ltac:(lia)) as PP. pose proof (pow2_half (precision t) ltac:(lia)) as P2.
  destruct (ones_bits t (h mod 2 ^ (precision t - 1)) (is_minus (n_sign n))) as [O1 O2]; [apply Z.mod_pos_bound; lia|].
  destruct acc; [left|right; exact (atof_slow _ _ _ _ _ _ _ _ A1 (written_nonempty n W))].
  eexists. split; [exact (atof_fast _ _ _ _ _ _ _ _ A1 (written_nonempty n W))|]. split.
  - destruct (Z.eq_dec (h mod 2 ^ (precision t - 1)) 0); [left|right]; auto.
  - intros [G1 G2]. apply O2.
    replace (2 - precision t) with (2 + - precision t) in G1 by lia. replace (1 - precision t) with (1 + - precision t) in G2 by lia.
    rewrite (bpow_plus _ 2) in G1. rewrite (bpow_plus _ 1) in G2. fold u in G1, G2. change (bpow radix2 2) with 4%R in G1. change (bpow radix2 1) with 2%R in G2.
    pose proof (bpow_gt_0 radix2 (max_exp t)) as Pm. pose proof (bpow_gt_0 radix2 (max_exp t + 1)) as Pm1.
    set (y := Rabs (value n)) in *. set (M := bpow radix2 (max_exp t)) in *. set (M1 := bpow radix2 (max_exp t + 1)) in *.
    assert (Zl : (M * (1 + 2 * u) <= z)%R).
    { apply Rmult_le_reg_r with (1 + u)%R; [lra|]. apply Rle_trans with (M * (1 + 4 * u))%R; [|lra].
      rewrite Rmult_assoc. apply Rmult_le_compat_l; nra. }
    assert (Zu : (z <= M1 * (1 - u))%R).
    { apply Rmult_le_reg_r with (1 - u)%R; [lra|]. apply Rle_trans with (M1 * (1 - 2 * u))%R; [lra|].
      rewrite Rmult_assoc. apply Rmult_le_compat_l; nra. }
    (* the rounding of z stays inside *)
    pose proof (rnd_normalized t f e F1) as RN. fold z in RN.
    replace (down_shift t e) with (width t - precision t) in RN by (unfold down_shift; lia). fold h in RN.
    replace (e + (width t - precision t)) with (max_exp t + 1 - precision t) in RN by lia.
    set (X := max_exp t + 1 - precision t) in *. pose proof (bpow_gt_0 radix2 X) as PX.
    assert (EM : M = (IZR (2 ^ (precision t - 1)) * bpow radix2 X)%R).
    { unfold M. rewrite <- (bpow_IZR radix2) by lia. rewrite <- bpow_plus. f_equal. unfold X. lia. }
    assert (EM1 : M1 = (IZR (2 ^ precision t) * bpow radix2 X)%R).
    { unfold M1. rewrite <- (bpow_IZR radix2) by lia. rewrite <- bpow_plus. f_equal. unfold X. lia. }
    assert (U1 : (u * IZR (2 ^ precision t) = 1)%R).
    { unfold u. rewrite <- (bpow_IZR radix2) by lia. rewrite <- bpow_plus. replace (- precision t + precision t) with 0 by lia. reflexivity. }
    assert (U2 : (2 * u * IZR (2 ^ (precision t - 1)) = 1)%R). { rewrite <- U1, P2, mult_IZR. ring. }
    assert (GF : forall m, 0 < m < 2 ^ precision t -> rnd t (IZR m * bpow radix2 X) = (IZR m * bpow radix2 X)%R).
    { intros m Hm. apply round_generic; [apply valid_rnd_N|]. apply generic_format_FLT. exists (Defs.Float radix2 m X).
      - reflexivity.
      - cbn [Fnum]. rewrite Z.abs_eq by lia. exact (proj2 Hm).
      - cbn [Fexp]. unfold X. lia. }
    assert (Hl : 2 ^ (precision t - 1) + 1 <= h).
    { apply le_IZR. apply Rmult_le_reg_r with (1 := PX). rewrite <- RN.
      assert (1 < 2 ^ (precision t - 1)) by (destruct t; reflexivity).
      rewrite <- GF by lia. apply rnd_mono.
      apply Rle_trans with (2 := Zl). rewrite EM, plus_IZR. right. rewrite Rmult_assoc, (Rmult_comm (bpow radix2 X)), <- Rmult_assoc.
      f_equal. rewrite Rmult_plus_distr_l, Rmult_1_r, (Rmult_comm _ (2 * u)), U2. reflexivity. }
    assert (Hu : h <= 2 ^ precision t - 1).
    { apply le_IZR. apply Rmult_le_reg_r with (1 := PX). rewrite <- RN.
      rewrite <- GF by lia. apply rnd_mono.
      apply Rle_trans with (1 := Zu). rewrite EM1, minus_IZR. right. rewrite Rmult_assoc, (Rmult_comm (bpow radix2 X)), <- Rmult_assoc.
      f_equal. rewrite Rmult_minus_distr_l, Rmult_1_r, (Rmult_comm _ u), U1. reflexivity. }
    replace (h mod 2 ^ (precision t - 1)) with (h - 2 ^ (precision t - 1)) by (apply Z.mod_unique with 1; lia). lia.
Qed.

(** From there up to [2^1087] ([2^159]): the exponent runs into the sign bit.  The result has
    the wrong sign and is tiny. *)
Theorem C66_wrong_sign : forall t n c rest want fb errno, well_formed n -> ends_number c -> within_limits n ->
  (bpow radix2 (max_exp t + 1) * (1 + bpow radix2 (- precision t)) <= Rabs (value n)
     <= bpow radix2 (max_exp t + width t - 1) * (1 - bpow radix2 (- precision t)))%R ->
  let s := written n ++ c :: rest in
  (exists v, atof (fmt_of t) s want fb errno = Ok (answer want errno v success (len (written n))) /\
     finite t v /\ (negative t v <-> n_sign n <> Minus) /\ (Rabs (real_of t v) < bpow radix2 (width t - max_exp t - 1))%R /\
     let wrapped := (Rabs (value n) * bpow radix2 (- 2 * max_exp t))%R in
     ((bpow radix2 (max_exp t + 2) * (1 + bpow radix2 (- precision t)) <= Rabs (value n))%R ->
      (Rabs (Rabs (real_of t v) - wrapped) <= bpow radix2 (2 - precision t) * wrapped)%R \/
      exists k, (bpow radix2 k * (1 - bpow radix2 (2 - precision t)) <= Rabs (value n) < bpow radix2 k * (1 + bpow radix2 (- precision t)))%R /\
                Rabs (real_of t v) = bpow radix2 (k - 1 - 2 * max_exp t))) \/
  atof (fmt_of t) s want fb errno = fallback_answer t s want fb errno.
Proof.
  intros t n c rest want fb errno W Hc L [H1 H2] s. pose proof (width_facts t) as Ww.
  assert (B3 : (bpow radix2 (- precision t) <= / 4)%R) by (apply (bpow_le radix2 _ (-2)); lia).
  pose proof (bpow_gt_0 radix2 (- precision t)) as Pp.
  destruct (beyond_packed t n c rest W Hc L) as (f & e & F1 & F2 & F3 & HM & F4 & acc & A1).
  { split; [|exact H2]. apply Rle_trans with (2 := H1). apply Rmult_le_compat_r; [lra|]. apply bpow_le. lia. }
  set (z := (IZR f * bpow radix2 e)%R) in *. set (u := bpow radix2 (- precision t)) in *.
  assert (Z1 : (bpow radix2 (max_exp t + 1) < z)%R) by (apply Rmult_lt_reg_r with (1 + u)%R; lra).
  assert (Ee : max_exp t + 1 <= e + width t - 1).
  { assert (max_exp t + 1 < e + width t) by (apply (lt_bpow radix2); lra). lia. }
  pose proof (beyond_bits t f e F1 F2 F3) as B. cbv zeta in B.
  destruct (Z.eqb_spec (e + width t - 1) (max_exp t)) as [?|_]; [lia|]. rewrite B in A1.
  pose proof (half_even_normal t f F1) as HN. pose proof (half_even_close t f e F1) as HC. cbv zeta in HC. fold z u in HC.
  set (h := half_even f (width t - precision t)) in *.
  pose proof (pow2_pos (precision t - 1) ltac:(lia)) as PP. pose proof (pow2_half (precision t) ltac:(lia)) as P2.
  pose proof (Z.mod_pos_bound h (2 ^ (precision t - 1)) ltac:(lia)) as HF.
  assert (AO : 200 <= all_ones t) by (destruct t; vm_compute; congruence).
  destruct (flipped_bits t (e + width t - 2 - max_exp t) (h mod 2 ^ (precision t - 1)) (is_minus (n_sign n))) as (O1 & O2 & O3 & O4);
    [assert (width t <= 64 /\ width t - 2 < all_ones t) by (destruct t; vm_compute; split; congruence); lia|exact HF|].
  destruct acc; [left|right; exact (atof_slow _ _ _ _ _ _ _ _ A1 (written_nonempty n W))].
  eexists. split; [exact (atof_fast _ _ _ _ _ _ _ _ A1 (written_nonempty n W))|].
  match goal with |- finite t ?v0 /\ _ => set (v := v0) in * end.
  split; [exact O1|]. split.
  { unfold negative. rewrite O2. destruct (n_sign n); cbn; split; congruence. }
  assert (ER : Rabs (real_of t v) = magnitude t v).
  { unfold real_of. assert (0 <= magnitude t v)%R.
    { unfold magnitude. apply Rmult_le_pos; [|apply bpow_ge_0]. apply IZR_le. unfold significand. rewrite O4. destruct (_ =? 0); lia. }
    destruct (_ =? 1); [rewrite Rabs_Ropp|]; now apply Rabs_pos_eq. }
  assert (ME : min_exp t = 3 - max_exp t - precision t) by (destruct t; reflexivity).
  rewrite ER. unfold magnitude, significand, exponent. rewrite O3, O4. split.
  - assert (X1 : (if e + width t - 2 - max_exp t =? 0 then h mod 2 ^ (precision t - 1) else h mod 2 ^ (precision t - 1) + 2 ^ (precision t - 1)) < 2 ^ precision t)
      by (destruct (_ =? 0); lia).
    assert (EP : IZR (2 ^ precision t) = bpow radix2 (precision t)) by (symmetry; apply (bpow_IZR radix2); lia).
    apply IZR_lt in X1. rewrite EP in X1.
    apply Rlt_le_trans with (bpow radix2 (precision t) * bpow radix2 (min_exp t + Z.max 1 (e + width t - 2 - max_exp t) - 1))%R.
    + apply Rmult_lt_compat_r; [apply bpow_gt_0|exact X1].
    + rewrite <- bpow_plus. apply bpow_le. lia.
  - intros G. 
    assert (Z1' : (bpow radix2 (max_exp t + 2) < z)%R) by (apply Rmult_lt_reg_r with (1 + u)%R; lra).
    assert (Ee' : max_exp t + 2 <= e + width t - 1).
    { assert (max_exp t + 2 < e + width t) by (apply (lt_bpow radix2); lra). lia. }
    destruct (Z.eqb_spec (e + width t - 2 - max_exp t) 0) as [?|_]; [lia|].
    assert (EX : min_exp t + Z.max 1 (e + width t - 2 - max_exp t) - 1 = (e + (width t - precision t)) + - 2 * max_exp t) by lia.
    rewrite EX. clear EX. replace (2 - precision t) with (2 + - precision t) by lia. rewrite (bpow_plus _ 2). fold u. change (bpow radix2 2) with 4%R.
    set (y := Rabs (value n)) in *. pose proof (bpow_gt_0 radix2 (- 2 * max_exp t)) as PQ.
    assert (Pz : (0 < z)%R) by (pose proof (bpow_gt_0 radix2 (max_exp t + 2)); lra).
    destruct (Z.eq_dec h (2 ^ precision t)) as [Eh|Nh].
    + right. exists (e + width t).
      assert (h mod 2 ^ (precision t - 1) = 0) as -> by (rewrite Eh, P2; apply Z.mod_mul; lia). rewrite Z.add_0_l. split.
      * rewrite Eh, <- (bpow_IZR radix2) in HC by lia. rewrite <- bpow_plus in HC.
        replace (precision t + (e + (width t - precision t))) with (e + width t) in HC by lia. apply Rabs_le_inv in HC.
        set (P := bpow radix2 (e + width t)) in *.
        assert (z * u <= P * u)%R by (apply Rmult_le_compat_r; lra). split; [|lra || nra].
        apply Rle_trans with (z * (1 - u))%R; [|lra].
        apply Rle_trans with ((P * (1 - 2 * u)) * (1 - u))%R; [|apply Rmult_le_compat_r; lra].
        rewrite Rmult_assoc. apply Rmult_le_compat_l; [unfold P; apply bpow_ge_0|nra].
      * rewrite <- (bpow_IZR radix2) by lia. rewrite <- bpow_plus. f_equal. lia.
    + left. assert (h mod 2 ^ (precision t - 1) + 2 ^ (precision t - 1) = h) as ->.
      { replace (h mod 2 ^ (precision t - 1)) with (h - 2 ^ (precision t - 1)) by (apply Z.mod_unique with 1; lia). lia. }
      rewrite bpow_plus, <- Rmult_assoc, <- Rmult_minus_distr_r, Rabs_mult, (Rabs_pos_eq (bpow radix2 (- 2 * max_exp t))) by lra.
      rewrite <- Rmult_assoc. apply Rmult_le_compat_r; [lra|].
      set (r := (IZR h * bpow radix2 (e + (width t - precision t)))%R) in *. apply Rabs_le_inv in HC.
      assert (Zy : (z * u <= 2 * u * y)%R).
      { rewrite (Rmult_comm z), (Rmult_comm 2), Rmult_assoc. apply Rmult_le_compat_l; [lra|].
        assert (z * (3 / 4) <= z * (1 - u))%R by (apply Rmult_le_compat_l; lra). lra. }
      apply Rabs_le. lra.
Qed.
