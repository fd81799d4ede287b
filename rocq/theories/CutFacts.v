(** C84: which decimal number is printed. *)
From Coq Require Import String Ascii Reals Lra Lia ZArith List.
From Flocq Require Import Core.
From Verif Require Import Machine MachineFacts StaticPow Format DiyFp KComp Grisu Ftoa Spec Instances Api
  DiyFacts BoundFacts TableFacts DvalFacts DigitGenFacts GrisuFacts PrettifyFacts ShownFacts FtoaFacts RoundFacts CmpFacts WrittenFacts PrintProps PrintProps2 PrintProps3.
Open Scope Z_scope.

(** [x] cut off behind the digit worth [10^p] is [d * 10^p] *)
Definition cut_off (x : R) (p d : Z) : Prop := (IZR d * pow10 p <= x < (IZR d + 1) * pow10 p)%R.

(** nine digits (float: four), or one more *)
Definition tiny_digits (t : ftype) : Z := match t with Float => 4 | Double => 9 end.

(** small significands: the interval is wider than a unit of the integral part *)
Lemma tiny_delta : forall t f s cf sh, 0 < f < 2 ^ (width t / 2 - 5) -> 16 <= sh <= width t / 2 + 3 -> width t - precision t - 1 <= s < width t ->
  let pf := (2 * f + 1) * 2 ^ s in
  2 ^ (width t - 1) <= pf -> 2 ^ (width t - 1) <= cf < 2 ^ width t ->
  2 ^ sh <= mulr (width t) pf cf - 1 - (mulr (width t) (lower_mant t f s) cf + 1).
Proof.
  intros t f s cf sh Hf Hsh Hs pf Hpf Hcf.
  assert (Hww : 24 <= precision t /\ precision t + 8 <= width t <= 64) by (destruct t; cbn; lia).
  assert (Gs : width t / 2 + 4 <= s).
  { destruct (Z.le_gt_cases (width t / 2 + 4) s) as [|Gs]; [assumption|exfalso].
    assert (B1 : 2 ^ s <= 2 ^ (width t / 2 + 3)) by (apply Z.pow_le_mono_r; lia).
    assert (B2 : (2 * 2 ^ (width t / 2 - 5) - 1) * 2 ^ (width t / 2 + 3) < 2 ^ (width t - 1)) by (destruct t; vm_compute; reflexivity).
    assert (B3 : pf <= (2 * 2 ^ (width t / 2 - 5) - 1) * 2 ^ (width t / 2 + 3)) by (apply Z.mul_le_mono_nonneg; lia). lia. }
  assert (Nf : f <> 2 ^ (precision t - 1)).
  { assert (2 ^ (width t / 2 - 5) < 2 ^ (precision t - 1)) by (destruct t; vm_compute; reflexivity). lia. }
  set (mf := lower_mant t f s).
  assert (D0 : pf - mf = 2 * 2 ^ s).
  { unfold pf, mf, lower_mant. destruct (Z.eqb_spec f (2 ^ (precision t - 1))); [contradiction|]. ring. }
  pose proof (mulr_bounds (width t) pf cf ltac:(lia)) as BP. pose proof (mulr_bounds (width t) mf cf ltac:(lia)) as BM.
  set (P := mulr (width t) pf cf) in *. set (M := mulr (width t) mf cf) in *. clearbody P M.
  assert (EW : 2 ^ width t = 2 * 2 ^ (width t - 1)).
  { replace (width t) with (1 + (width t - 1)) at 1 by lia. rewrite Z.pow_add_r by lia. reflexivity. }
  assert (PW : 0 < 2 ^ (width t - 1)) by (apply Z.pow_pos_nonneg; lia).
  assert (PS : 0 < 2 ^ s) by (apply Z.pow_pos_nonneg; lia).
  assert (B4 : 2 * 2 ^ s * 2 ^ (width t - 1) <= (pf - mf) * cf) by (rewrite D0; apply Z.mul_le_mono_nonneg; lia).
  rewrite Z.mul_sub_distr_r in B4.
  assert (B5 : (2 ^ s - 1) * 2 ^ width t < (P - M) * 2 ^ width t) by (rewrite EW in *; lia).
  assert (B6 : 2 ^ s - 1 < P - M) by (apply Z.mul_lt_mono_pos_r with (2 ^ width t); lia).
  assert (B7 : 2 * 2 ^ sh <= 2 ^ s).
  { change 2 with (2 ^ 1) at 1. rewrite <- Z.pow_add_r by lia. apply Z.pow_le_mono_r; lia. }
  assert (16 <= 2 ^ sh) by (change 16 with (2 ^ 4); apply Z.pow_le_mono_r; lia). lia.
Qed.

(** the size of the integral part *)
Lemma integral_size : forall t Pm sh, 2 ^ (width t - 2) <= Pm + 1 -> Pm < 2 ^ width t -> width t / 2 <= sh <= width t / 2 + 3 ->
  10 ^ (tiny_digits t - 1) <= Pm / 2 ^ sh < 10 ^ (tiny_digits t + 1).
Proof.
  intros t Pm sh H1 H2 Hsh. assert (16 <= sh /\ sh + 4 <= width t).
  { clear - Hsh. destruct t; cbn [width] in *; change (32 / 2) with 16 in *; change (64 / 2) with 32 in *; lia. }
  assert (Hp : 0 < 2 ^ sh) by (apply Z.pow_pos_nonneg; lia).
  assert (L1 : 2 ^ (width t - 2 - sh) - 1 <= Pm / 2 ^ sh).
  { apply Z.div_le_lower_bound; [lia|]. rewrite Z.mul_sub_distr_l, <- Z.pow_add_r by lia. replace (sh + (width t - 2 - sh)) with (width t - 2) by lia. lia. }
  assert (L2 : Pm / 2 ^ sh < 2 ^ (width t - sh)).
  { apply Z.div_lt_upper_bound; [lia|]. rewrite <- Z.pow_add_r by lia. replace (sh + (width t - sh)) with (width t) by lia. lia. }
  assert (L3 : 10 ^ (tiny_digits t - 1) <= 2 ^ (width t - 2 - (width t / 2 + 3)) - 1) by (destruct t; vm_compute; congruence).
  assert (L4 : 2 ^ (width t - width t / 2) < 10 ^ (tiny_digits t + 1)) by (destruct t; vm_compute; congruence).
  assert (0 <= width t - 2 - (width t / 2 + 3)) by (destruct t; vm_compute; congruence).
  assert (2 ^ (width t - 2 - (width t / 2 + 3)) <= 2 ^ (width t - 2 - sh)) by (apply Z.pow_le_mono_r; lia).
  assert (2 ^ (width t - sh) <= 2 ^ (width t - width t / 2)) by (apply Z.pow_le_mono_r; lia). lia.
Qed.

(** the digit generator stops above the place of the last digit it could give *)
Lemma grisu2_cut : forall t v, finite t v -> 0 < significand t v ->
  exists ds K hi p, Forall digit ds /\ hd 0 ds <> 0 /\ last_nonzero ds /\ zlen ds <= max_sig t /\
    (mplus t v * (1 - bpow radix2 (3 - width t)) < hi < mplus t v)%R /\
    p <= K /\ cut_off hi p (dval ds * 10 ^ (K - p)) /\
    (p = K /\ 2 ^ (width t / 2 - 5) <= significand t v \/ 10 ^ (tiny_digits t - 1) <= dval ds * 10 ^ (K - p) < 10 ^ (tiny_digits t + 1)) /\
    forall pre rest, (length ds <= length rest)%nat ->
      grisu2 (fmt_of t) v (pre ++ rest) (zlen pre)
      = Ok (pre ++ dchars ds ++ skipn (length ds) rest, zlen ds, K).
Proof.
  intros t v Hfin Hf.
  destruct (grisu_scaled t v Hfin Hf) as (s & mk & cf & ce & G).
  cbv zeta in G.
  pose proof (significand_range t v) as Hr.
  pose proof (interval_ints t (significand t v) s cf) as I. cbv zeta in I.
  set (pf := (2 * significand t v + 1) * 2 ^ s) in *.
  set (mf := lower_mant t (significand t v) s) in *.
  set (pe := exponent t v - 1 - s) in *.
  set (E := pe + ce + width t) in *.
  set (P := mulr (width t) pf cf) in *. set (M := mulr (width t) mf cf) in *.
  destruct G as (G1 & G2 & G3 & G4 & G5 & G6 & G7 & G8 & G9 & G10 & G11).
  destruct I as (I1 & I2 & I3); try assumption; try lia.
  assert (Hww : 24 <= precision t /\ precision t + 8 <= width t <= 64 /\ table_max t <= 343) by (destruct t; cbn; lia).
  set (sh := - E).
  assert (Hsh : 16 <= sh /\ sh <= width t - 4 /\ width t / 2 <= sh <= width t / 2 + 3).
  { unfold sh. clear - G6. unfold grisu_alpha, grisu_gamma in G6. rewrite fw_width in G6.
    destruct t; cbn [width] in *; change (32 / 2) with 16 in *; change (64 / 2) with 32 in *; lia. }
  assert (Hwsh : width t - sh <= match t with Float => 16 | Double => 32 end /\ sh <= width t).
  { clear - Hsh. destruct t; cbn [width] in *; change (32 / 2) with 16 in *; change (64 / 2) with 32 in *; lia. }
  assert (Hshp : 2 ^ sh <= 2 ^ (width t - 4)) by (apply Z.pow_le_mono_r; lia).
  assert (H4 : 2 ^ (width t - 2) = 4 * 2 ^ (width t - 4)).
  { replace (width t - 2) with (2 + (width t - 4)) by lia. rewrite Z.pow_add_r by lia. reflexivity. }
  assert (0 < 2 ^ (width t - 4)) by (apply Z.pow_pos_nonneg; lia).
  destruct (digit_gen_ok t (P - 1) (M + 1) E) as (ds & j & D1 & D2 & D3 & D4 & D5 & D6); try assumption; fold sh; try lia.
  fold sh in D5.
  set (K := - mk + j).
  (* the real unit *)
  set (U := (bpow radix2 E * pow10 (- mk))%R).
  assert (HU : (0 < U)%R) by (apply Rmult_lt_0_compat; apply bpow_gt_0).
  assert (HUs : (U * IZR (2 ^ sh) = pow10 (- mk))%R).
  { unfold U. change (IZR (2 ^ sh)) with (IZR (radix2 ^ sh)). rewrite IZR_Zpower by lia.
    replace (bpow radix2 E * pow10 (- mk) * bpow radix2 sh)%R with (bpow radix2 E * bpow radix2 sh * pow10 (- mk))%R by ring.
    rewrite <- bpow_plus. replace (E + sh) with 0 by (unfold sh; lia). change (bpow radix2 0) with 1%R. ring. }
  assert (Hmk : (pow10 mk * pow10 (- mk) = 1)%R).
  { rewrite <- bpow_plus. replace (mk + - mk) with 0 by lia. reflexivity. }
  assert (HUle : (U <= bpow radix2 (exponent t v - s))%R).
  { unfold U. apply Rmult_le_reg_r with (pow10 mk); [apply bpow_gt_0|].
    rewrite Rmult_assoc, (Rmult_comm (pow10 (- mk))), Hmk, Rmult_1_r.
    replace E with (exponent t v - s + (ce + width t - 1)) by (unfold E, pe; lia).
    rewrite bpow_plus. apply Rmult_le_compat_l; [apply bpow_ge_0|assumption]. }
  (* error of the two products *)
  assert (HP : (Rabs (IZR P * U - mplus t v) < U)%R).
  { pose proof (mulr_error (width t) pf cf ce mk ltac:(lia) ltac:(lia) G7) as Q. fold P in Q.
    replace (IZR P * U - mplus t v)%R with
      ((IZR P * bpow radix2 (ce + width t) - IZR pf * pow10 mk) * (bpow radix2 pe * pow10 (- mk)))%R.
    - rewrite Rabs_mult, (Rabs_pos_eq (bpow radix2 pe * pow10 (- mk))).
      2:{ apply Rmult_le_pos; apply bpow_ge_0. }
      replace U with (bpow radix2 (ce + width t) * (bpow radix2 pe * pow10 (- mk)))%R.
      + apply Rmult_lt_compat_r; [|assumption]. apply Rmult_lt_0_compat; apply bpow_gt_0.
      + unfold U, E. rewrite <- Rmult_assoc, <- bpow_plus. do 2 f_equal. lia.
    - rewrite <- (upper_mant_real t v s) by lia. fold pf pe. unfold U, E.
      replace (pe + ce + width t) with (pe + (ce + width t)) by lia. rewrite (bpow_plus _ pe (ce + width t)).
      transitivity (IZR P * (bpow radix2 pe * bpow radix2 (ce + width t) * pow10 (- mk)) - IZR pf * bpow radix2 pe * (pow10 mk * pow10 (- mk)))%R; [ring|].
      rewrite Hmk. ring. }
  apply Rabs_def2 in HP as [HP1 HP2].
  set (hi := (IZR (P - 1) * U)%R).
  assert (Ehi : hi = (IZR P * U - U)%R) by (unfold hi; rewrite minus_IZR; ring).
  set (delta := P - 1 - (M + 1)) in *.
  assert (Hp : 0 < 2 ^ sh) by (apply Z.pow_pos_nonneg; lia).
  assert (HR : (2 * U <= mplus t v * bpow radix2 (3 - width t))%R).
  { apply Rle_trans with (2 * bpow radix2 (exponent t v - s))%R; [lra|].
    rewrite <- (upper_mant_real t v s) by lia. fold pf pe.
    apply Rle_trans with (bpow radix2 (width t - 1) * bpow radix2 pe * bpow radix2 (3 - width t))%R.
    - change 2%R with (bpow radix2 1) at 1. rewrite <- !bpow_plus. apply bpow_le. unfold pe. lia.
    - apply Rmult_le_compat_r; [apply bpow_ge_0|]. apply Rmult_le_compat_r; [apply bpow_ge_0|].
      rewrite bpow_IZR by lia. apply IZR_le. apply G2. }
  assert (Hsh0 : 0 <= sh) by lia.
  pose proof (cut_range _ _ _ _ _ Hsh0 D5 U (pow10 (- mk)) HU HUs) as [_ Q].
  fold hi in Q. rewrite Rmult_assoc, <- bpow_plus in Q. replace (j + - mk) with K in Q by (unfold K; lia).
  assert (CO : exists p, p <= K /\ cut_off hi p (dval ds * 10 ^ (K - p)) /\
    (p = K /\ 2 ^ (width t / 2 - 5) <= significand t v \/ 10 ^ (tiny_digits t - 1) <= dval ds * 10 ^ (K - p) < 10 ^ (tiny_digits t + 1))).
  { destruct D5 as [(Hj & C2 & C3)|(Hj & C1 & r & C2 & C3 & _)].
    - exists (- mk). split; [unfold K; lia|]. replace (K - - mk) with j by (unfold K; lia). rewrite C2. split.
      + pose proof (Z.div_mod (P - 1) (2 ^ sh) ltac:(lia)) as DM. pose proof (Z.mod_pos_bound (P - 1) (2 ^ sh) Hp) as MB.
        rewrite Z.mul_comm in DM. set (z := (P - 1) / 2 ^ sh) in *. clearbody z. unfold cut_off. rewrite <- HUs. unfold hi.
        assert (N1 : (IZR (z * 2 ^ sh) <= IZR (P - 1))%R) by (apply IZR_le; lia).
        assert (N2 : (IZR (P - 1) < IZR ((z + 1) * 2 ^ sh))%R) by (apply IZR_lt; lia).
        rewrite mult_IZR in N1, N2. rewrite plus_IZR in N2. split.
        * replace (IZR z * (U * IZR (2 ^ sh)))%R with (IZR z * IZR (2 ^ sh) * U)%R by ring. apply Rmult_le_compat_r; lra.
        * replace ((IZR z + 1) * (U * IZR (2 ^ sh)))%R with ((IZR z + 1) * IZR (2 ^ sh) * U)%R by ring. apply Rmult_lt_compat_r; lra.
      + right. apply integral_size; lia.
    - exists K. split; [lia|]. rewrite Z.sub_diag. change (10 ^ 0) with 1. rewrite Z.mul_1_r. split.
      + split; [exact Q|]. unfold K. rewrite bpow_plus, <- HUs. unfold hi.
        assert (N : (pow10 (- j) * IZR (P - 1) < (IZR (dval ds) + 1) * IZR (2 ^ sh))%R).
        { rewrite bpow_IZR by lia. rewrite <- (plus_IZR _ 1), <- !mult_IZR. apply IZR_lt. change (radix10 ^ (- j)) with (10 ^ (- j)). rewrite C2. lia. }
        assert (EJ : (pow10 j * pow10 (- j) = 1)%R) by (rewrite <- bpow_plus; replace (j + - j) with 0 by lia; reflexivity).
        pose proof (bpow_gt_0 radix10 j) as PJ.
        replace (IZR (P - 1) * U)%R with (pow10 j * pow10 (- j) * (IZR (P - 1) * U))%R by (rewrite EJ; ring).
        replace (pow10 j * pow10 (- j) * (IZR (P - 1) * U))%R with ((pow10 (- j) * IZR (P - 1)) * (U * pow10 j))%R by ring.
        replace ((IZR (dval ds) + 1) * (U * IZR (2 ^ sh) * pow10 j))%R with (((IZR (dval ds) + 1) * IZR (2 ^ sh)) * (U * pow10 j))%R by ring.
        apply Rmult_lt_compat_r; [now apply Rmult_lt_0_compat|exact N].
      + left. split; [reflexivity|].
        destruct (Z.le_gt_cases (2 ^ (width t / 2 - 5)) (significand t v)) as [|Gf]; [assumption|exfalso].
        pose proof (tiny_delta t (significand t v) s cf sh ltac:(lia) ltac:(lia) G1 (proj1 G2) G4) as TD. fold pf mf P M delta in TD.
        pose proof (Z.mod_pos_bound (P - 1) (2 ^ sh) Hp) as MB. clear - C1 TD MB. lia. }
  assert (DG : zlen ds <= max_sig t) by (apply (cut_digits t (P - 1) delta sh ds j); try assumption; try lia).
  destruct CO as (p & CO1 & CO2 & CO3).
  exists ds, K, hi, p.
  split; [assumption|]. split; [assumption|]. split; [assumption|].
  split; [exact DG|].
  split. { assert (mplus t v * (1 - bpow radix2 (3 - width t)) = mplus t v - mplus t v * bpow radix2 (3 - width t))%R as -> by ring. lra. }
  split; [exact CO1|]. split; [exact CO2|]. split; [exact CO3|].
  clear CO1 CO2 CO3 Q HR HU HUs HUle HP1 HP2 Ehi DG. intros pre rest Hl. rewrite G11.
  unfold diy_inc, diy_dec. cbn [m_f m_e]. rewrite fw_width.
  destruct (Z.ltb_spec M (2 ^ width t - 1)) as [_|?]; [|lia]. cbn [bind].
  destruct (Z.ltb_spec 1 P) as [_|?]; [|lia]. cbn [bind].
  rewrite D6 by lia. reflexivity.
Qed.
