(** The long double of x86 (64 bits) is not good enough as the fallback for double. *)
From Coq Require Import Reals Lra Lia ZArith List String Ascii.
From Flocq Require Import Core.
From Verif Require Import Machine MachineFacts BitOps StaticPow Fraction Format DiyFp KComp Chars Krosh Atof Spec ParseSpec Api ParseApi Instances
  DiyFacts BoundFacts TableFacts GrisuFacts ShownFacts FtoaFacts RoundFacts ArithProps CmpFacts GapFacts KroshNum ShortFacts ParseProps Refuted GoodFallback RoundTrip ParseExamples Ieee Narrow NarrowExamples Wider.
Import ListNotations.
Open Scope Z_scope.

Definition x87 : binary_type := {| b_min_exp := -16445; b_precision := 64 |}.
Definition binary128 : binary_type := {| b_min_exp := -16494; b_precision := 113 |}.
Lemma x87_wider : forall t, wider x87 t. Proof. destruct t; vm_compute; intuition congruence. Qed.
Lemma binary128_wider : forall t, wider binary128 t. Proof. destruct t; vm_compute; intuition congruence. Qed.
(** double is wider than float: C117 is about this case *)
Definition binary64 : binary_type := {| b_min_exp := -1074; b_precision := 53 |}.
Lemma binary64_wider : wider binary64 Float. Proof. vm_compute; intuition congruence. Qed.
Lemma binary64_double : forall x, rnd_in binary64 x = rnd Double x. Proof. reflexivity. Qed.

(** * Such functions and such conversions exist *)
Definition reference_wide (w : binary_type) : wide_function := fun s errno =>
  let n := scan s in Ok {| w_number := rnd_in w (value n); w_negative := is_minus (n_sign n); w_end := len (written n); w_errno := errno |}.
Theorem reference_wide_good : forall w t, good_wide w t (reference_wide w).
Proof. intros w t n c rest errno W Hc _. unfold reference_wide. now rewrite (scan_written n c rest W Hc). Qed.

Definition nearest (t : ftype) (neg : bool) (x : R) : Z :=
  if Req_EM_T x 0 then zero_of t neg
  else if Rlt_dec (Rabs (rnd t x)) (bpow radix2 (max_exp t)) then round_bits t x + zero_of t neg
  else infinity_of t neg.
Lemma nearest_ok : forall t (neg : bool) (x : R), (if neg then (x <= 0)%R else (0 <= x)%R) -> correctly_rounded t neg x (nearest t neg x).
Proof.
  intros t neg x S0. unfold nearest.
  assert (ZF : forall b, finite t (zero_of t b) /\ real_of t (zero_of t b) = 0%R /\ (negative t (zero_of t b) <-> b = true)).
  { intros b. split; [destruct t, b; repeat split; vm_compute; congruence|]. split.
    - unfold real_of, magnitude. replace (significand t (zero_of t b)) with 0 by (destruct t, b; reflexivity). rewrite Rmult_0_l. destruct (sign_field t _ =? 1); [apply Ropp_0|reflexivity].
    - destruct t, b; split; intros H; try reflexivity; vm_compute in H; discriminate. }
  destruct (Req_EM_T x 0) as [Z0|Z0].
  - left. rewrite Z0, rnd_0, Rabs_R0. split; [apply bpow_gt_0|]. destruct (ZF neg) as (A & B & C). auto.
  - set (a := Rabs x). assert (A0 : (0 <= a)%R) by apply Rabs_pos.
    assert (X : x = (if neg then - a else a)%R).
    { unfold a. destruct neg; [rewrite Rabs_left1 by exact S0; ring|now rewrite Rabs_pos_eq]. }
    assert (RA : Rabs (rnd t x) = rnd t a).
    { rewrite X. destruct neg; [rewrite rnd_opp, Rabs_Ropp|]; apply Rabs_pos_eq; now apply rnd_nonneg. }
    destruct (Rlt_dec _ _) as [L|L].
    + destruct (round_bits_ok t x Z0 L) as (G & Mg & S). set (v := round_bits t x) in *.
      assert (Lv : 0 <= v < 2 ^ (width t - 1)).
      { destruct G as [[G1 G2] _]. split; [assumption|]. unfold sign_field in S. assert (0 < 2 ^ (width t - 1)) by (destruct t; reflexivity). apply Z.div_small_iff in S; lia. }
      replace (v + zero_of t neg) with (apply_sign (fmt_of t) (negb neg) v).
      * rewrite X. apply signed_correct; [exact G|lia|exact A0| |rewrite <- RA; exact L]. unfold real_of. rewrite S. cbn [Z.eqb]. now rewrite Mg.
      * unfold apply_sign, zero_of. rewrite negb_involutive. destruct neg; [now apply neg_bits_small|lia].
    + right. split; [lra|reflexivity].
Qed.
Definition narrowing (t : ftype) (g : wide_function) : fallback := fun s errno =>
  match g s errno with
  | Ok r => Ok {| fb_value := nearest t (w_negative r) (w_number r); fb_str_end := w_end r; fb_errno := w_errno r |}
  | Fault x => Fault x
  end.
Theorem narrowing_converts : forall t g, converted t g (narrowing t g).
Proof.
  intros t g s errno. unfold narrowing. destruct (g s errno) as [r|x]; [|reflexivity]. exists (nearest t (w_negative r) (w_number r)). split; [|reflexivity].
  intros A. apply nearest_ok. exact A.
Qed.

Example C119_meets : forall t, exists g fb, wider x87 t /\ well_formed p2 /\ ends_number 0 /\ within_limits p2 /\ short_decimal t p2 /\ in_range t (value p2) /\
  ~ carries t (value p2) /\ good_wide x87 t g /\ converted t g fb /\ 0 <> ERANGE.
Proof.
  intros t. exists (reference_wide x87), (narrowing t (reference_wide x87)). destruct (C29_meets t) as (A & B & C & D & E & F).
  split; [apply x87_wider|]. split; [exact A|]. split; [exact nul_ends|]. split; [exact B|]. split; [exact C|]. split; [exact D|]. split; [exact E|].
  split; [apply reference_wide_good|]. split; [apply narrowing_converts|vm_compute; congruence].
Qed.

(** * 5.97092117: strtold rounds it to the point half way between two doubles *)
(** the 64-bit number nearest to a/b *)
Lemma rnd64 : forall a b m k, 0 < b -> 1 <= m -> 2 ^ (m - 1) * b <= a < 2 ^ m * b -> k = 64 - m -> 0 <= k ->
  forall M, - b < 2 * (a * 2 ^ k - M * b) < b -> rnd_in x87 (IZR a / IZR b) = (IZR M * bpow radix2 (- k))%R.
Proof.
  intros a b m k B M1 [A1 A2] K K0 M [E1 E2].
  assert (B0 : (0 < IZR b)%R) by now apply IZR_lt.
  assert (P : forall j, 0 <= j -> IZR (2 ^ j) = bpow radix2 j) by (intros; change (2 ^ j) with (radix2 ^ j); now rewrite <- bpow_IZR).
  assert (MG : mag radix2 (IZR a / IZR b) = m :> Z).
  { apply mag_unique_pos. split.
    - apply Rmult_le_reg_r with (IZR b); [exact B0|]. unfold Rdiv. rewrite Rmult_assoc, Rinv_l by lra. rewrite Rmult_1_r, <- P, <- mult_IZR by lia. now apply IZR_le.
    - apply Rmult_lt_reg_r with (IZR b); [exact B0|]. unfold Rdiv. rewrite Rmult_assoc, Rinv_l by lra. rewrite Rmult_1_r, <- P, <- mult_IZR by lia. now apply IZR_lt. }
  assert (CE : cexp radix2 (FLT_exp (-16445) 64) (IZR a / IZR b) = - k) by (unfold cexp, FLT_exp; rewrite MG; lia).
  unfold rnd_in, x87. cbn [b_min_exp b_precision]. unfold round, F2R. rewrite CE. cbn [Fnum Fexp]. f_equal. f_equal.
  unfold scaled_mantissa. rewrite CE, Z.opp_involutive. apply Znearest_imp.
  assert (X : (IZR a / IZR b * bpow radix2 k - IZR M = IZR (a * 2 ^ k - M * b) / IZR b)%R).
  { rewrite minus_IZR, !mult_IZR, P by lia. field. lra. }
  rewrite X. assert (D : (IZR (a * 2 ^ k - M * b) = (IZR (2 * (a * 2 ^ k - M * b))) / 2)%R) by (rewrite mult_IZR; field). rewrite D.
  apply IZR_lt in E1, E2. rewrite opp_IZR in E1. set (z := IZR (2 * (a * 2 ^ k - M * b))) in *. clearbody z. apply Rabs_lt.
  split; apply Rmult_lt_reg_r with (IZR b); try exact B0; unfold Rdiv; rewrite Rmult_assoc, Rinv_l by lra; lra.
Qed.

Definition p119 : numeral := num NoSign [5] (Some [9;7;0;9;2;1;1;7]).
Definition v119 : Z := 4618408678016455555.
Lemma p119_half_way : rnd_in x87 (value p119) = midpoint_above Double v119.
Proof.
  assert (V : value p119 = (IZR 597092117 / IZR (10 ^ 8))%R).
  { change (value p119) with (IZR 597092117 * bpow radix10 (- (8)))%R. rewrite bpow_opp, (bpow_IZR radix10 8) by lia. reflexivity. }
  rewrite V. rewrite (rnd64 597092117 (10 ^ 8) 3 61) with (M := 13768006838410550272); try (vm_compute; intuition congruence).
  unfold midpoint_above, magnitude, ulp_of. change (significand Double v119) with 6722659589067651. change (exponent Double v119) with (- 61 + 11).
  rewrite bpow_plus, (bpow_IZR radix2 11) by lia. change (radix2 ^ 11) with 2048. change (Z.opp 61) with (-61).
  replace 13768006838410550272 with ((2 * 6722659589067651 + 1) * 1024) by reflexivity. rewrite mult_IZR, plus_IZR, mult_IZR. field.
Qed.

(** nine digits, of which the double next to the right one is made *)
Theorem C119_refuted : written p119 = text "5.97092117" /\ short_decimal Double p119 /\ correctly_rounded Double false (value p119) v119 /\
  forall g fb want errno, good_wide x87 Double g -> converted Double g fb -> errno <> ERANGE ->
    atof (fmt_of Double) (written p119 ++ [0]) want fb errno =
      Ok {| at_value := v119 + 1; at_status := success; at_str_end := if want then Some 10 else None; at_errno := errno; at_used_fallback := true |}.
Proof.
  assert (W : well_formed p119) by wfn. assert (F : finite Double v119) by fin. assert (F' : finite Double (v119 + 1)) by fin.
  assert (E : value p119 = (IZR (coefficient p119) * pow10 (scale p119))%R) by reflexivity.
  assert (RF : rnd Double (value p119) = magnitude Double v119) by (rewrite E; apply rounds_strictly_rnd; vm_compute; reflexivity).
  destruct (meets_range Double p119 v119 W F) as [A B]; [vm_compute; reflexivity|vm_compute; congruence|vm_compute; congruence|].
  split; [reflexivity|]. split.
  { exists 597092117, 0. split; [vm_compute; split; congruence|]. split; [lia|]. split; [reflexivity|]. intros _. vm_compute. congruence. }
  split.
  { left. destruct A as [_ A]. split; [exact A|]. split; [exact F|]. split; [rewrite RF; reflexivity|]. split; intros C; vm_compute in C; congruence. }
  intros g fb want errno G CV NE.
  specialize (CV (written p119 ++ [0]) errno). rewrite (G p119 0 [] errno W nul_ends A) in CV. destruct CV as (u & U1 & U2).
  specialize (U1 (agrees x87 Double (x87_wider _) p119 errno W)). cbn [w_number w_negative w_end w_errno] in *.
  assert (U : u = v119 + 1).
  { apply (C81_unique Double _ _ _ _ U1). rewrite p119_half_way. left. rewrite tie_up by (vm_compute; congruence).
    assert (N : (magnitude Double v119 + ulp_of Double v119)%R = magnitude Double (v119 + 1)).
    { assert (Q : forall m b, (IZR m * b + b = IZR (m + 1) * b)%R) by (intros; rewrite plus_IZR; ring).
      unfold magnitude, ulp_of. replace (significand Double (v119 + 1)) with (significand Double v119 + 1) by (vm_compute; reflexivity).
      replace (exponent Double (v119 + 1)) with (exponent Double v119) by (vm_compute; reflexivity). apply Q. }
    rewrite N. split; [|split; [exact F'|split; [reflexivity|split; intros C; vm_compute in C; congruence]]].
    rewrite Rabs_pos_eq by (unfold magnitude; apply Rmult_le_pos; [apply IZR_le; vm_compute; congruence|apply bpow_ge_0]). now apply magnitude_lt_max. }
  subst u. transitivity (fallback_answer Double (written p119 ++ [0]) want fb errno).
  { run. }
  unfold fallback_answer. rewrite U2. cbn [fb_value fb_str_end fb_errno]. unfold check_errno. destruct (Z.eqb_spec errno ERANGE); [contradiction|reflexivity].
Qed.
