(** Rounding does not change between two reals with no rounding boundary between them. *)
From Coq Require Import Reals Lra Lia ZArith List.
From Flocq Require Import Core.
From Verif Require Import Machine MachineFacts Spec ParseSpec Instances BoundFacts TableFacts GrisuFacts FtoaFacts RoundFacts DownFacts ArithProps.
Open Scope Z_scope.

Lemma rnd_0 : forall t, rnd t 0 = 0%R.
Proof. intros. apply round_0, valid_rnd_N. Qed.

Lemma rnd_nonneg : forall t x, (0 <= x)%R -> (0 <= rnd t x)%R.
Proof. intros t x H. rewrite <- (rnd_0 t). now apply rnd_mono. Qed.

Lemma format_rnd : forall t x, generic_format radix2 (fexp t) (rnd t x).
Proof. intros. apply generic_format_round; [apply fexp_valid|apply valid_rnd_N]. Qed.

Lemma rnd_bpow : forall t k, min_exp t <= k -> rnd t (bpow radix2 k) = bpow radix2 k.
Proof.
  intros t k H. apply round_generic; [apply valid_rnd_N|]. apply generic_format_bpow. unfold FLT_exp.
  pose proof (width_facts t). lia.
Qed.

(** every non-negative number of the format that is small enough is the magnitude of a value *)
Lemma format_value : forall t x, generic_format radix2 (fexp t) x -> (0 <= x < bpow radix2 (max_exp t))%R ->
  exists v, finite t v /\ v < 2 ^ (width t - 1) /\ sign_field t v = 0 /\ magnitude t v = x.
Proof.
  intros t x F [H0 H1]. pose proof (width_facts t) as W.
  pose proof (pow2_half (precision t) ltac:(lia)) as EP. pose proof (pow2_pos (precision t - 1) ltac:(lia)) as PP.
  destruct (Req_dec x 0) as [->|N].
  - destruct (pack t 0 (min_exp t)) as (P1 & P2 & P3 & P4 & P5); [lia|lia|auto|].
    eexists. split; [exact P1|]. split; [exact P2|]. split; [exact P3|]. unfold magnitude. rewrite P4. ring.
  - assert (0 < x)%R as HP by lra.
    set (E := cexp radix2 (fexp t) x). set (m := Ztrunc (scaled_mantissa radix2 (fexp t) x)).
    assert (EX : x = (IZR m * bpow radix2 E)%R) by (rewrite F at 1; reflexivity).
    assert (Hmag : (bpow radix2 (mag radix2 x - 1) <= x < bpow radix2 (mag radix2 x))%R).
    { destruct (mag radix2 x) as [e He]. cbn. rewrite <- (Rabs_pos_eq x) by lra. apply He. exact N. }
    assert (HM : mag radix2 x <= max_exp t).
    { assert (mag radix2 x - 1 < max_exp t); [|lia]. apply (lt_bpow radix2). lra. }
    assert (EE : E = Z.max (mag radix2 x - precision t) (min_exp t)) by reflexivity.
    assert (Hm : 0 < m).
    { apply lt_IZR. apply Rmult_lt_reg_r with (bpow radix2 E); [apply bpow_gt_0|]. rewrite <- EX. lra. }
    assert (Hm2 : m < 2 ^ precision t).
    { apply lt_IZR. apply Rmult_lt_reg_r with (bpow radix2 E); [apply bpow_gt_0|]. rewrite <- EX.
      rewrite <- (bpow_IZR radix2) by lia. rewrite <- bpow_plus.
      apply Rlt_le_trans with (1 := proj2 Hmag). apply bpow_le. lia. }
    destruct (pack t m E) as (P1 & P2 & P3 & P4 & P5); [lia|lia| |].
    { destruct (Z.le_gt_cases (mag radix2 x - precision t) (min_exp t)) as [L|L]; [right; lia|left].
      apply le_IZR. apply Rmult_le_reg_r with (bpow radix2 E); [apply bpow_gt_0|]. rewrite <- EX.
      rewrite <- (bpow_IZR radix2) by lia. rewrite <- bpow_plus.
      apply Rle_trans with (2 := proj1 Hmag). apply bpow_le. lia. }
    eexists. split; [exact P1|]. split; [exact P2|]. split; [exact P3|]. unfold magnitude. rewrite P4, P5. symmetry. exact EX.
Qed.

Lemma significand_zero : forall t v, significand t v = 0 -> exponent t v = min_exp t.
Proof.
  intros t v H. destruct (significand_full t v) as [F|F]; [|assumption].
  pose proof (width_facts t). pose proof (pow2_pos (precision t - 1) ltac:(lia)). lia.
Qed.

Lemma succ_any : forall t v, succ radix2 (fexp t) (magnitude t v) = (magnitude t v + ulp_of t v)%R.
Proof.
  intros t v. destruct (Z.eq_dec (significand t v) 0) as [E|E].
  - rewrite succ_eq_pos by apply magnitude_nonneg. f_equal.
    assert (magnitude t v = 0%R) as -> by (unfold magnitude; rewrite E; ring).
    unfold ulp_of. rewrite significand_zero by assumption.
    unfold ulp. rewrite Req_bool_true by reflexivity.
    pose proof (width_facts t) as W.
    destruct (negligible_exp_spec' (fexp t)) as [[_ C]|(n & -> & Hn)].
    + exfalso. specialize (C (min_exp t)). unfold FLT_exp in C. lia.
    + f_equal. unfold FLT_exp in *. lia.
  - apply succ_mag. pose proof (significand_range t v). lia.
Qed.

Lemma midpoint_succ : forall t v, midpoint_above t v = ((magnitude t v + succ radix2 (fexp t) (magnitude t v)) / 2)%R.
Proof. intros. rewrite succ_any. unfold midpoint_above. field. Qed.

Lemma rnd_gap : forall t a b, (0 <= a <= b)%R -> (rnd t a < rnd t b)%R -> (rnd t a < bpow radix2 (max_exp t))%R ->
  exists v, finite t v /\ magnitude t v = rnd t a /\ (a <= midpoint_above t v <= b)%R.
Proof.
  intros t a b [H0 H1] Hr Hm.
  destruct (format_value t (rnd t a)) as (v & V1 & V2 & V3 & V4).
  { apply format_rnd. }
  { split; [now apply rnd_nonneg|assumption]. }
  exists v. split; [exact V1|]. split; [exact V4|]. rewrite midpoint_succ, V4. split.
  - apply Rnot_lt_le. intros C.
    assert (succ radix2 (fexp t) (rnd t a) <= rnd t a)%R; [|].
    + unfold rnd at 2. apply round_N_ge_midp; [apply fexp_valid|apply generic_format_succ; [apply fexp_valid|apply format_rnd]|].
      rewrite pred_succ by (apply fexp_valid || apply format_rnd). lra.
    + assert (Z0 : rnd t a <> 0%R \/ rnd t a = 0%R) by (destruct (Req_dec (rnd t a) 0); auto).
      rewrite <- V4, succ_any in H. assert (0 < ulp_of t v)%R by apply bpow_gt_0. lra.
  - apply Rnot_lt_le. intros C.
    assert (rnd t b <= rnd t a)%R; [|lra].
    unfold rnd at 1. apply round_N_le_midp; [apply fexp_valid|apply format_rnd|]. exact C.
Qed.

(** midpoints near a big multiple of [2^e] *)
Lemma midpoint_lt : forall t v, (midpoint_above t v <= bpow radix2 (precision t + exponent t v) - / 2 * ulp_of t v)%R.
Proof.
  intros t v. pose proof (width_facts t). unfold midpoint_above, magnitude, ulp_of. rewrite bpow_plus, (bpow_IZR radix2 (precision t)) by lia.
  pose proof (significand_range t v) as SR.
  assert (IZR (significand t v) <= IZR (2 ^ precision t) - 1)%R by (rewrite <- minus_IZR; apply IZR_le; lia).
  pose proof (bpow_gt_0 radix2 (exponent t v)).
  assert (IZR (significand t v) * bpow radix2 (exponent t v) <= (IZR (2 ^ precision t) - 1) * bpow radix2 (exponent t v))%R
    by (apply Rmult_le_compat_r; lra).
  change (radix2 ^ precision t) with (2 ^ precision t). lra.
Qed.

Lemma midpoint_exponent : forall t v z e delta, (bpow radix2 (width t - 2 + e) <= z)%R ->
  (0 < delta <= bpow radix2 (width t - 4 - precision t))%R ->
  (z - delta * bpow radix2 e < midpoint_above t v)%R ->
  e + width t - precision t - 1 <= exponent t v.
Proof.
  intros t v z e delta Hz Hd Hm. pose proof (width_facts t) as W.
  pose proof (midpoint_lt t v) as ML. pose proof (bpow_gt_0 radix2 (exponent t v)) as PE.
  pose proof (bpow_gt_0 radix2 e) as Pe.
  assert (D : (delta * bpow radix2 e <= bpow radix2 (width t - 4 - precision t + e))%R).
  { rewrite bpow_plus. apply Rmult_le_compat_r; lra. }
  destruct (Z.le_gt_cases (e + width t - precision t - 1) (exponent t v)) as [|G]; [assumption|exfalso].
  unfold ulp_of in ML.
  destruct (Z.eq_dec (exponent t v) (e + width t - precision t - 2)) as [Q|Q].
  - replace (precision t + exponent t v) with (width t - 2 + e) in ML by lia.
    assert (E2 : (/ 2 * bpow radix2 (exponent t v) = bpow radix2 (exponent t v - 1))%R).
    { change (/ 2)%R with (bpow radix2 (-1)). rewrite <- bpow_plus. f_equal. lia. }
    assert (bpow radix2 (width t - 4 - precision t + e) <= bpow radix2 (exponent t v - 1))%R by (apply bpow_le; lia).
    lra.
  - assert (bpow radix2 (precision t + exponent t v) <= bpow radix2 (width t - 3 + e))%R by (apply bpow_le; lia).
    assert (E2 : bpow radix2 (width t - 2 + e) = (2 * bpow radix2 (width t - 3 + e))%R).
    { change 2%R with (bpow radix2 1). rewrite <- bpow_plus. f_equal. lia. }
    assert (bpow radix2 (width t - 4 - precision t + e) <= bpow radix2 (width t - 3 + e))%R by (apply bpow_le; lia).
    lra.
Qed.

(** the short case: error below one unit of the grid *)
Lemma transfer_exact : forall t g e y, 2 ^ (width t - 2) <= g ->
  let z := (IZR g * bpow radix2 e)%R in
  (Rabs (z - y) < bpow radix2 e)%R -> (rnd t y < bpow radix2 (max_exp t))%R ->
  rnd t z = rnd t y \/
  (exists v, finite t v /\ z = midpoint_above t v).
Proof.
  intros t g e y Hg z Hd Hmax. pose proof (width_facts t) as W.
  pose proof (bpow_gt_0 radix2 e) as Pe.
  assert (Hz : (bpow radix2 (width t - 2 + e) <= z)%R).
  { unfold z. rewrite bpow_plus. apply Rmult_le_compat_r; [lra|]. rewrite (bpow_IZR radix2) by lia. now apply IZR_le. }
  assert (Hz2 : (bpow radix2 e <= z)%R).
  { apply Rle_trans with (2 := Hz). apply bpow_le. lia. }
  apply Rabs_def2 in Hd. destruct Hd as [Hd1 Hd2].
  assert (K : forall v, finite t v -> (z - bpow radix2 e < midpoint_above t v < z + bpow radix2 e)%R -> z = midpoint_above t v).
  { intros v Fv [M1 M2].
    assert (X : e + width t - precision t - 1 <= exponent t v).
    { apply (midpoint_exponent t v z e 1); [assumption| |lra]. split; [lra|].
      change 1%R with (bpow radix2 0). apply bpow_le. lia. }
    assert (EM : midpoint_above t v = (IZR ((2 * significand t v + 1) * 2 ^ (exponent t v - 1 - e)) * bpow radix2 e)%R).
    { unfold midpoint_above, magnitude, ulp_of. rewrite mult_IZR, plus_IZR, mult_IZR.
      rewrite <- (bpow_IZR radix2) by lia. rewrite Rmult_assoc, <- bpow_plus.
      replace (exponent t v - 1 - e + e) with (exponent t v - 1) by lia.
      replace (bpow radix2 (exponent t v)) with (2 * bpow radix2 (exponent t v - 1))%R.
      - field.
      - change 2%R with (bpow radix2 1). rewrite <- bpow_plus. f_equal. lia. }
    set (M := (2 * significand t v + 1) * 2 ^ (exponent t v - 1 - e)) in *. rewrite EM in *. unfold z in *.
    assert (IZR g - 1 < IZR M)%R.
    { apply Rmult_lt_reg_r with (bpow radix2 e); [assumption|]. lra. }
    assert (IZR M < IZR g + 1)%R.
    { apply Rmult_lt_reg_r with (bpow radix2 e); [assumption|]. lra. }
    rewrite <- minus_IZR in H. rewrite <- plus_IZR in H0. apply lt_IZR in H, H0.
    replace M with g by lia. reflexivity. }
  destruct (Rtotal_order (rnd t z) (rnd t y)) as [L|[L|L]]; [|left; exact L|].
  - right. assert (z < y)%R.
    { apply Rnot_le_lt. intros C. apply (rnd_mono t) in C. lra. }
    destruct (rnd_gap t z y) as (v & V1 & V2 & V3); [lra|assumption|lra|]. exists v. split; [exact V1|]. apply K; [assumption|lra].
  - right. assert (y < z)%R.
    { apply Rnot_le_lt. intros C. apply (rnd_mono t) in C. lra. }
    destruct (rnd_gap t y z) as (v & V1 & V2 & V3); [lra|assumption|assumption|]. exists v. split; [exact V1|]. apply K; [assumption|lra].
Qed.

(** the general case: no boundary near *)
Lemma transfer_clear : forall t z e y delta mg, (bpow radix2 (width t - 2 + e) <= z)%R ->
  (0 < delta <= bpow radix2 (width t - 4 - precision t))%R ->
  (Rabs (z - y) < delta * bpow radix2 e)%R ->
  (delta * bpow radix2 (precision t + 1 - width t) <= mg)%R -> (0 <= y)%R ->
  clear_of_ties t mg y -> (rnd t y < bpow radix2 (max_exp t))%R ->
  rnd t z = rnd t y /\ ~ tie t z.
Proof.
  intros t z e y delta mg Hz Hdl Hd Hmg Hy Hc Hmax. pose proof (width_facts t) as W.
  pose proof (bpow_gt_0 radix2 e) as Pe. pose proof (bpow_gt_0 radix2 (width t - 2 + e)) as Pz.
  apply Rabs_def2 in Hd. destruct Hd as [Hd1 Hd2].
  assert (K : forall v, finite t v -> (z - delta * bpow radix2 e < midpoint_above t v)%R ->
     (delta * bpow radix2 e <= Rabs (y - midpoint_above t v))%R).
  { intros v Fv M1. pose proof (midpoint_exponent t v z e delta Hz Hdl M1) as X.
    specialize (Hc v Fv). rewrite (Rabs_pos_eq y) in Hc by assumption. apply Rle_trans with (2 := Hc).
    apply Rle_trans with (delta * bpow radix2 (precision t + 1 - width t) * ulp_of t v)%R.
    - unfold ulp_of. rewrite Rmult_assoc, <- bpow_plus. apply Rmult_le_compat_l; [lra|]. apply bpow_le. lia.
    - apply Rmult_le_compat_r; [apply bpow_ge_0|assumption]. }
  assert (Hz0 : (0 <= z)%R) by lra.
  split.
  - destruct (Rtotal_order (rnd t z) (rnd t y)) as [L|[L|L]]; [exfalso|exact L|exfalso].
    + assert (z < y)%R.
      { apply Rnot_le_lt. intros C. apply (rnd_mono t) in C. lra. }
      destruct (rnd_gap t z y) as (v & V1 & V2 & V3); [lra|assumption|lra|].
      specialize (K v V1 ltac:(lra)). rewrite Rabs_pos_eq in K by lra. lra.
    + assert (y < z)%R.
      { apply Rnot_le_lt. intros C. apply (rnd_mono t) in C. lra. }
      destruct (rnd_gap t y z) as (v & V1 & V2 & V3); [lra|assumption|assumption|].
      specialize (K v V1 ltac:(lra)). rewrite Rabs_left1 in K by lra. lra.
  - intros (v & Fv & Ev). rewrite Rabs_pos_eq in Ev by assumption.
    specialize (K v Fv). rewrite <- Ev in K.
    assert (0 < delta * bpow radix2 e)%R by (apply Rmult_lt_0_compat; lra).
    specialize (K ltac:(lra)).
    assert (Rabs (y - z) < delta * bpow radix2 e)%R by (apply Rabs_def1; lra). lra.
Qed.

(** a tie of the computed number means that the exact one is close to it *)
Lemma near_tie : forall t g e y mg, 2 ^ (width t - 2) <= g ->
  (Rabs (IZR g * bpow radix2 e - y) < bpow radix2 e)%R -> (0 <= y)%R ->
  (bpow radix2 (precision t + 1 - width t) <= mg)%R ->
  clear_of_ties t mg y -> ~ tie t (IZR g * bpow radix2 e).
Proof.
  intros t g e y mg Hg Hd Hy Hmg Hc (v & Fv & Ev). pose proof (width_facts t) as W.
  pose proof (bpow_gt_0 radix2 e) as Pe.
  assert (Hz : (bpow radix2 (width t - 2 + e) <= IZR g * bpow radix2 e)%R).
  { rewrite bpow_plus. apply Rmult_le_compat_r; [lra|]. rewrite (bpow_IZR radix2) by lia. now apply IZR_le. }
  set (z := (IZR g * bpow radix2 e)%R) in *.
  pose proof (bpow_gt_0 radix2 (width t - 2 + e)).
  rewrite (Rabs_pos_eq z) in Ev by lra.
  assert (X : e + width t - precision t - 1 <= exponent t v).
  { apply (midpoint_exponent t v z e 1); [assumption| |lra]. split; [lra|].
    change 1%R with (bpow radix2 0). apply bpow_le. lia. }
  specialize (Hc v Fv). rewrite (Rabs_pos_eq y) in Hc by assumption. rewrite <- Ev in Hc.
  rewrite Rabs_minus_sym in Hc.
  assert (bpow radix2 e <= mg * ulp_of t v)%R; [|lra].
  apply Rle_trans with (bpow radix2 (precision t + 1 - width t) * ulp_of t v)%R.
  - unfold ulp_of. rewrite <- bpow_plus. apply bpow_le. lia.
  - apply Rmult_le_compat_r; [apply bpow_ge_0|assumption].
Qed.
