(** From text to number and back to text: C86. *)
From Coq Require Import Reals Lra Lia ZArith List String Ascii.
From Flocq Require Import Core.
From Verif Require Import Machine MachineFacts BitOps StaticPow Fraction Format DiyFp KComp Chars Grisu Ftoa Krosh Atof Spec ParseSpec Api ParseApi Instances
  DiyFacts BoundFacts TableFacts GrisuFacts ShownFacts FtoaFacts RoundFacts WrittenFacts PrintProps PrintProps2 PrintProps3 DownFacts DvalFacts CmpFacts ArithProps ScanFacts LoopFacts ParseFacts GapFacts KroshNum ShortFacts FracFacts LongFacts ParseProps Refuted RoundTrip ParseExamples.
Import ListNotations.
Open Scope Z_scope.

(** A number that rounds to [v] without carrying and keeps a distance from the rounding boundaries
    lies inside the interval between the boundaries of [v], at that distance from both ends. *)
Lemma nearest_inside : forall t x v mg, (0 <= x)%R -> finite t v -> 0 < significand t v -> rnd t x = magnitude t v -> ~ carries t x ->
  min_exp t + precision t - 1 <= exponent t v + precision t - 1 ->
  (0 <= mg <= / 4)%R -> clear_of_ties t mg x ->
  (midpoint_below t v + mg * ulp_of t v <= x <= midpoint_above t v - mg * ulp_of t v)%R.
Proof.
  intros t x v mg H0 Fv S Hr NC HE Hm CT. pose proof (width_facts t) as Ww.
  pose proof (bpow_gt_0 radix2 (exponent t v)) as U. fold (ulp_of t v) in U.
  assert (Ax : Rabs x = x) by now apply Rabs_pos_eq.
  split.
  - destruct (Rle_or_lt (magnitude t v) x) as [L|L].
    { unfold midpoint_below, gap_below. destruct (_ && _); nra. }
    assert (NP : significand t v <> 2 ^ (precision t - 1)).
    { intros E. apply NC. exists (precision t - 1 + exponent t v). split; [lia|].
      assert (M : magnitude t v = bpow radix2 (precision t - 1 + exponent t v)).
      { unfold magnitude. rewrite E, bpow_plus, (bpow_IZR radix2 (precision t - 1)) by lia. reflexivity. }
      rewrite Ax, <- M, Hr. split; [exact L|]. apply Rabs_pos_eq, magnitude_nonneg. }
    assert (G : gap_below t v = ulp_of t v).
    { unfold gap_below. destruct (Z.eqb_spec (significand t v) (2 ^ (precision t - 1))); [contradiction|reflexivity]. }
    pose proof (pred_mag t v S) as PM. rewrite G in PM.
    assert (FP : generic_format radix2 (fexp t) (magnitude t v - ulp_of t v)%R).
    { rewrite <- PM. apply generic_format_pred; [apply fexp_valid|apply format_mag]. }
    assert (P0 : (0 <= magnitude t v - ulp_of t v)%R).
    { unfold magnitude. fold (ulp_of t v). assert (1 <= IZR (significand t v))%R by (apply IZR_le; lia). nra. }
    destruct (format_value t _ FP) as (u & U1 & _ & _ & U4).
    { split; [exact P0|]. pose proof (magnitude_lt_max t v Fv). lra. }
    assert (US : ulp_of t u = ulp_of t v).
    { pose proof (succ_any t u) as SA. rewrite U4, <- PM, succ_pred in SA by (apply fexp_valid || apply format_mag). lra. }
    assert (MA : midpoint_above t u = midpoint_below t v).
    { unfold midpoint_above, midpoint_below. rewrite U4, US, G. field. }
    specialize (CT u U1). rewrite Ax, MA, US in CT.
    assert (midpoint_below t v <= x)%R.
    { apply Rnot_lt_le. intros C. assert (rnd t x <= magnitude t u)%R.
      { unfold rnd. apply round_N_le_midp; [apply fexp_valid|apply format_mag|]. rewrite <- midpoint_succ, MA. exact C. }
      rewrite Hr, U4 in H. lra. }
    rewrite Rabs_pos_eq in CT by lra. lra.
  - assert (x <= midpoint_above t v)%R.
    { apply Rnot_lt_le. intros C.
      assert (succ radix2 (fexp t) (magnitude t v) <= rnd t x)%R.
      { unfold rnd. apply round_N_ge_midp; [apply fexp_valid|apply generic_format_succ; [apply fexp_valid|apply format_mag]|].
        rewrite pred_succ by (apply fexp_valid || apply format_mag).
        rewrite midpoint_succ in C. lra. }
      rewrite succ_any, Hr in H. lra. }
    specialize (CT v Fv). rewrite Ax, Rabs_left1 in CT by lra. lra.
Qed.

(** C86: A text of at most 15 (float: 6) significant digits whose value is in the normal range,
    does not round up to a power of two and is not within the safety margin of a rounding boundary
    is read without the fallback, and the value read is printed as the same number. *)
Theorem C86_short_decimals : forall t m c rest want fb errno, well_formed m -> ends_number c -> within_limits m ->
  significant_digits_at_most (safe_digits t) m ->
  (bpow radix2 (min_exp t + precision t - 1) <= Rabs (value m))%R -> (Rabs (rnd t (value m)) < bpow radix2 (max_exp t))%R ->
  ~ carries t (value m) -> clear_of_ties t (safety t) (value m) ->
  exists v n, atof (fmt_of t) (written m ++ c :: rest) want fb errno = Ok (answer want errno v success (len (written m))) /\
    correctly_rounded t (is_minus (n_sign m)) (value m) v /\
    well_formed n /\ prints t v (written n) /\ value n = value m.
Proof.
  intros t m c rest want fb errno W Hc L (d & j & Hd & Hj & EC) Lo Hi NC CT. pose proof (width_facts t) as Ww.
  assert (S0 : (0 < Rabs (value m))%R) by (pose proof (bpow_gt_0 radix2 (min_exp t + precision t - 1)); lra).
  pose proof (value_abs m W) as VA.
  assert (AV : abs_value m = (IZR d * pow10 (scale m + j))%R).
  { unfold abs_value. rewrite EC, mult_IZR, bpow_plus. change (10 ^ j) with (radix10 ^ j). rewrite <- bpow_IZR by lia. ring. }
  assert (D0 : 0 < d).
  { destruct (Z.eq_dec d 0) as [->|]; [|lia]. rewrite AV in VA. rewrite VA in S0. lra. }
  assert (SD : short_decimal t m).
  { exists d, j. split; [|split; [lia|split; [exact EC|]]].
    - split; [lia|]. apply Z.lt_trans with (10 ^ safe_digits t); [lia|]. destruct t; reflexivity.
    - intros ->. apply Z.nlt_ge. intros C.
      rewrite VA, AV in Lo.
      assert (A1 : (IZR d < pow10 6)%R) by (rewrite bpow_IZR by lia; apply IZR_lt; apply Hd).
      assert (A2 : (pow10 (scale m + j) <= pow10 (-51))%R) by (apply bpow_le; lia).
      assert (A3 : (IZR d * pow10 (scale m + j) < pow10 6 * pow10 (-51))%R).
      { apply Rle_lt_trans with (IZR d * pow10 (-51))%R.
        - apply Rmult_le_compat_l; [apply IZR_le; lia|exact A2].
        - apply Rmult_lt_compat_r; [apply bpow_gt_0|exact A1]. }
      rewrite <- bpow_plus in A3. cbn [min_exp precision] in Lo.
      assert (A4 : (pow10 (6 + -51) < bpow radix2 (-149 + 24 - 1))%R).
      { replace (pow10 (6 + -51)) with (IZR 1 * pow10 (-45))%R by (rewrite Rmult_1_l; reflexivity).
        replace (bpow radix2 (-149 + 24 - 1)) with (IZR 1 * bpow radix2 (-126))%R by (rewrite Rmult_1_l; reflexivity).
        apply dec_lt_bin. vm_compute. reflexivity. }
      lra. }
  assert (R : in_range t (value m)).
  { split; [|exact Hi]. apply Rle_trans with (2 := Lo). apply bpow_le. lia. }
  assert (MG : ((match t with Float => / 128 | Double => / 1024 end) <= safety t <= / 4)%R) by (unfold safety; destruct t; lra).
  destruct (C29_fallback_only_near_ties t m c rest want fb errno W Hc L SD R NC) as (v & E & V).
  { intros u Fu. specialize (CT u Fu). pose proof (bpow_gt_0 radix2 (exponent t u)) as U. fold (ulp_of t u) in U. nra. }
  destruct V as [(V1 & V2 & V3 & V4)|[V1 _]]; [|lra].
  pose proof (rnd_value_abs t m W) as RV.
  assert (Rm : rnd t (abs_value m) = magnitude t v) by (rewrite <- RV, <- V3; apply abs_real).
  assert (AP : (0 <= abs_value m)%R) by (rewrite <- VA; apply Rabs_pos).
  assert (ML : (bpow radix2 (min_exp t + precision t - 1) <= magnitude t v)%R).
  { rewrite <- Rm, <- (rnd_bpow t (min_exp t + precision t - 1)) by lia. apply rnd_mono. rewrite <- VA. exact Lo. }
  assert (NV : normal t v).
  { split; [exact V2|]. intros E0. unfold magnitude, significand, exponent in ML. rewrite E0 in ML. cbn [Z.eqb] in ML.
    pose proof (frac_field_range t v) as FR. replace (min_exp t + Z.max 1 0 - 1) with (min_exp t) in ML by lia.
    replace (min_exp t + precision t - 1) with (precision t - 1 + min_exp t) in ML by lia.
    rewrite bpow_plus, (bpow_IZR radix2 (precision t - 1)) in ML by lia.
    apply Rmult_le_reg_r in ML; [|apply bpow_gt_0]. apply le_IZR in ML. change (radix2 ^ (precision t - 1)) with (2 ^ (precision t - 1)) in ML. lia. }
  pose proof (normal_nonzero t v NV) as NZ.
  destruct (C04_grammar t v NZ) as (n & P & Wn & _).
  exists v, n. split; [exact E|]. split; [left; auto|]. split; [exact Wn|]. split; [exact P|].
  assert (EQ : abs_value n = abs_value m).
  { rewrite AV. apply (C12_short_decimals_survive t v n d (scale m + j) NV Wn P); [lia|]. rewrite <- AV.
    apply (nearest_inside t (abs_value m) v (safety t) AP V2); [|exact Rm| | |clear - MG; destruct t; lra|].
    - now apply nonzero_significand.
    - intros (k & K1 & K2 & K3). apply NC. exists k. split; [exact K1|]. rewrite VA, RV. rewrite Rabs_pos_eq in K2 by exact AP.
      rewrite Rabs_pos_eq in K3 by (rewrite Rm; apply magnitude_nonneg). auto.
    - pose proof (exponent_ge t v). lia.
    - intros u Fu. rewrite (Rabs_pos_eq _ AP), <- VA. now apply CT. }
  destruct (C01_reads_back t v n NZ Wn P) as (_ & _ & CR). destruct CR as [(_ & _ & _ & CN)|[CR _]].
  - unfold value. rewrite EQ. destruct (is_minus (n_sign n)), (is_minus (n_sign m)); try reflexivity; exfalso; intuition discriminate.
  - pose proof (proj1 (proj2 (C01_reads_back t v n NZ Wn P)) (fun z => negb (Z.even z))) as X. unfold rnd in CR. rewrite X in CR.
    rewrite abs_real in CR. pose proof (magnitude_lt_max t v V2). lra.
Qed.

(** The restriction to numbers away from the rounding boundaries is needed: a single digit can be
    lost.  A double and a float, read without the fallback and correctly rounded. *)
Definition lost (t : ftype) : numeral := match t with
  | Double => nume NoSign [2; 8] None Minus [1; 6; 1]
  | Float => nume NoSign [1] None Minus [2; 2]
  end.
Definition lost_value (t : ftype) : Z := match t with Double => 2220131738627709603 | Float => 452053249 end.
Definition lost_printed (t : ftype) : numeral := match t with
  | Double => nume NoSign [2] (Some [8; 0; 0; 0; 0; 0; 0; 0; 0; 0; 0; 0; 0; 0; 0; 3]) Minus [1; 6; 0]
  | Float => nume NoSign [1] (Some [0; 0; 0; 0; 0; 0; 0; 6]) Minus [2; 2]
  end.
Example lost_texts : written (lost Double) = text "28e-161" /\ written (lost_printed Double) = text "2.8000000000000003e-160" /\
  written (lost Float) = text "1e-22" /\ written (lost_printed Float) = text "1.00000006e-22".
Proof. repeat split; reflexivity. Qed.

Theorem C86_refuted_digits_lost : forall t, exists m v n, well_formed m /\ significant_digits_at_most 2 m /\
  (bpow radix2 (min_exp t + precision t - 1) <= Rabs (value m))%R /\ (Rabs (rnd t (value m)) < bpow radix2 (max_exp t))%R /\ ~ carries t (value m) /\
  (forall fb errno, atof (fmt_of t) (written m ++ [0]) true fb errno = Ok (answer true errno v success (len (written m)))) /\
  correctly_rounded t (is_minus (n_sign m)) (value m) v /\
  well_formed n /\ prints t v (written n) /\ value n <> value m.
Proof.
  intros t. exists (lost t), (lost_value t), (lost_printed t).
  assert (W : well_formed (lost t)) by (destruct t; cbn [lost]; wfn).
  assert (W2 : well_formed (lost_printed t)) by (destruct t; cbn [lost_printed]; wfn).
  assert (A : forall fb errno, atof (fmt_of t) (written (lost t) ++ [0]) true fb errno = Ok (answer true errno (lost_value t) success (len (written (lost t)))))
    by (destruct t; [run|run]).
  assert (Q : in_range t (value (lost t)) /\ ~ carries t (value (lost t))).
  { apply (meets_range t (lost t) (lost_value t) W); destruct t; [fin|fin|vm_compute; reflexivity|vm_compute; reflexivity|vm_compute; discriminate|vm_compute; discriminate|vm_compute; discriminate|vm_compute; discriminate]. }
  destruct Q as [Q1 Q2].
  split; [exact W|]. split.
  { destruct t; [exists 1, 0|exists 28, 0]; repeat split; try (vm_compute; congruence). }
  split.
  { rewrite value_abs by exact W. unfold abs_value.
    replace (bpow radix2 (min_exp t + precision t - 1)) with (IZR 1 * bpow radix2 (min_exp t + precision t - 1))%R by ring.
    apply Rlt_le, bin_lt_dec. destruct t; vm_compute; reflexivity. }
  split; [apply Q1|]. split; [exact Q2|]. split; [exact A|]. split.
  - destruct (C29_correct_or_deferred t (lost t) 0 [] true (fun _ _ => Fault OutOfFuel) 0 W) as [(v & E & V)|E]; try assumption.
    + repeat split; vm_compute; try discriminate; intuition discriminate.
    + destruct t; lim.
    + destruct t; [exists 1, 0|exists 28, 0]; repeat split; try (vm_compute; congruence); discriminate.
    + rewrite A in E. injection E as <-. exact V.
    + rewrite A in E. discriminate E.
  - split; [exact W2|]. split.
    + apply prints_eval; [destruct t; (split; [discriminate|reflexivity])|]. destruct t; vm_compute; reflexivity.
    + unfold value. replace (is_minus (n_sign (lost t))) with false by (destruct t; reflexivity).
      replace (is_minus (n_sign (lost_printed t))) with false by (destruct t; reflexivity). unfold abs_value. destruct t.
      * change (coefficient (lost_printed Float)) with 100000006. change (scale (lost_printed Float)) with (-30).
        change (coefficient (lost Float)) with 1. change (scale (lost Float)) with (-30 + 8).
        rewrite bpow_plus. change (pow10 8) with 100000000%R. pose proof (bpow_gt_0 radix10 (-30)). lra.
      * change (coefficient (lost_printed Double)) with 28000000000000003. change (scale (lost_printed Double)) with (-176).
        change (coefficient (lost Double)) with 28. change (scale (lost Double)) with (-176 + 15).
        rewrite bpow_plus. change (pow10 15) with 1000000000000000%R. pose proof (bpow_gt_0 radix10 (-176)). lra.
Qed.

(** A number that meets the hypotheses: -0.00123456. *)
Definition kept : numeral := nume Minus [1; 2; 3] (Some [4; 5; 6]) Minus [5].
Definition kept_value (t : ftype) : Z := match t with Double => 13786708262844627476 | Float => 3131166966 end.
Example ex_C86 : forall t, exists n,
  written kept = text "-123.456e-5" /\ well_formed n /\
  (forall fb errno, atof (fmt_of t) (text "-123.456e-5" ++ [0]) true fb errno = Ok (answer true errno (kept_value t) success 11)) /\
  prints t (kept_value t) (written n) /\ value n = value kept.
Proof.
  intros t. assert (W : well_formed kept) by (unfold kept; wfn).
  assert (A : forall fb errno, atof (fmt_of t) (text "-123.456e-5" ++ [0]) true fb errno = Ok (answer true errno (kept_value t) success 11)) by (destruct t; [run|run]).
  assert (Q : in_range t (value kept) /\ ~ carries t (value kept)).
  { apply (meets_range t kept (kept_value t) W); destruct t; [fin|fin|vm_compute; reflexivity|vm_compute; reflexivity|vm_compute; discriminate|vm_compute; discriminate|vm_compute; discriminate|vm_compute; discriminate]. }
  destruct Q as [Q1 Q2].
  destruct (C86_short_decimals t kept 0 [] true (fun _ _ => Fault OutOfFuel) 0 W) as (v & n & E & _ & Wn & P & V); try assumption.
  - repeat split; vm_compute; try discriminate; intuition discriminate.
  - lim.
  - exists 123456, 0. destruct t; repeat split; vm_compute; congruence.
  - rewrite value_abs by exact W. unfold abs_value.
    replace (bpow radix2 (min_exp t + precision t - 1)) with (IZR 1 * bpow radix2 (min_exp t + precision t - 1))%R by ring.
    apply Rlt_le, bin_lt_dec. destruct t; vm_compute; reflexivity.
  - apply Q1.
  - apply (meets_clear t kept (kept_value t) (match t with Float => 6 | Double => 9 end) (safety t) W); [destruct t; fin|destruct t; lia|destruct t; vm_compute; reflexivity|].
    unfold safety. destruct t; cbn; lra.
  - change (written kept ++ [0]) with (text "-123.456e-5" ++ [0]) in E. rewrite A in E. injection E as <-.
    exists n. split; [reflexivity|]. auto.
Qed.
