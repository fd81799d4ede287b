(** Concrete texts that meet the hypotheses of the parsing theorems. *)
From Coq Require Import Reals Lra Lia ZArith List String Ascii.
From Flocq Require Import Core.
From Verif Require Import Machine MachineFacts BitOps StaticPow Fraction Format DiyFp KComp Chars Grisu Ftoa Krosh Atof Spec ParseSpec Api ParseApi Instances
  DiyFacts BoundFacts TableFacts GrisuFacts ShownFacts FtoaFacts RoundFacts WrittenFacts PrintProps PrintProps2 PrintProps3 PrintExamples DownFacts DvalFacts CmpFacts ArithProps ScanFacts LoopFacts ParseFacts GapFacts KroshNum ShortFacts FracFacts LongFacts ParseProps RangeFacts ScaledFacts RangeProps Refuted GoodFallback Protocol LocalFacts LocalProps ExpProps NegProps RoundTrip PowerTrip.
Open Scope Z_scope.

(** * Deciding the hypotheses for a number text and the value nearest to it *)

Lemma power_significand : forall t v k, min_exp t + precision t - 1 <= k -> magnitude t v = bpow radix2 k -> significand t v = 2 ^ (precision t - 1).
Proof.
  intros t v k Hk H. pose proof (width_facts t) as W. pose proof (significand_range t v) as [S0 S1]. unfold magnitude in H.
  assert (E : IZR (significand t v) = bpow radix2 (k - exponent t v)).
  { unfold Z.sub. rewrite bpow_plus, <- H, Rmult_assoc, <- bpow_plus. replace (exponent t v + - exponent t v) with 0 by lia. cbn [bpow]. ring. }
  assert (k - exponent t v < precision t) by (apply (lt_bpow radix2); rewrite <- E, (bpow_IZR radix2 (precision t)) by lia; now apply IZR_lt).
  assert (precision t - 1 <= k - exponent t v).
  { destruct (significand_full t v) as [F|F]; [|rewrite F; lia]. apply (le_bpow radix2). rewrite <- E, bpow_IZR by lia. now apply IZR_le. }
  replace (k - exponent t v) with (precision t - 1) in E by lia. rewrite bpow_IZR in E by lia. now apply eq_IZR in E.
Qed.

(** in range, no carry: [v] is the nearest value, no power of two *)
Lemma meets_range : forall t n v, well_formed n -> finite t v -> rounds_strictly t v (coefficient n) (scale n) = true ->
  significand t v <> 2 ^ (precision t - 1) -> 2 <= significand t v -> in_range t (value n) /\ ~ carries t (value n).
Proof.
  intros t n v W Fv H N S. pose proof (rounds_strictly_ok t v _ _ H) as [I _]. fold (abs_value n) in I. pose proof (rounds_strictly_rnd t v _ _ H) as R. fold (abs_value n) in R.
  unfold in_range, carries. rewrite value_abs, rnd_value_abs, R by assumption. split; [split|].
  - apply Rle_trans with (2 := Rlt_le _ _ I). unfold midpoint_below.
    assert (G1 : (gap_below t v <= ulp_of t v)%R).
    { unfold gap_below. pose proof (bpow_gt_0 radix2 (exponent t v)). fold (ulp_of t v) in *. destruct (_ && _); lra. }
    unfold magnitude, ulp_of in *. apply Rle_trans with (bpow radix2 (exponent t v)); [apply bpow_le, exponent_ge|].
    apply IZR_le in S. pose proof (bpow_gt_0 radix2 (exponent t v)). nra.
  - now apply magnitude_lt_max.
  - intros (k & K1 & _ & K3). apply N. now apply power_significand with k.
Qed.

(** at least [2^-s] units away from the boundaries around [v] *)
Definition rounds_clear (t : ftype) (v d j s : Z) : bool :=
  let f := significand t v in let e := exponent t v in
  let lower := if (f =? 2 ^ (precision t - 1)) && (min_exp t <? e) then 4 * f - 1 else 4 * f - 2 in
  (0 <? f) && (bin_part (lower * 2 ^ s + 4) (e - 2 - s) j <? dec_part d j (e - 2 - s)) && (dec_part d j (e - 2 - s) <? bin_part ((4 * f + 2) * 2 ^ s - 4) (e - 2 - s) j).

Lemma rounds_clear_ok : forall t v d j s, 0 <= s -> rounds_clear t v d j s = true ->
  0 < significand t v /\ (midpoint_below t v + bpow radix2 (- s) * ulp_of t v < IZR d * pow10 j < midpoint_above t v - bpow radix2 (- s) * ulp_of t v)%R.
Proof.
  intros t v d j s Hs H. unfold rounds_clear in H. cbv zeta in H. apply andb_prop in H as [H H2]. apply andb_prop in H as [H0 H1].
  apply bin_lt_dec in H1. apply dec_lt_bin in H2. split; [lia|].
  assert (E : (bpow radix2 (exponent t v) = 4 * bpow radix2 s * bpow radix2 (exponent t v - 2 - s))%R).
  { change 4%R with (bpow radix2 2). rewrite <- !bpow_plus. f_equal. lia. }
  assert (Es : IZR (2 ^ s) = bpow radix2 s) by (rewrite bpow_IZR by lia; reflexivity).
  assert (I : (bpow radix2 (- s) * bpow radix2 s = 1)%R) by (rewrite <- bpow_plus; replace (- s + s) with 0 by lia; reflexivity).
  unfold midpoint_below, midpoint_above, gap_below, magnitude, ulp_of. rewrite !E in *.
  set (u := bpow radix2 (exponent t v - 2 - s)) in *. set (b := bpow radix2 s) in *. set (ib := bpow radix2 (- s)) in *.
  replace (ib * (4 * b * u))%R with (4 * u)%R by (transitivity (4 * u * (ib * b))%R; [rewrite I; ring|ring]).
  rewrite plus_IZR, mult_IZR, Es in H1. rewrite minus_IZR, mult_IZR, plus_IZR, mult_IZR, Es in H2. fold b in H1, H2. split; [|lra].
  destruct ((significand t v =? 2 ^ (precision t - 1)) && (min_exp t <? exponent t v)); rewrite minus_IZR, mult_IZR in H1; lra.
Qed.

Lemma meets_clear : forall t n v s mg, well_formed n -> finite t v -> 1 <= s -> rounds_clear t v (coefficient n) (scale n) s = true ->
  (0 <= mg <= bpow radix2 (- s))%R -> clear_of_ties t mg (value n).
Proof.
  intros t n v s mg W Fv Hs H Hm v' Fv'. destruct (rounds_clear_ok t v _ _ s ltac:(lia) H) as (S & I1 & I2). fold (abs_value n) in I1, I2.
  rewrite value_abs by assumption. set (x := abs_value n) in *.
  assert (Hb : (bpow radix2 (- s) <= / 2)%R) by (change (/ 2)%R with (bpow radix2 (-1)); apply bpow_le; lia).
  pose proof (bpow_gt_0 radix2 (exponent t v)) as U. fold (ulp_of t v) in U. pose proof (bpow_gt_0 radix2 (exponent t v')) as U'. fold (ulp_of t v') in U'.
  assert (G : (gap_below t v <= ulp_of t v)%R) by (unfold gap_below; destruct (_ && _); lra).
  destruct (Rlt_or_le (magnitude t v) (magnitude t v')) as [L|L].
  { assert (magnitude t v + ulp_of t v <= magnitude t v')%R by (rewrite <- succ_mag by assumption; apply succ_le_lt; [apply fexp_valid|apply format_mag|apply format_mag|exact L]).
    assert (0 <= bpow radix2 (- s))%R by apply bpow_ge_0.
    unfold midpoint_above in *. rewrite Rabs_left1 by nra. nra. }
  assert (U2 : (ulp_of t v' <= ulp_of t v)%R).
  { destruct (Z.eq_dec (significand t v') 0) as [Z0|Z0].
    - assert (E0 : exponent t v' = min_exp t).
      { destruct (significand_full t v') as [Fl|Fl]; [|exact Fl]. rewrite Z0 in Fl. pose proof (pow2_pos (precision t - 1) ltac:(pose proof (width_facts t); lia)). lia. }
      unfold ulp_of. rewrite E0. apply bpow_le, exponent_ge.
    - pose proof (significand_range t v') as [S' _]. rewrite <- (ulp_mag t v), <- (ulp_mag t v') by lia.
      apply ulp_le_pos; [apply fexp_valid|apply FLT_exp_monotone|apply magnitude_nonneg|exact L]. }
  destruct (Rlt_or_le (magnitude t v') (magnitude t v)) as [L'|L'].
  - assert (A : (magnitude t v' <= magnitude t v - gap_below t v)%R) by (rewrite <- pred_mag by assumption; apply pred_ge_gt; [apply fexp_valid|apply format_mag|apply format_mag|exact L']).
    assert (B : (magnitude t v' + ulp_of t v' <= magnitude t v)%R) by (rewrite <- succ_any; apply succ_le_lt; [apply fexp_valid|apply format_mag|apply format_mag|exact L']).
    assert (C : (midpoint_above t v' <= midpoint_below t v)%R) by (unfold midpoint_above, midpoint_below; lra).
    rewrite Rabs_pos_eq by nra. nra.
  - assert (EM : magnitude t v' = magnitude t v) by lra.
    assert (S' : 0 < significand t v').
    { pose proof (significand_range t v') as [S' _]. destruct (Z.eq_dec (significand t v') 0) as [Z0|]; [exfalso|lia].
      pose proof (magnitude_pos t v S). unfold magnitude at 1 in EM. rewrite Z0 in EM. lra. }
    destruct (magnitude_inj t v' v S' S EM) as [X _].
    assert (EU : ulp_of t v' = ulp_of t v) by (unfold ulp_of, exponent; now rewrite X).
    assert (0 <= bpow radix2 (- s))%R by apply bpow_ge_0.
    unfold midpoint_above in *. rewrite EM, EU, Rabs_left1 by nra. nra.
Qed.

(** * The examples *)

Ltac lim := split; apply Nat.leb_le; vm_compute; reflexivity.
Ltac fin := repeat split; vm_compute; congruence.
Lemma nul_ends : ends_number 0. Proof. repeat split; vm_compute; intuition congruence. Qed.

(** -12.50E+7 followed by a comma *)
Definition p1 : numeral := {| n_sign := Minus; n_int := [1;2]; n_frac := Some [5;0]; n_exp := Some {| x_upper := true; x_sign := Plus; x_digits := [7] |} |}.
Example C28_meets : written p1 = text "-12.50E+7" /\ well_formed p1 /\ coefficient p1 <> 0 /\ readable_exponent p1 /\ within_limits p1 /\ ends_number (code ",").
Proof.
  split; [reflexivity|]. split; [wfn|]. split; [vm_compute; congruence|]. split; [apply small_readable; vm_compute; reflexivity|].
  split; [lim|]. repeat split; vm_compute; intuition congruence.
Qed.

(** 0.1, and pi with 36 digits, as a double and as a float *)
Definition p2 : numeral := num NoSign [0] (Some [1]).
Definition p3 : numeral := num NoSign [3] (Some [1;4;1;5;9;2;6;5;3;5;8;9;7;9;3;2;3;8;4;6;2;6;4;3;3;8;3;2;7;9;5;0;2;8;8]).
Definition tenth (t : ftype) : Z := match t with Float => 1036831949 | Double => 4591870180066957722 end.
Definition pi_bits (t : ftype) : Z := match t with Float => 1078530011 | Double => 4614256656552045848 end.

Example C29_meets : forall t, well_formed p2 /\ within_limits p2 /\ short_decimal t p2 /\ in_range t (value p2) /\ ~ carries t (value p2) /\
  clear_of_ties t (match t with Float => / 128 | Double => / 1024 end) (value p2).
Proof.
  intros t. assert (W : well_formed p2) by wfn. assert (F : finite t (tenth t)) by (destruct t; fin). split; [exact W|]. split; [lim|]. split.
  - exists 1, 0. split; [destruct t; vm_compute; split; congruence|]. split; [lia|]. split; [reflexivity|]. intros _. vm_compute. congruence.
  - destruct (meets_range t p2 (tenth t) W F) as [A B]; [destruct t; vm_compute; reflexivity|destruct t; vm_compute; congruence|destruct t; vm_compute; congruence|].
    split; [exact A|]. split; [exact B|].
    apply (meets_clear t p2 (tenth t) (match t with Float => 7 | Double => 10 end) _ W F); [destruct t; lia|destruct t; vm_compute; reflexivity|].
    destruct t; cbn; lra.
Qed.

(** so 0.1 is read correctly without any fallback *)
Example C29_at_work : forall t want fb errno, exists v, atof (fmt_of t) (text "0.1" ++ [0]) want fb errno = Ok (answer want errno v success 3) /\
  correctly_rounded t false (value p2) v.
Proof.
  intros. destruct (C29_meets t) as (A & B & C & D & E & F).
  destruct (C29_fallback_only_near_ties t p2 0 [] want fb errno A nul_ends B C D E F) as (v & G & H). exists v. split; [exact G|exact H].
Qed.

(** a correctly rounding fallback exists, so C29_correct_with_fallback applies *)
Example C29_fallback_applies : forall t, exists r, atof (fmt_of t) (written p2 ++ [0]) true (reference_fallback t) 0 = Ok r /\
  correctly_rounded t false (value p2) (at_value r).
Proof.
  intros. destruct (C29_meets t) as (A & B & C & D & E & F).
  destruct (C29_correct_with_fallback t p2 0 [] (reference_fallback t) 0 A nul_ends B C D E (good_fallback_exists t)) as (r & G & H & _). eauto.
Qed.

(** pi with 36 digits: more than the parser keeps *)
Example C30_meets : forall t, well_formed p3 /\ within_limits p3 /\ in_range t (value p3) /\ (t = Float -> (pow10 (-42) <= Rabs (value p3))%R) /\
  clear_of_ties t (any_length_margin t) (value p3) /\ ~ carries t (value p3) /\ ~ just_above_power t (any_length_margin t) (value p3) /\
  ~ short_decimal t p3.
Proof.
  intros t. assert (W : well_formed p3) by wfn. assert (F : finite t (pi_bits t)) by (destruct t; fin).
  assert (V : (3 < abs_value p3 < 3.2)%R).
  { unfold abs_value. change (coefficient p3) with 314159265358979323846264338327950288. change (scale p3) with (-35). split.
    - replace 3%R with (3 * bpow radix2 0)%R by (cbn; ring). apply bin_lt_dec. vm_compute. reflexivity.
    - apply Rlt_trans with (3.1875)%R; [|lra]. replace 3.1875%R with (51 * bpow radix2 (-4))%R by (cbn; lra). apply dec_lt_bin. vm_compute. reflexivity. }
  split; [exact W|]. split; [lim|].
  destruct (meets_range t p3 (pi_bits t) W F) as [A B]; [destruct t; vm_compute; reflexivity|destruct t; vm_compute; congruence|destruct t; vm_compute; congruence|].
  split; [exact A|]. split.
  { intros _. rewrite value_abs by assumption. assert (pow10 (-42) <= pow10 0)%R by (apply bpow_le; lia). change (pow10 0) with 1%R in H. lra. }
  split.
  { apply (meets_clear t p3 (pi_bits t) (match t with Float => 4 | Double => 8 end) _ W F); [destruct t; lia|destruct t; vm_compute; reflexivity|].
    destruct t; unfold any_length_margin; cbn; lra. }
  split; [exact B|]. split.
  - intros (k & _ & K1 & K2). rewrite value_abs in * by assumption.
    assert (M : (any_length_margin t * bpow radix2 (1 - precision t) <= / 4)%R).
    { assert (bpow radix2 (1 - precision t) <= bpow radix2 (-2))%R by (apply bpow_le; destruct t; cbn; lia). change (bpow radix2 (-2)) with (/ 4)%R in H.
      pose proof (bpow_gt_0 radix2 (1 - precision t)). destruct t; unfold any_length_margin; lra. }
    destruct (Z.le_gt_cases k 1) as [L|L].
    + assert (bpow radix2 k <= bpow radix2 1)%R by (apply bpow_le; lia). change (bpow radix2 1) with 2%R in H. pose proof (bpow_gt_0 radix2 k). nra.
    + assert (bpow radix2 2 <= bpow radix2 k)%R by (apply bpow_le; lia). change (bpow radix2 2) with 4%R in H. lra.
  - intros (d & j & D1 & D2 & D3 & _). change (coefficient p3) with 314159265358979323846264338327950288 in D3.
    assert (J : j = 0 \/ 1 <= j) by lia. destruct J as [-> |J].
    + assert (d < 10 ^ 19) by (destruct t; cbn [exact_digits] in D1; [|lia]; assert (10 ^ 9 <= 10 ^ 19) by (apply Z.pow_le_mono_r; lia); lia).
      change (10 ^ 19) with 10000000000000000000 in H. change (10 ^ 0) with 1 in D3. lia.
    + replace j with (1 + (j - 1)) in D3 by lia. rewrite Z.pow_add_r in D3 by lia. change (10 ^ 1) with 10 in D3.
      assert (314159265358979323846264338327950288 mod 10 = 0).
      { rewrite D3. replace (d * (10 * 10 ^ (j - 1))) with (d * 10 ^ (j - 1) * 10) by ring. apply Z.mod_mul. lia. }
      vm_compute in H. discriminate.
Qed.

(** 17 nines behind the point round up to 1 *)
Definition p4 : numeral := num NoSign [0] (Some [9;9;9;9;9;9;9;9;9;9;9;9;9;9;9;9;9]).
Example C32_meets : well_formed p4 /\ within_limits p4 /\ short_decimal Double p4 /\ in_range Double (value p4) /\ Rabs (rnd Double (value p4)) = bpow radix2 0 /\
  (Rabs (value p4) <= bpow radix2 0 * (1 - bpow radix2 (2 - width Double)))%R.
Proof.
  assert (W : well_formed p4) by wfn.
  assert (R1 : rnd Double (abs_value p4) = 1%R).
  { transitivity (magnitude Double 4607182418800017408).
    + apply rounds_strictly_rnd. vm_compute. reflexivity.
    + unfold magnitude. replace (significand Double 4607182418800017408) with (2 ^ 52) by (vm_compute; reflexivity).
      replace (exponent Double 4607182418800017408) with (-52) by (vm_compute; reflexivity).
      change (IZR (2 ^ 52)) with (IZR (radix2 ^ 52)). rewrite <- (bpow_IZR radix2 52) by lia. rewrite <- bpow_plus. reflexivity. }
  unfold in_range. rewrite rnd_value_abs, value_abs, R1 by assumption.
  assert (V : (1 * bpow radix2 (-1) < abs_value p4)%R) by (apply bin_lt_dec; vm_compute; reflexivity).
  split; [exact W|]. split; [lim|]. split.
  { exists 99999999999999999, 0. split; [vm_compute; split; congruence|]. split; [lia|]. split; [reflexivity|discriminate]. }
  split; [split|].
  - assert (bpow radix2 (min_exp Double) <= bpow radix2 (-1))%R by (apply bpow_le; cbn; lia). lra.
  - change 1%R with (bpow radix2 0). apply bpow_lt. cbn. lia.
  - split; [reflexivity|]. left. replace (bpow radix2 0 * (1 - bpow radix2 (2 - width Double)))%R with (IZR (2 ^ 62 - 1) * bpow radix2 (-62))%R.
    + apply dec_lt_bin. vm_compute. reflexivity.
    + rewrite minus_IZR. change (2 ^ 62) with (radix2 ^ 62). rewrite <- bpow_IZR by lia. rewrite Rmult_minus_distr_r, <- bpow_plus. cbn [width]. change (62 + -62) with 0. change (2 - 64) with (-62). cbn [bpow]. ring.
Qed.

(** 1e400 is above the table and so large that overflow is noticed; 2e308 is too large and not noticed *)
Definition p5 : numeral := nume NoSign [1] None NoSign [4;0;0].
Definition p6 : numeral := nume NoSign [2] None NoSign [3;0;8].
Example C33_meets : well_formed p5 /\ within_limits p5 /\ readable_exponent p5 /\ (bpow radix2 (max_exp Double + width Double + 1) <= Rabs (value p5))%R /\
  point_moved Double p5 1 400 /\ largest_power Double < 400.
Proof.
  assert (W : well_formed p5) by wfn. split; [exact W|]. split; [lim|]. split; [apply small_readable; vm_compute; reflexivity|]. split.
  - rewrite value_abs by exact W. left. rewrite <- (Rmult_1_l (bpow _ _)). apply bin_lt_dec. vm_compute. reflexivity.
  - split; [|reflexivity]. split; [split; reflexivity|]. exists 0, 0. split; [lia|]. split; [reflexivity|]. split; [reflexivity|]. left. split; [reflexivity|]. vm_compute. congruence.
Qed.
Example C33_missed_meets : well_formed p6 /\ within_limits p6 /\ readable_exponent p6 /\
  (bpow radix2 (max_exp Double) <= Rabs (value p6) <= bpow radix2 (max_exp Double + width Double - 2))%R.
Proof.
  assert (W : well_formed p6) by wfn. split; [exact W|]. split; [lim|]. split; [apply small_readable; vm_compute; reflexivity|].
  rewrite value_abs by exact W. split; left.
  - rewrite <- (Rmult_1_l (bpow _ _)). apply bin_lt_dec. vm_compute. reflexivity.
  - rewrite <- (Rmult_1_l (bpow _ _)). apply dec_lt_bin. vm_compute. reflexivity.
Qed.

(** 1e-400 is below the table; 3e-324 is less than the smallest denormal but more than half of it *)
Definition p7 : numeral := nume NoSign [1] None Minus [4;0;0].
Definition p8 : numeral := nume NoSign [3] None Minus [3;2;4].
Example C34_meets : well_formed p7 /\ within_limits p7 /\ readable_exponent p7 /\ point_moved Double p7 1 (-400) /\ -400 < - largest_power Double.
Proof.
  split; [wfn|]. split; [lim|]. split; [apply small_readable; vm_compute; reflexivity|]. split; [|reflexivity].
  split; [split; reflexivity|]. exists 0, 0. split; [lia|]. split; [reflexivity|]. split; [reflexivity|]. left. split; [reflexivity|]. vm_compute. congruence.
Qed.
Example C36_meets : well_formed p8 /\ within_limits p8 /\ readable_exponent p8 /\
  (0 < Rabs (value p8) <= bpow radix2 (min_exp Double) * (1 - bpow radix2 (- precision Double)))%R /\ (/ 2 * bpow radix2 (min_exp Double) < Rabs (value p8))%R.
Proof.
  assert (W : well_formed p8) by wfn. split; [exact W|]. split; [lim|]. split; [apply small_readable; vm_compute; reflexivity|].
  rewrite value_abs by exact W.
  assert (L : (/ 2 * bpow radix2 (min_exp Double) < abs_value p8)%R).
  { change (/ 2)%R with (bpow radix2 (-1)). rewrite <- bpow_plus. rewrite <- (Rmult_1_l (bpow _ _)). apply bin_lt_dec. vm_compute. reflexivity. }
  pose proof (bpow_gt_0 radix2 (min_exp Double)). split; [split; [lra|]|exact L]. left.
  apply Rlt_le_trans with (IZR 3 * bpow radix2 (min_exp Double - 2))%R; [apply dec_lt_bin; vm_compute; reflexivity|].
  unfold Z.sub. rewrite bpow_plus. change (bpow radix2 (- (2))) with (/ 4)%R.
  assert (bpow radix2 (- precision Double) <= bpow radix2 (-2))%R by (apply bpow_le; cbn; lia). change (bpow radix2 (-2)) with (/ 4)%R in H0. nra.
Qed.

(** -0.00e7 and -000.0 *)
Definition p9 : numeral := nume Minus [0] (Some [0;0]) NoSign [7].
Definition p10 : numeral := num Minus [0;0;0] (Some [0]).
Example C39_meets : well_formed p9 /\ within_limits p9 /\ coefficient p9 = 0 /\ written p9 = text "-0.00e7" /\
  well_formed p10 /\ within_limits p10 /\ coefficient p10 = 0 /\ n_exp p10 = None.
Proof. split; [wfn|]. split; [lim|]. split; [reflexivity|]. split; [reflexivity|]. split; [wfn|]. split; [lim|]. split; reflexivity. Qed.

(** 7.5e20000 *)
Definition p11 : numeral := nume NoSign [7] (Some [5]) NoSign [2;0;0;0;0].
Example C40_meets : well_formed p11 /\ within_limits p11 /\ coefficient p11 <> 0 /\ unreadable 20000.
Proof. split; [wfn|]. split; [lim|]. split; [vm_compute; congruence|]. split; [lia|]. left. reflexivity. Qed.

(** 12.5 is a value of both types *)
Definition p12 : numeral := num NoSign [1;2] (Some [5]).
Example C56_meets : forall t, well_formed p12 /\ within_limits p12 /\ short_decimal t p12 /\ in_range t (value p12) /\ rnd t (value p12) = value p12.
Proof.
  intros t. assert (W : well_formed p12) by wfn. assert (V : value p12 = 12.5%R).
  { unfold value, abs_value. cbn [is_minus p12 num n_sign]. change (coefficient p12) with 125. change (scale p12) with (-1). cbn. lra. }
  set (v := match t with Float => 1095237632 | Double => 4623226492472524800 end).
  assert (F : finite t v) by (destruct t; fin).
  assert (R : rnd t (abs_value p12) = abs_value p12).
  { transitivity (magnitude t v); [apply rounds_strictly_rnd; destruct t; vm_compute; reflexivity|].
    unfold abs_value. change (coefficient p12) with 125. change (scale p12) with (-1). unfold magnitude. destruct t.
    - replace (significand Float v) with 13107200 by (vm_compute; reflexivity). replace (exponent Float v) with (-20) by (vm_compute; reflexivity). cbn. lra.
    - replace (significand Double v) with 7036874417766400 by (vm_compute; reflexivity). replace (exponent Double v) with (-49) by (vm_compute; reflexivity). cbn. lra. }
  split; [exact W|]. split; [lim|]. split.
  { exists 125, 0. split; [destruct t; vm_compute; split; congruence|]. split; [lia|]. split; [reflexivity|]. intros _. vm_compute. congruence. }
  split; [|exact R]. apply (meets_range t p12 v W F); destruct t; vm_compute; congruence.
Qed.

(** C46: 0.1 and -1.5e300 survive; the double with bits 26 * 2^52 does not *)
Example C46_meets : nonzero Float v2 /\ well_formed ex2 /\ prints Float v2 (written ex2) /\ ~ normal_power Float v2.
Proof.
  destruct ex2_meets as (A & _ & B & C & _). split; [exact A|]. split; [exact B|]. split; [exact C|].
  intros (k & K1 & K2). rewrite abs_real in K2. apply power_significand in K2; [|exact K1]. vm_compute in K2. discriminate.
Qed.
Example C46_lost_meets : exists m, finite Double 117093590311632896 /\ Rabs (real_of Double 117093590311632896) = bpow radix2 (-997) /\
  well_formed m /\ prints Double 117093590311632896 (written m) /\ written m = text "7.466108948025751e-301" /\
  (Rabs (value m) <= Rabs (real_of Double 117093590311632896) * (1 - bpow radix2 (2 - width Double)))%R.
Proof.
  exists (nume NoSign [7] (Some [4;6;6;1;0;8;9;4;8;0;2;5;7;5;1]) Minus [3;0;1]). split; [fin|].
  rewrite abs_real.
  assert (M : magnitude Double 117093590311632896 = (IZR (2 ^ 52) * bpow radix2 (-1049))%R).
  { unfold magnitude. replace (significand Double 117093590311632896) with (2 ^ 52) by (vm_compute; reflexivity).
    replace (exponent Double 117093590311632896) with (-1049) by (vm_compute; reflexivity). reflexivity. }
  rewrite M. split; [change (2 ^ 52) with (radix2 ^ 52); rewrite <- bpow_IZR by lia; rewrite <- bpow_plus; reflexivity|].
  assert (W : well_formed (nume NoSign [7] (Some [4;6;6;1;0;8;9;4;8;0;2;5;7;5;1]) Minus [3;0;1])) by wfn.
  split; [exact W|]. split; [pr|]. split; [reflexivity|]. rewrite value_abs by exact W.
  apply (dec_compare_margin _ _ (2 ^ 52) (-1049) (width Double)); [cbn; lia|]. vm_compute. reflexivity.
Qed.
