(** C93: the order of numbers of any length. *)
From Coq Require Import Reals Lra Lia ZArith List String Ascii.
From Flocq Require Import Core.
From Verif Require Import Machine MachineFacts BitOps StaticPow Fraction Format DiyFp KComp Krosh Atof Spec ParseSpec ParseApi Instances
  DiyFacts BoundFacts TableFacts GrisuFacts FtoaFacts RoundFacts DownFacts DvalFacts CmpFacts ArithProps ScanFacts LoopFacts ParseFacts GapFacts KroshNum ShortFacts FracFacts LongFacts RangeFacts ScaledFacts ParseProps RangeProps ErrorProps.
Open Scope Z_scope.

(** [x] lies at most two units of the last place below a normal power of two, or less than half
    a unit above it *)
Definition at_power (t : ftype) (x : R) : Prop :=
  exists k, min_exp t + precision t - 1 <= k /\
    (bpow radix2 k * (1 - bpow radix2 (1 - precision t)) <= Rabs x < bpow radix2 k * (1 + bpow radix2 (- precision t)))%R.

(** [x] and [y] both lie within [margin] units of the last place of one and the same point half
    way between two neighbouring values *)
Definition at_same_tie (t : ftype) (margin : R) (x y : R) : Prop :=
  exists v, finite t v /\ (Rabs (Rabs x - midpoint_above t v) <= margin * ulp_of t v)%R /\
    (Rabs (Rabs y - midpoint_above t v) <= margin * ulp_of t v)%R.

(** inside the range of the type, a little away from its ends *)
Definition well_inside (t : ftype) (x : R) : Prop :=
  (bpow radix2 (min_exp t) * (1 + bpow radix2 (- precision t)) <= Rabs x
     <= bpow radix2 (max_exp t) * (1 - bpow radix2 (1 - precision t)))%R /\
  (t = Float -> pow10 (-42) <= Rabs x)%R.

Lemma margin_small : forall t, (0 < any_length_margin t <= / 16)%R.
Proof. intros []; cbn; lra. Qed.

Lemma exponent_mono : forall t a b, (magnitude t a < magnitude t b)%R -> exponent t a <= exponent t b.
Proof.
  intros t a b L. destruct (Z.le_gt_cases (exponent t a) (exponent t b)) as [|G]; [assumption|exfalso].
  pose proof (width_facts t) as W.
  destruct (significand_full t a) as [F|F]; [|unfold exponent in *; lia].
  pose proof (significand_range t b) as SB. unfold magnitude in L.
  assert (IZR (significand t b) * bpow radix2 (exponent t b) <= IZR (2 ^ precision t) * bpow radix2 (exponent t b))%R
    by (apply Rmult_le_compat_r; [apply bpow_ge_0|apply IZR_le; lia]).
  assert (IZR (2 ^ (precision t - 1)) * bpow radix2 (exponent t a) <= IZR (significand t a) * bpow radix2 (exponent t a))%R
    by (apply Rmult_le_compat_r; [apply bpow_ge_0|now apply IZR_le]).
  rewrite <- !(bpow_IZR radix2), <- !bpow_plus in * by lia.
  assert (bpow radix2 (precision t + exponent t b) <= bpow radix2 (precision t - 1 + exponent t a))%R by (apply bpow_le; lia). lra.
Qed.

(** two results in the wrong order *)
Lemma inverted : forall t a b X Y mg, (0 <= mg <= / 16)%R -> (magnitude t a < magnitude t b)%R -> (X <= Y)%R -> (0 <= X)%R ->
  (Rabs (magnitude t b - X) <= (/ 2 + mg) * ulp_of t b)%R -> (Rabs (magnitude t a - Y) <= (/ 2 + mg) * ulp_of t a)%R ->
  ~ at_power t X ->
  (Rabs (X - midpoint_above t a) <= mg * ulp_of t a)%R /\ (Rabs (Y - midpoint_above t a) <= mg * ulp_of t a)%R.
Proof.
  intros t a b X Y mg Hm L XY X0 EX EY NP. pose proof (width_facts t) as W.
  pose proof (exponent_mono t a b L) as EM. pose proof (bpow_gt_0 radix2 (exponent t a)) as Ua. fold (ulp_of t a) in Ua.
  pose proof (bpow_gt_0 radix2 (exponent t b)) as Ub. fold (ulp_of t b) in Ub.
  assert (S : (magnitude t a + ulp_of t a <= magnitude t b)%R).
  { rewrite <- succ_any. apply succ_le_lt; [apply fexp_valid|apply format_mag|apply format_mag|exact L]. }
  apply Rabs_le_inv in EX, EY.
  assert (Q : (X >= midpoint_above t a - mg * ulp_of t a)%R).
  { unfold midpoint_above. destruct (Z.eq_dec (exponent t a) (exponent t b)) as [E|E].
    - assert (EU : ulp_of t b = ulp_of t a) by (unfold ulp_of; now rewrite E). rewrite EU in *. lra.
    - assert (F : 2 ^ (precision t - 1) <= significand t b).
      { destruct (significand_full t b) as [F|F]; [exact F|]. unfold exponent in *. lia. }
      set (k := precision t - 1 + exponent t b).
      assert (U2 : (2 * ulp_of t a <= ulp_of t b)%R).
      { unfold ulp_of. change 2%R with (bpow radix2 1). rewrite <- bpow_plus. apply bpow_le. lia. }
      assert (Ta : (magnitude t a + ulp_of t a <= bpow radix2 k)%R).
      { unfold magnitude, ulp_of. pose proof (significand_range t a) as SA.
        replace (IZR (significand t a) * bpow radix2 (exponent t a) + bpow radix2 (exponent t a))%R
          with (IZR (significand t a + 1) * bpow radix2 (exponent t a))%R by (rewrite plus_IZR; ring).
        apply Rle_trans with (IZR (2 ^ precision t) * bpow radix2 (exponent t a))%R.
        - apply Rmult_le_compat_r; [apply bpow_ge_0|apply IZR_le; lia].
        - rewrite <- (bpow_IZR radix2), <- bpow_plus by lia. apply bpow_le. unfold k. lia. }
      assert (Bk : bpow radix2 k = (IZR (2 ^ (precision t - 1)) * ulp_of t b)%R).
      { unfold k, ulp_of. rewrite bpow_plus, (bpow_IZR radix2) by lia. reflexivity. }
      destruct (Z.eq_dec (significand t b) (2 ^ (precision t - 1))) as [Pw|Pw].
      + exfalso. apply NP. exists k. split; [unfold k, exponent in *; lia|]. rewrite Rabs_pos_eq by assumption.
        assert (Mb : magnitude t b = bpow radix2 k) by (unfold magnitude; rewrite Pw; symmetry; exact Bk).
        assert (Uk : (bpow radix2 k * bpow radix2 (1 - precision t) = ulp_of t b)%R).
        { rewrite <- bpow_plus. unfold ulp_of, k. f_equal. lia. }
        pose proof (bpow_gt_0 radix2 k). pose proof (bpow_gt_0 radix2 (- precision t)).
        split; [rewrite Rmult_minus_distr_l, Uk, Rmult_1_r; nra|].
        apply Rle_lt_trans with (bpow radix2 k); [nra|]. nra.
      + exfalso. assert (G : 2 ^ (precision t - 1) + 1 <= significand t b) by lia.
        assert (Mb : (bpow radix2 k + ulp_of t b <= magnitude t b)%R).
        { rewrite Bk. unfold magnitude. fold (ulp_of t b).
          replace (IZR (2 ^ (precision t - 1)) * ulp_of t b + ulp_of t b)%R with (IZR (2 ^ (precision t - 1) + 1) * ulp_of t b)%R by (rewrite plus_IZR; ring).
          apply Rmult_le_compat_r; [lra|now apply IZR_le]. }
        nra. }
  unfold midpoint_above in *. split; apply Rabs_le; lra.
Qed.

Lemma near_enough : forall t n c rest fb errno, well_formed n -> ends_number c -> within_limits n -> well_inside t (value n) -> ~ at_power t (value n) ->
  good_fallback t fb ->
  exists r, atof (fmt_of t) (written n ++ c :: rest) true fb errno = Ok r /\ finite t (at_value r) /\
    (negative t (at_value r) <-> is_minus (n_sign n) = true) /\
    (Rabs (real_of t (at_value r) - value n) <= (/ 2 + any_length_margin t) * ulp_of t (at_value r))%R.
Proof.
  intros t n c rest fb errno W Hc L [B HF] NP G. pose proof (width_facts t) as Ww. pose proof (margin_small t) as MS.
  destruct (C68_error_bound t n c rest true fb errno W Hc L B HF) as [(v & E & F & Sg & C)|E].
  - eexists. split; [exact E|]. cbn [answer at_value]. split; [exact F|]. split.
    { rewrite Sg. destruct (n_sign n); cbn; intuition congruence. }
    destruct C as [C|(k & K1 & K2 & _)]; [exact C|]. exfalso. apply NP. exists k. auto.
  - assert (P1 : (0 < bpow radix2 (- precision t) <= / 4)%R) by (split; [apply bpow_gt_0|apply (bpow_le radix2 _ (-2)); lia]).
    assert (P2 : (0 < bpow radix2 (1 - precision t))%R) by apply bpow_gt_0.
    assert (Fm : (rnd t (bpow radix2 (max_exp t) * (1 - bpow radix2 (1 - precision t))) = bpow radix2 (max_exp t) * (1 - bpow radix2 (1 - precision t)))%R).
    { apply round_generic; [apply valid_rnd_N|]. apply generic_format_FLT.
      exists (Defs.Float radix2 (2 ^ (precision t - 1) - 1) (max_exp t - (precision t - 1))).
      - unfold F2R. cbn [Fnum Fexp]. rewrite minus_IZR, <- (bpow_IZR radix2) by lia. rewrite Rmult_minus_distr_r, <- bpow_plus, Rmult_minus_distr_l, <- bpow_plus.
        f_equal; [rewrite Rmult_1_r; f_equal; lia|]. rewrite Rmult_1_l. f_equal. lia.
      - cbn [Fnum]. pose proof (pow2_pos (precision t - 1) ltac:(lia)). rewrite Z.abs_eq by lia.
        change (radix2 ^ precision t) with (2 ^ precision t). assert (2 ^ (precision t - 1) < 2 ^ precision t) by (apply Z.pow_lt_mono_r; lia). lia.
      - cbn [Fexp]. lia. }
    pose proof (bpow_gt_0 radix2 (max_exp t)) as PM. pose proof (bpow_gt_0 radix2 (min_exp t)) as Pm.
    assert (Ra : rnd t (Rabs (value n)) = Rabs (rnd t (value n))) by (unfold rnd; apply round_NE_abs; apply fexp_valid).
    assert (IR : in_range t (value n)).
    { split; [nra|]. rewrite <- Ra. apply Rle_lt_trans with (rnd t (bpow radix2 (max_exp t) * (1 - bpow radix2 (1 - precision t)))); [apply rnd_mono; lra|].
      rewrite Fm. nra. }
    destruct (G n c rest errno W Hc IR) as (r & G1 & _ & G3 & G4).
    unfold fallback_answer in E. rewrite G1 in E. eexists. split; [exact E|]. cbn [at_value].
    destruct G4 as [(_ & V1 & V2 & V3)|(C & _)]; [|exfalso; destruct IR; lra].
    split; [exact V1|]. split; [exact V3|]. rewrite V2.
    assert (R0 : (bpow radix2 (min_exp t) <= Rabs (rnd t (value n)))%R).
    { rewrite <- Ra, <- (rnd_bpow t (min_exp t)) by lia. apply rnd_mono. nra. }
    assert (RM : Rabs (rnd t (value n)) = magnitude t (fb_value r)).
    { rewrite <- V2. unfold real_of. assert (0 <= magnitude t (fb_value r))%R by apply magnitude_nonneg.
      destruct (_ =? 1); [rewrite Rabs_Ropp|]; now rewrite Rabs_pos_eq. }
    assert (SP : 0 < significand t (fb_value r)).
    { pose proof (significand_range t (fb_value r)). destruct (Z.eq_dec (significand t (fb_value r)) 0) as [Z0|]; [|lia].
      exfalso. unfold magnitude in RM. rewrite Z0, Rmult_0_l in RM. lra. }
    assert (UE : ulp radix2 (fexp t) (rnd t (value n)) = ulp_of t (fb_value r)).
    { rewrite <- ulp_abs, RM. now apply ulp_mag. }
    pose proof (error_le_half_ulp_round radix2 (fexp t) (fun z => negb (Z.even z)) (value n)) as H.
    fold (rnd t (value n)) in H. rewrite UE in H. pose proof (bpow_gt_0 radix2 (exponent t (fb_value r))) as U. fold (ulp_of t (fb_value r)) in U. nra.
Qed.

(** C93: numbers of any length that are in order are read in order, unless one of them is at a
    power of two or both are at the same tie. *)
Theorem C93_order : forall t n n' c c' rest rest' fb errno errno',
  well_formed n -> ends_number c -> within_limits n -> well_inside t (value n) -> ~ at_power t (value n) ->
  well_formed n' -> ends_number c' -> within_limits n' -> well_inside t (value n') -> ~ at_power t (value n') ->
  good_fallback t fb -> (value n <= value n')%R ->
  exists r r', atof (fmt_of t) (written n ++ c :: rest) true fb errno = Ok r /\
    atof (fmt_of t) (written n' ++ c' :: rest') true fb errno' = Ok r' /\
    finite t (at_value r) /\ finite t (at_value r') /\
    ((real_of t (at_value r) <= real_of t (at_value r'))%R \/ at_same_tie t (any_length_margin t) (value n) (value n')).
Proof.
  intros t n n' c c' rest rest' fb errno errno' W Hc L B NP W' Hc' L' B' NP' G V.
  destruct (near_enough t n c rest fb errno W Hc L B NP G) as (r & E & F & Sg & D).
  destruct (near_enough t n' c' rest' fb errno' W' Hc' L' B' NP' G) as (r' & E' & F' & Sg' & D').
  exists r, r'. split; [exact E|]. split; [exact E'|]. split; [exact F|]. split; [exact F'|].
  pose proof (margin_small t) as MS.
  assert (VB : forall m, well_formed m -> (0 <= abs_value m)%R).
  { intros m (W1 & W2 & _). unfold abs_value. apply Rmult_le_pos; [|apply bpow_ge_0]. apply IZR_le.
    unfold coefficient. assert (DD : Forall digit (n_int m ++ frac_digits m)) by (apply Forall_app; auto). pose proof (dval_bounds _ DD). lia. }
  pose proof (VB n W) as A. pose proof (VB n' W') as A'.
  set (u := at_value r) in *. set (u' := at_value r') in *.
  pose proof (magnitude_nonneg t u) as Mu. pose proof (magnitude_nonneg t u') as Mu'.
  unfold negative in Sg, Sg'. unfold real_of in *. unfold value in *.
  destruct (is_minus (n_sign n)), (is_minus (n_sign n')).
  - rewrite (proj2 Sg eq_refl), (proj2 Sg' eq_refl) in *. cbn [Z.eqb Pos.eqb] in *.
    destruct (Rle_or_lt (magnitude t u') (magnitude t u)) as [Le|Lt]; [left; lra|right].
    destruct (inverted t u u' (abs_value n') (abs_value n) (any_length_margin t)) as [T1 T2]; try assumption; try lra.
    { rewrite <- Rabs_Ropp. eapply Rle_trans; [|exact D']. right. f_equal. ring. }
    { rewrite <- Rabs_Ropp. eapply Rle_trans; [|exact D]. right. f_equal. ring. }
    { intros (k & K1 & K2). apply NP'. exists k. rewrite Rabs_Ropp. auto. }
    exists u. split; [exact F|]. rewrite !Rabs_Ropp, (Rabs_pos_eq (abs_value n)), (Rabs_pos_eq (abs_value n')) by assumption. auto.
  - left. destruct (Z.eqb_spec (sign_field t u) 1) as [_|C]; [|exfalso; apply C, Sg; reflexivity].
    destruct (Z.eqb_spec (sign_field t u') 1) as [C|_]; [exfalso; apply Sg' in C; discriminate|]. lra.
  - (* value n >= 0 >= value n': both zero, which is not inside the range *)
    exfalso. destruct B as [[B _] _]. pose proof (bpow_gt_0 radix2 (min_exp t)). pose proof (bpow_gt_0 radix2 (- precision t)).
    assert (abs_value n = 0)%R by lra. rewrite H1, Rabs_R0 in B. nra.
  - destruct (Z.eqb_spec (sign_field t u) 1) as [C|_]; [exfalso; apply Sg in C; discriminate|].
    destruct (Z.eqb_spec (sign_field t u') 1) as [C|_]; [exfalso; apply Sg' in C; discriminate|].
    destruct (Rle_or_lt (magnitude t u) (magnitude t u')) as [Le|Lt]; [left; lra|right].
    destruct (inverted t u' u (abs_value n) (abs_value n') (any_length_margin t)) as [T1 T2]; try assumption; try lra.
    exists u'. split; [exact F'|]. rewrite (Rabs_pos_eq (abs_value n)), (Rabs_pos_eq (abs_value n')) by assumption. auto.
Qed.

(** at a tie means closer than the margin *)
Lemma tie_close : forall t mg x y, (0 <= mg <= / 16)%R -> (bpow radix2 (min_exp t + precision t - 1) <= Rabs x)%R -> at_same_tie t mg x y ->
  (Rabs (Rabs x - Rabs y) <= 2 * mg * (bpow radix2 (1 - precision t) * Rabs x))%R.
Proof.
  intros t mg x y Hm Hx (v & F & T1 & T2). pose proof (width_facts t) as W.
  pose proof (bpow_gt_0 radix2 (exponent t v)) as U. fold (ulp_of t v) in U.
  apply Rabs_le_inv in T1, T2. unfold midpoint_above in *.
  assert (S : 2 ^ (precision t - 1) <= significand t v).
  { destruct (significand_full t v) as [S|S]; [exact S|].
    destruct (Z.le_gt_cases (2 ^ (precision t - 1)) (significand t v)) as [|C]; [assumption|exfalso].
    assert ((magnitude t v + ulp_of t v <= bpow radix2 (min_exp t + precision t - 1))%R).
    { unfold magnitude, ulp_of. rewrite S.
      replace (IZR (significand t v) * bpow radix2 (min_exp t) + bpow radix2 (min_exp t))%R
          with (IZR (significand t v + 1) * bpow radix2 (min_exp t))%R by (rewrite plus_IZR; ring).
      apply Rle_trans with (IZR (2 ^ (precision t - 1)) * bpow radix2 (min_exp t))%R.
      - apply Rmult_le_compat_r; [apply bpow_ge_0|apply IZR_le; lia].
      - rewrite <- (bpow_IZR radix2), <- bpow_plus by lia. apply bpow_le. lia. }
    nra. }
  assert (UM : (ulp_of t v <= bpow radix2 (1 - precision t) * magnitude t v)%R).
  { unfold magnitude, ulp_of. apply Rle_trans with (bpow radix2 (1 - precision t) * (IZR (2 ^ (precision t - 1)) * bpow radix2 (exponent t v)))%R.
    - rewrite <- (bpow_IZR radix2), <- !bpow_plus by lia. apply bpow_le. lia.
    - apply Rmult_le_compat_l; [apply bpow_ge_0|]. apply Rmult_le_compat_r; [apply bpow_ge_0|now apply IZR_le]. }
  pose proof (bpow_gt_0 radix2 (1 - precision t)) as P.
  assert (UX : (ulp_of t v <= bpow radix2 (1 - precision t) * Rabs x)%R).
  { apply Rle_trans with (1 := UM). apply Rmult_le_compat_l; [lra|]. nra. }
  apply Rabs_le. split; nra.
Qed.

(** ... so numbers in the normal range that differ by more than 2/317 (float: 31/400) of 2^-52
    (2^-23) of their size are always read in order. *)
Theorem C93_apart : forall t n n' c c' rest rest' fb errno errno',
  well_formed n -> ends_number c -> within_limits n -> well_inside t (value n) -> ~ at_power t (value n) ->
  well_formed n' -> ends_number c' -> within_limits n' -> well_inside t (value n') -> ~ at_power t (value n') ->
  good_fallback t fb -> (bpow radix2 (min_exp t + precision t - 1) <= Rabs (value n))%R ->
  (value n + 2 * any_length_margin t * (bpow radix2 (1 - precision t) * Rabs (value n)) < value n')%R ->
  exists r r', atof (fmt_of t) (written n ++ c :: rest) true fb errno = Ok r /\
    atof (fmt_of t) (written n' ++ c' :: rest') true fb errno' = Ok r' /\
    finite t (at_value r) /\ finite t (at_value r') /\ (real_of t (at_value r) <= real_of t (at_value r'))%R.
Proof.
  intros t n n' c c' rest rest' fb errno errno' W Hc L B NP W' Hc' L' B' NP' G NR V. pose proof (margin_small t) as MS.
  pose proof (bpow_gt_0 radix2 (1 - precision t)) as P. pose proof (Rabs_pos (value n)) as A.
  assert (Q : (0 <= 2 * any_length_margin t * (bpow radix2 (1 - precision t) * Rabs (value n)))%R).
  { apply Rmult_le_pos; [lra|]. apply Rmult_le_pos; lra. }
  destruct (Rle_or_lt (Rabs (Rabs (value n) - Rabs (value n'))) (2 * any_length_margin t * (bpow radix2 (1 - precision t) * Rabs (value n)))) as [C|C].
  - (* opposite signs *)
    apply Rabs_le_inv in C.
    destruct (C93_order t n n' c c' rest rest' fb errno errno' W Hc L B NP W' Hc' L' B' NP' G ltac:(lra)) as (r & r' & E & E' & F & F' & O).
    destruct (near_enough t n c rest fb errno W Hc L B NP G) as (r1 & E1 & _ & Sg & _). rewrite E in E1. injection E1 as <-.
    destruct (near_enough t n' c' rest' fb errno' W' Hc' L' B' NP' G) as (r2 & E2 & _ & Sg' & _). rewrite E' in E2. injection E2 as <-.
    exists r, r'. do 4 (split; [assumption|]).
    assert (N : (value n < 0 < value n')%R \/ ~ (value n < 0 < value n')%R) by apply Classical_Prop.classic.
    destruct N as [N|N].
    + assert (Z : forall m, well_formed m -> ((is_minus (n_sign m) = true -> value m <= 0) /\ (is_minus (n_sign m) = false -> 0 <= value m))%R).
      { intros m (W1 & W2 & _). assert (0 <= abs_value m)%R.
        { unfold abs_value. apply Rmult_le_pos; [|apply bpow_ge_0]. apply IZR_le.
          unfold coefficient. assert (DD : Forall digit (n_int m ++ frac_digits m)) by (apply Forall_app; auto). pose proof (dval_bounds _ DD). lia. }
        unfold value. split; intros ->; lra. }
      pose proof (Z n W) as [_ Z1]. pose proof (Z n' W') as [Z2 _].
      assert (S1 : sign_field t (at_value r) = 1) by (apply Sg; destruct (is_minus (n_sign n)); [reflexivity|specialize (Z1 eq_refl); lra]).
      assert (S2 : sign_field t (at_value r') <> 1).
      { intros S2. apply Sg' in S2. specialize (Z2 S2). lra. }
      unfold real_of. rewrite S1. destruct (Z.eqb_spec (sign_field t (at_value r')) 1); [contradiction|]. cbn [Z.eqb Pos.eqb].
      pose proof (magnitude_nonneg t (at_value r)). pose proof (magnitude_nonneg t (at_value r')). lra.
    + exfalso. pose proof (bpow_gt_0 radix2 (min_exp t + precision t - 1)).
      assert (P1 : (bpow radix2 (1 - precision t) <= / 4)%R) by (pose proof (width_facts t); apply (bpow_le radix2 _ (-2)); lia).
      unfold Rabs in *. destruct (Rcase_abs (value n)), (Rcase_abs (value n')); try nra.
  - destruct (C93_order t n n' c c' rest rest' fb errno errno' W Hc L B NP W' Hc' L' B' NP' G ltac:(lra)) as (r & r' & E & E' & F & F' & [O|O]).
    + exists r, r'. auto.
    + exfalso. pose proof (tie_close t (any_length_margin t) _ _ ltac:(lra) NR O). lra.
Qed.
