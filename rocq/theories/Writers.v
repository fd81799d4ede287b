(** C114: numbers written by other programs. *)
From Coq Require Import Reals Lra Lia ZArith List String Ascii.
From Flocq Require Import Core.
From Verif Require Import Machine MachineFacts BitOps StaticPow Fraction Format DiyFp KComp Chars Grisu Ftoa Krosh Atof Spec ParseSpec Api ParseApi Instances
  DiyFacts BoundFacts TableFacts GrisuFacts ShownFacts FtoaFacts RoundFacts WrittenFacts PrintProps DvalFacts CmpFacts KroshNum ShortFacts ParseProps RangeProps RoundTrip ArithProps.
Import ListNotations.
Open Scope Z_scope.

(** A text that stands for the value [v] only: it has its sign, and lies strictly between the points half way to the neighbours of [v]. *)
Definition names (t : ftype) (v : Z) (n : numeral) : Prop :=
  (is_minus (n_sign n) = true <-> negative t v) /\ (midpoint_below t v < abs_value n < midpoint_above t v)%R.

(** A text that is [v] rounded to [p] significant digits, as printf does with %.(p-1)e, or -- leaving out zeros at the end -- %.pg *)
Definition rounded_to (p : Z) (t : ftype) (v : Z) (n : numeral) : Prop :=
  (is_minus (n_sign n) = true <-> negative t v) /\
  exists d k, 10 ^ (p - 1) <= d < 10 ^ p /\ abs_value n = (IZR d * pow10 k)%R /\ (Rabs (abs_value n - Rabs (real_of t v)) <= / 2 * pow10 k)%R.

(** the digits that are known to be enough: max_digits10 *)
Definition enough_digits (t : ftype) : Z := match t with Float => 9 | Double => 17 end.

Lemma names_value : forall t v n, nonzero t v -> well_formed n -> names t v n -> rnd t (value n) = real_of t v.
Proof.
  intros t v n H W [S I]. pose proof (nonzero_significand t v H) as Hs. pose proof (rnd_between t v _ Hs I) as Q.
  unfold value, real_of. unfold negative in S. destruct (is_minus (n_sign n)).
  - rewrite (proj1 S eq_refl). cbn [Z.eqb Pos.eqb]. rewrite rnd_opp. now f_equal.
  - destruct (Z.eqb_spec (sign_field t v) 1) as [e|e]; [apply S in e; discriminate|exact Q].
Qed.

(** C114: A text of no more significant digits than the parser takes that names a value is read as that value -- with the help of a good
    fallback -- unless the value is a normal power of two and the text is below it. *)
Theorem C114_read : forall t v n c rest fb errno, nonzero t v -> well_formed n -> ends_number c -> within_limits n -> short_decimal t n ->
  names t v n -> (bpow radix2 (min_exp t) <= Rabs (value n))%R -> good_fallback t fb ->
  ~ normal_power t v \/ (Rabs (real_of t v) <= Rabs (value n))%R ->
  exists r, atof (fmt_of t) (written n ++ c :: rest) true fb errno = Ok r /\ at_value r = v /\ at_str_end r = Some (len (written n)) /\
    (errno <> ERANGE -> at_status r = success /\ at_errno r = errno \/ at_used_fallback r = true /\ at_errno r = ERANGE /\ below_normal t (value n)).
Proof.
  intros t v n c rest fb errno H W Hc L S Nm Lo G Q. pose proof (names_value t v n H W Nm) as RV.
  assert (IR : in_range t (value n)).
  { split; [exact Lo|]. rewrite RV, abs_real. apply magnitude_lt_max, H. }
  assert (NC : ~ carries t (value n)).
  { intros (k & K1 & K2 & K3). rewrite RV in K3. destruct Q as [Q|Q]; [apply Q; exists k; auto|lra]. }
  assert (U : forall neg w, correctly_rounded t neg (value n) w -> w = v).
  { intros neg w [(_ & A & B & _)|[A _]]; [|exfalso; destruct IR; lra]. rewrite RV in B. apply (real_of_inj t); [|exact H|exact B].
    split; [exact A|]. intros (_ & Z1 & Z2).
    assert (M0 : magnitude t w = 0%R) by (unfold magnitude, significand; rewrite Z1, Z2; cbn; ring).
    pose proof (nonzero_above t v H) as NA. pose proof (bpow_gt_0 radix2 (min_exp t)). rewrite <- abs_real, B, abs_real in M0. lra. }
  destruct (C29_correct_or_deferred t n c rest true fb errno W Hc L S IR NC) as [(w & E & V)|E]; rewrite E.
  - apply U in V. subst w. eexists. split; [reflexivity|]. cbn. auto.
  - destruct (G n c rest errno W Hc IR) as (r & G1 & G2 & G3 & G4). unfold fallback_answer. rewrite G1.
    eexists. split; [reflexivity|]. cbn [at_value at_status at_str_end at_errno at_used_fallback]. rewrite G3. split; [now apply U in G4|]. split; [reflexivity|].
    intros NE. destruct G2 as [G2|[G2 G5]]; [left|right; auto]. rewrite G2.
    unfold check_errno. destruct (Z.eqb_spec errno ERANGE); [contradiction|auto].
Qed.

(** C114: the exception: a normal power of two named by a text below it is read as its half -- and the smallest one as zero -- unless
    the fallback is asked. *)
Theorem C114_power_lost : forall t v n c rest want fb errno k, nonzero t v -> well_formed n -> ends_number c -> within_limits n -> short_decimal t n ->
  names t v n -> min_exp t + precision t - 1 <= k -> Rabs (real_of t v) = bpow radix2 k -> (Rabs (value n) <= bpow radix2 k * (1 - bpow radix2 (2 - width t)))%R ->
  (exists w, atof (fmt_of t) (written n ++ c :: rest) want fb errno = Ok (answer want errno w success (len (written n))) /\ finite t w /\
     Rabs (real_of t w) = (if k =? min_exp t + precision t - 1 then 0 else bpow radix2 (k - 1))%R) \/
  atof (fmt_of t) (written n ++ c :: rest) want fb errno = fallback_answer t (written n ++ c :: rest) want fb errno.
Proof.
  intros t v n c rest want fb errno k H W Hc L S Nm Hk P Lo. pose proof (names_value t v n H W Nm) as RV. pose proof (width_facts t) as Wf.
  apply C32_carry_lost; try assumption; [|now rewrite RV].
  split; [|rewrite RV, abs_real; apply magnitude_lt_max, H].
  rewrite value_abs by assumption. destruct Nm as [_ [I _]]. rewrite abs_real in P. unfold midpoint_below in I.
  assert (G1 : (gap_below t v <= ulp_of t v)%R).
  { unfold gap_below. pose proof (bpow_gt_0 radix2 (exponent t v)). fold (ulp_of t v) in *. destruct (_ && _); lra. }
  assert (S2 : 2 <= significand t v).
  { destruct (significand_full t v) as [Fl|Fl]; [apply Z.le_trans with (2 := Fl); destruct t; cbn; lia|]. unfold magnitude in P. rewrite Fl in P.
    assert (B : (bpow radix2 (min_exp t + 1) <= IZR (significand t v) * bpow radix2 (min_exp t))%R) by (rewrite P; apply bpow_le; destruct t; cbn in *; lia).
    rewrite bpow_plus in B. pose proof (bpow_gt_0 radix2 (min_exp t)) as B0. change (bpow radix2 1) with 2%R in B. apply le_IZR. nra. }
  pose proof (exponent_ge t v) as EG. apply (bpow_le radix2) in EG. apply IZR_le in S2. unfold magnitude, ulp_of in *. pose proof (bpow_gt_0 radix2 (exponent t v)). nra.
Qed.

(** the rounding interval of a value reaches at least 2^-precision of the value to either side *)
Lemma interval_wide : forall t v, (magnitude t v <= bpow radix2 (precision t) * gap_below t v)%R /\ (gap_below t v <= ulp_of t v)%R.
Proof.
  intros t v. pose proof (width_facts t) as W. pose proof (significand_range t v) as [S0 S1]. unfold gap_below, magnitude. fold (ulp_of t v).
  assert (U : (0 < ulp_of t v)%R) by apply bpow_gt_0.
  destruct (_ && _) eqn:E.
  - apply andb_prop in E as [E _]. apply Z.eqb_eq in E. rewrite E.
    assert (B : (bpow radix2 (precision t) = 2 * IZR (2 ^ (precision t - 1)))%R).
    { rewrite (bpow_IZR radix2 (precision t)) by (destruct t; cbn; lia). rewrite <- mult_IZR. f_equal. destruct t; reflexivity. }
    rewrite B. split; [right; field|lra].
  - rewrite (bpow_IZR radix2 (precision t)) by (destruct t; cbn; lia). split; [|lra]. apply Rmult_le_compat_r; [lra|]. apply IZR_le. change (radix_val radix2) with 2. lia.
Qed.

Lemma pow10_steps : forall a b, 0 <= b -> (IZR (10 ^ b) * pow10 a = pow10 (a + b))%R.
Proof.
  intros a b H. rewrite bpow_plus, Rmult_comm. f_equal. symmetry. apply (bpow_IZR radix10 b). exact H.
Qed.

(** C114: 17 significant digits (9 for float) name a value -- whatever printed them -- and are few enough for the parser *)
Theorem C114_digits_enough : forall t v n, nonzero t v -> well_formed n -> rounded_to (enough_digits t) t v n ->
  (t = Float -> (pow10 (-42) <= Rabs (real_of t v))%R) -> names t v n /\ short_decimal t n.
Proof.
  intros t v n H W (S & d & k & D & A & B) Lo. rewrite abs_real in *. pose proof (interval_wide t v) as [I1 I2].
  assert (P : (0 < pow10 k)%R) by apply bpow_gt_0. apply Rabs_le_inv in B. rewrite A in B.
  assert (U : (0 < ulp_of t v)%R) by apply bpow_gt_0.
  assert (Gd : (pow10 k < gap_below t v)%R).
  { destruct D as [D _]. apply IZR_le in D. destruct t; cbn [enough_digits precision] in *.
    - change (bpow radix2 24) with 16777216%R in I1. change (10 ^ (9 - 1)) with 100000000 in D. nra.
    - change (bpow radix2 53) with 9007199254740992%R in I1. change (10 ^ (17 - 1)) with 10000000000000000 in D. nra. }
  split.
  - split; [exact S|]. rewrite A. unfold midpoint_below, midpoint_above. split; lra.
  - assert (K : t = Float -> -50 <= k).
    { intros ->. specialize (Lo eq_refl). destruct D as [_ D]. cbn [enough_digits] in D.
      assert (X : (pow10 (-42) < pow10 (k + 9))%R).
      { rewrite <- pow10_steps by lia. assert (D1 : (IZR d <= IZR (10 ^ 9 - 1))%R) by (apply IZR_le; lia). rewrite minus_IZR in D1. nra. }
      apply lt_bpow in X. lia. }
    assert (Cf : 0 <= coefficient n).
    { unfold coefficient. assert (WF : Forall digit (n_int n ++ frac_digits n)) by (destruct W as (? & ? & _); now apply Forall_app). apply (dval_bounds _ WF). }
    assert (P1 : 0 < 10 ^ (enough_digits t - 1)) by (destruct t; reflexivity). assert (D0 : 0 < d) by (apply Z.lt_le_trans with (1 := P1); apply D).
    assert (E : 10 ^ enough_digits t <= 10 ^ exact_digits t) by (apply Z.pow_le_mono_r; [lia|destruct t; cbn; lia]).
    unfold abs_value in A. destruct (Z.le_ge_cases k (scale n)) as [C|C].
    + assert (A' : (IZR (coefficient n) * IZR (10 ^ (scale n - k)) = IZR d)%R).
      { apply Rmult_eq_reg_r with (pow10 k); [|lra]. rewrite <- A, Rmult_assoc, pow10_steps by lia. do 2 f_equal. lia. }
      rewrite <- mult_IZR in A'. apply eq_IZR in A'. pose proof (Z.pow_pos_nonneg 10 (scale n - k) ltac:(lia) ltac:(lia)).
      exists (coefficient n), 0. rewrite Z.add_0_r, Z.mul_1_r. split; [|split; [lia|split; [reflexivity|intros T; specialize (K T); lia]]].
      split; [exact Cf|]. apply Z.le_lt_trans with d; [nia|lia].
    + exists d, (k - scale n). split; [lia|]. split; [lia|]. split; [|intros T; specialize (K T); lia].
      apply eq_IZR. rewrite mult_IZR. apply Rmult_eq_reg_r with (pow10 (scale n)); [|apply Rgt_not_eq, bpow_gt_0].
      rewrite A, Rmult_assoc, pow10_steps by lia. do 2 f_equal. lia.
Qed.

(** C114: so what printf writes with these many digits is read as the value it was written for, except for powers of two rounded down
    and the smallest value of the type rounded down. *)
Theorem C114_printf : forall t v n c rest fb errno, nonzero t v -> well_formed n -> ends_number c -> within_limits n ->
  rounded_to (enough_digits t) t v n -> (t = Float -> (pow10 (-42) <= Rabs (real_of t v))%R) -> good_fallback t fb ->
  (~ normal_power t v /\ significand t v <> 1 \/ (Rabs (real_of t v) <= Rabs (value n))%R) ->
  exists r, atof (fmt_of t) (written n ++ c :: rest) true fb errno = Ok r /\ at_value r = v /\ at_str_end r = Some (len (written n)) /\
    (errno <> ERANGE -> at_status r = success /\ at_errno r = errno \/ at_used_fallback r = true /\ at_errno r = ERANGE /\ below_normal t (value n)).
Proof.
  intros t v n c rest fb errno H W Hc L Rd Lo G Q. destruct (C114_digits_enough t v n H W Rd Lo) as [Nm S].
  apply C114_read; try assumption; [|tauto].
  pose proof (nonzero_above t v H) as NA. rewrite abs_real in Q. destruct Q as [[_ Q]|Q]; [|lra].
  pose proof (nonzero_significand t v H) as S0. assert (S2 : 2 <= significand t v) by lia. rewrite value_abs by assumption. destruct Nm as [_ [I _]]. unfold midpoint_below in I.
  pose proof (interval_wide t v) as [_ I2]. pose proof (exponent_ge t v) as EG. apply (bpow_le radix2) in EG. apply IZR_le in S2.
  unfold magnitude, ulp_of in *. pose proof (bpow_gt_0 radix2 (exponent t v)). nra.
Qed.
