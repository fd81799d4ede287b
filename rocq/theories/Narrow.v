(** C109: a text read as a double and narrowed to float, against the same text read as a float. *)
From Coq Require Import Reals Lra Lia ZArith List String Ascii.
From Flocq Require Import Core Relative.
From Verif Require Import Machine MachineFacts BitOps StaticPow Fraction Format DiyFp KComp Chars Grisu Ftoa Krosh Atof Spec ParseSpec Api ParseApi Instances
  DiyFacts BoundFacts TableFacts GrisuFacts ShownFacts FtoaFacts RoundFacts WrittenFacts PrintProps DvalFacts CmpFacts GapFacts KroshNum ShortFacts ParseProps RoundTrip CrossType.
Import ListNotations.
Open Scope Z_scope.

(** the point half way above a float is a double *)
Lemma midpoint_double : forall v, generic_format radix2 (FLT_exp (min_exp Double) (precision Double)) (midpoint_above Float v).
Proof.
  intros v. pose proof (significand_range Float v) as S. pose proof (exponent_ge Float v) as G. cbn [precision min_exp] in *.
  assert (E : midpoint_above Float v = F2R (Defs.Float radix2 (2 * significand Float v + 1) (exponent Float v - 1))).
  { unfold midpoint_above, magnitude, ulp_of, F2R. cbn [Fnum Fexp]. rewrite plus_IZR, mult_IZR. replace (exponent Float v) with (1 + (exponent Float v - 1)) at 1 2 by lia. rewrite bpow_plus. change (bpow radix2 1) with 2%R. field. }
  apply generic_format_FLT. exists (Defs.Float radix2 (2 * significand Float v + 1) (exponent Float v - 1)); [exact E| |cbn [Fexp]; lia].
  cbn [Fnum]. change (2 ^ 24) with 16777216 in S. change (Zpower radix2 53) with 9007199254740992. lia.
Qed.
Lemma rnd_midpoint : forall v, rnd Double (midpoint_above Float v) = midpoint_above Float v.
Proof. intros v. unfold rnd. apply round_generic; [typeclasses eauto|apply midpoint_double]. Qed.

(** rounding twice is rounding once, or the double is half way between two floats: then one of the
    two is one of them, the other one the other *)
Definition split_at (v : Z) (y p q : R) : Prop :=
  y = midpoint_above Float v /\ (p = magnitude Float v /\ q = (magnitude Float v + ulp_of Float v)%R \/ q = magnitude Float v /\ p = (magnitude Float v + ulp_of Float v)%R).

Lemma next_double : forall v, rnd Double (magnitude Float v + ulp_of Float v) = (magnitude Float v + ulp_of Float v)%R.
Proof.
  intros v. unfold rnd. apply round_generic; [typeclasses eauto|].
  pose proof (significand_range Float v) as S. pose proof (exponent_ge Float v) as G. cbn [precision min_exp] in *.
  assert (E : (magnitude Float v + ulp_of Float v)%R = F2R (Defs.Float radix2 (significand Float v + 1) (exponent Float v))).
  { unfold magnitude, ulp_of, F2R. cbn [Fnum Fexp]. rewrite plus_IZR. ring. }
  apply generic_format_FLT. exists (Defs.Float radix2 (significand Float v + 1) (exponent Float v)); [exact E| |cbn [Fexp precision min_exp]; lia].
  cbn [Fnum]. change (2 ^ 24) with 16777216 in S. change (Zpower radix2 53) with 9007199254740992. lia.
Qed.
Lemma next_float : forall v, rnd Float (magnitude Float v + ulp_of Float v) = (magnitude Float v + ulp_of Float v)%R.
Proof.
  intros v. rewrite <- succ_any. unfold rnd. apply round_generic; [typeclasses eauto|]. apply generic_format_succ; [apply fexp_valid|apply format_mag].
Qed.
(** a point above [v] that is not rounded to it and does not lie behind the next float *)
Lemma up_to_next : forall v a, (magnitude Float v < rnd Float a)%R -> (a <= magnitude Float v + ulp_of Float v)%R ->
  rnd Float a = (magnitude Float v + ulp_of Float v)%R.
Proof.
  intros v a L U. apply Rle_antisym; [rewrite <- next_float; now apply rnd_mono|]. rewrite <- succ_any.
  apply succ_le_lt; [apply fexp_valid|apply format_mag|apply format_rnd|exact L].
Qed.

Lemma twice : forall a, (0 <= a)%R -> (rnd Float a < bpow radix2 128)%R ->
  rnd Float (rnd Double a) = rnd Float a \/ exists v, finite Float v /\ split_at v (rnd Double a) (rnd Float (rnd Double a)) (rnd Float a).
Proof.
  intros a A M. assert (Y : (0 <= rnd Double a)%R) by now apply rnd_nonneg.
  assert (H : forall v, (midpoint_above Float v < magnitude Float v + ulp_of Float v)%R).
  { intros v. unfold midpoint_above, ulp_of. pose proof (bpow_gt_0 radix2 (exponent Float v)). lra. }
  destruct (Rtotal_order (rnd Float (rnd Double a)) (rnd Float a)) as [L|[E|L]]; [right| now left |right].
  - assert (C : (rnd Double a <= a)%R) by (apply Rnot_lt_le; intros C; apply Rlt_le, (rnd_mono Float) in C; lra).
    destruct (rnd_gap Float (rnd Double a) a ltac:(lra) L) as (v & V1 & V4 & V2 & V3); [cbn [max_exp]; lra|].
    assert (E : rnd Double a = midpoint_above Float v) by (apply Rle_antisym; [exact V2|rewrite <- rnd_midpoint; now apply rnd_mono]).
    exists v. split; [exact V1|]. split; [exact E|]. left. split; [now symmetry|]. apply up_to_next; [rewrite V4; exact L|].
    apply Rnot_lt_le. intros U. apply Rlt_le, (rnd_mono Double) in U. rewrite next_double, E in U. specialize (H v). lra.
  - assert (C : (a <= rnd Double a)%R) by (apply Rnot_lt_le; intros C; apply Rlt_le, (rnd_mono Float) in C; lra).
    destruct (rnd_gap Float a (rnd Double a) ltac:(lra) L) as (v & V1 & V4 & V2 & V3); [cbn [max_exp]; lra|].
    assert (E : rnd Double a = midpoint_above Float v) by (apply Rle_antisym; [rewrite <- rnd_midpoint; now apply rnd_mono|exact V3]).
    exists v. split; [exact V1|]. split; [exact E|]. right. split; [now symmetry|]. apply up_to_next; [rewrite V4; exact L|]. rewrite E. specialize (H v). lra.
Qed.
Lemma twice_signed : forall x, (Rabs (rnd Float x) < bpow radix2 128)%R ->
  rnd Float (rnd Double x) = rnd Float x \/
  exists v, finite Float v /\ split_at v (Rabs (rnd Double x)) (Rabs (rnd Float (rnd Double x))) (Rabs (rnd Float x)).
Proof.
  intros x M. destruct (Rle_or_lt 0 x) as [P|P].
  - pose proof (rnd_nonneg Float x P). pose proof (rnd_nonneg Double x P) as Q. pose proof (rnd_nonneg Float _ Q). rewrite Rabs_pos_eq in M by assumption.
    destruct (twice x P M) as [E|(v & V & E)]; [now left|right]. exists v. split; [exact V|]. rewrite !Rabs_pos_eq by assumption. exact E.
  - assert (P' : (0 <= - x)%R) by lra. pose proof (rnd_nonneg Float (- x) P') as Q. pose proof (rnd_nonneg Double (- x) P') as Q2. pose proof (rnd_nonneg Float _ Q2) as Q3.
    rewrite <- (Ropp_involutive x) in M |- *. set (a := (- x)%R) in *. clearbody a.
    rewrite !rnd_opp, Rabs_Ropp, Rabs_pos_eq in M by assumption. rewrite !rnd_opp.
    destruct (twice a P' M) as [E|(v & V & E)]; [left; now rewrite E|right]. exists v. split; [exact V|]. rewrite !Rabs_Ropp, !Rabs_pos_eq by assumption. exact E.
Qed.

(** a short number in the range of float is in that of double, and its double is not a lost power *)
Lemma as_double : forall n, well_formed n -> short_decimal Float n -> in_range Float (value n) ->
  short_decimal Double n /\ in_range Double (value n) /\ ~ carries Double (value n).
Proof.
  intros n W (d & j & D1 & D2 & D3 & D4) [R1 R2]. cbn [exact_digits] in *.
  rewrite rnd_value_abs in R2 by exact W. rewrite value_abs in R1 by exact W. set (x := abs_value n) in *.
  change (bpow radix2 (min_exp Float)) with (bpow radix2 (-149)) in R1. change (max_exp Float) with 128 in R2.
  assert (B149 : (0 < bpow radix2 (-149))%R) by apply bpow_gt_0.
  assert (X1 : (x < bpow radix2 128)%R). { apply Rnot_le_lt. intros C. apply (rnd_mono Float) in C. rewrite rnd_bpow in C by (cbn; lia). lra. }
  assert (Y1 : (rnd Double x <= bpow radix2 128)%R) by (rewrite <- (rnd_bpow Double 128) by (cbn; lia); apply rnd_mono; lra).
  assert (E : x = (IZR d * pow10 (scale n + j))%R).
  { unfold x, abs_value. rewrite D3, mult_IZR, bpow_plus. rewrite (IZR_Zpower radix10) by exact D2. change (pow10 j) with (bpow radix10 j). ring. }
  assert (D0 : 0 < d). { apply Z.nle_gt. intros C. assert (d = 0) by lia. subst d. rewrite E, Rmult_0_l in R1. lra. }
  split; [|split].
  - exists d, j. split; [split; [lia|]; apply Z.lt_trans with (1 := proj2 D1); vm_compute; reflexivity|]. split; [exact D2|]. split; [exact D3|discriminate].
  - split; rewrite ?value_abs, ?rnd_value_abs by exact W; fold x.
    + apply Rle_trans with (2 := R1). apply bpow_le. cbn. lia.
    + apply Rle_lt_trans with (1 := Y1). apply bpow_lt. cbn. lia.
  - intros (k & K1 & K2 & K3). rewrite value_abs in K2 by exact W. rewrite rnd_value_abs in K3 by exact W. fold x in K2, K3.
    assert (Kr : -150 <= k <= 128).
    { split; [apply Z.lt_le_incl; apply (lt_bpow radix2); apply Rle_lt_trans with (2 := K2); apply Rle_trans with (2 := R1); apply bpow_le; lia|].
      apply (le_bpow radix2). rewrite <- K3. exact Y1. }
    destruct (short_far k d (scale n + j) Kr ltac:(lia)) as [C|C]; rewrite <- E in C; [lra|].
    assert (RE : (Rabs (rnd Double x - x) <= bpow radix2 (-53) * x)%R).
    { unfold rnd. eapply Rle_trans.
      - apply (relative_error_N_FLT radix2 (min_exp Double) (precision Double) ltac:(cbn; lia) (fun z => negb (Z.even z)) x).
        rewrite Rabs_pos_eq by lra. apply Rle_trans with (2 := R1). apply bpow_le. cbn. lia.
      - rewrite Rabs_pos_eq by lra. change (- precision Double + 1) with (-52). change (-52) with (1 + -53). rewrite bpow_plus. change (bpow radix2 1) with 2%R. lra. }
    rewrite K3 in RE. apply Rabs_le_inv in RE. set (b := bpow radix2 (-53)) in *. assert (0 < b)%R by apply bpow_gt_0. pose proof (bpow_gt_0 radix2 k). nra.
Qed.

(** C109: a short number read as a double and narrowed gives what it gives as a float, or the double
    is exactly half way between two floats -- then these two are what the two ways give *)
Theorem C109_narrowed : forall n c rest fb_f fb_d errno, well_formed n -> ends_number c -> within_limits n ->
  short_decimal Float n -> in_range Float (value n) -> ~ carries Float (value n) -> good_fallback Float fb_f -> good_fallback Double fb_d ->
  let s := written n ++ c :: rest in
  exists f d, atof (fmt_of Float) s true fb_f errno = Ok f /\ atof (fmt_of Double) s true fb_d errno = Ok d /\
    finite Float (at_value f) /\ finite Double (at_value d) /\
    let narrowed := rnd Float (real_of Double (at_value d)) in
    (narrowed = real_of Float (at_value f) \/
     exists v, finite Float v /\ Rabs (real_of Double (at_value d)) = midpoint_above Float v /\
       (Rabs narrowed = magnitude Float v /\ Rabs (real_of Float (at_value f)) = (magnitude Float v + ulp_of Float v)%R \/
        Rabs narrowed = (magnitude Float v + ulp_of Float v)%R /\ Rabs (real_of Float (at_value f)) = magnitude Float v)).
Proof.
  intros n c rest ff fd errno W Hc L S R NC GF GD s.
  destruct (as_double n W S R) as (S' & R' & NC').
  destruct (C29_correct_with_fallback Float n c rest ff errno W Hc L S R NC GF) as (f & F1 & F2 & _).
  destruct (C29_correct_with_fallback Double n c rest fd errno W Hc L S' R' NC' GD) as (d & D1 & D2 & _).
  exists f, d. split; [exact F1|]. split; [exact D1|].
  destruct R as [_ R], R' as [_ R'].
  destruct F2 as [(_ & F2 & F3 & _)|[F2 _]]; [|exfalso; lra]. destruct D2 as [(_ & D2 & D3 & _)|[D2 _]]; [|exfalso; lra].
  split; [exact F2|]. split; [exact D2|]. cbv zeta. rewrite F3, D3.
  destruct (twice_signed (value n) R) as [E|(v & V & E1 & E2)]; [left; exact E|right]. exists v. split; [exact V|]. split; [exact E1|]. tauto.
Qed.

Lemma clear_not_half : forall x v, (bpow radix2 (-149) <= Rabs x)%R -> clear_of_ties Float (/ 128) x -> finite Float v -> Rabs (rnd Double x) <> midpoint_above Float v.
Proof.
  intros x v B C V E. specialize (C v V).
  assert (RE : (Rabs (rnd Double x - x) <= bpow radix2 (-53) * Rabs x)%R).
  { unfold rnd. eapply Rle_trans.
    - apply (relative_error_N_FLT radix2 (min_exp Double) (precision Double) ltac:(cbn; lia) (fun z => negb (Z.even z)) x).
      apply Rle_trans with (2 := B). apply bpow_le. cbn. lia.
    - change (- precision Double + 1) with (-52). change (-52) with (1 + -53). rewrite bpow_plus. change (bpow radix2 1) with 2%R. lra. }
  assert (RD : (Rabs (Rabs x - midpoint_above Float v) <= bpow radix2 (-53) * Rabs x)%R).
  { rewrite <- E. apply Rle_trans with (2 := RE). rewrite Rabs_minus_sym. apply Rabs_triang_inv2. }
  pose proof (significand_range Float v) as SR. change (2 ^ precision Float) with 16777216 in SR.
  assert (SM : (IZR (significand Float v) <= 16777215)%R) by (apply IZR_le; lia).
  assert (U : (0 < ulp_of Float v)%R) by apply bpow_gt_0.
  assert (MU : (midpoint_above Float v <= 16777216 * ulp_of Float v)%R) by (unfold midpoint_above, magnitude; fold (ulp_of Float v); nra).
  assert (Bv : (bpow radix2 (-53) = / 9007199254740992)%R) by (cbn [bpow]; reflexivity).
  rewrite Bv in RD. apply Rabs_le_inv in RD.
  assert (X : (Rabs x <= 2 * midpoint_above Float v)%R) by lra.
  assert (Y : (Rabs (Rabs x - midpoint_above Float v) <= / 9007199254740992 * (2 * (16777216 * ulp_of Float v)))%R).
  { apply Rabs_le. lra. }
  lra.
Qed.
(** C109: so nothing changes for numbers that are not within 1/128 of a unit in the last place of a point half
    way between two floats; the float is found without the fallback *)
Theorem C109_clear : forall n c rest fb_f fb_d errno, well_formed n -> ends_number c -> within_limits n ->
  short_decimal Float n -> in_range Float (value n) -> ~ carries Float (value n) -> clear_of_ties Float (/ 128) (value n) -> good_fallback Double fb_d ->
  let s := written n ++ c :: rest in
  exists v d, atof (fmt_of Float) s true fb_f errno = Ok (answer true errno v success (len (written n))) /\
    atof (fmt_of Double) s true fb_d errno = Ok d /\ rnd Float (real_of Double (at_value d)) = real_of Float v.
Proof.
  intros n c rest ff fd errno W Hc L S R NC CT GD s.
  destruct (as_double n W S R) as (S' & R' & NC').
  destruct (C29_fallback_only_near_ties Float n c rest true ff errno W Hc L S R NC CT) as (v & F1 & F2).
  destruct (C29_correct_with_fallback Double n c rest fd errno W Hc L S' R' NC' GD) as (d & D1 & D2 & _).
  exists v, d. split; [exact F1|]. split; [exact D1|].
  destruct R as [R0 R], R' as [_ R'].
  destruct F2 as [(_ & F2 & F3 & _)|[F2 _]]; [|exfalso; lra]. destruct D2 as [(_ & D2 & D3 & _)|[D2 _]]; [|exfalso; lra].
  rewrite F3, D3. destruct (twice_signed (value n) R) as [E|(w & V & E1 & E2)]; [exact E|]. exfalso. exact (clear_not_half (value n) w R0 CT V E1).
Qed.
