(** A text that changes when it is narrowed from double to float, and ordinary texts that do not. *)
From Coq Require Import Reals Lra Lia ZArith List String Ascii.
From Flocq Require Import Core.
From Verif Require Import Machine MachineFacts BitOps StaticPow Fraction Format DiyFp KComp Chars Krosh Atof Spec ParseSpec Api ParseApi Instances
  DiyFacts BoundFacts TableFacts GrisuFacts ShownFacts RoundFacts ArithProps RoundFacts CmpFacts GapFacts KroshNum ParseProps Refuted GoodFallback ParseExamples Narrow.
Import ListNotations.
Open Scope Z_scope.

(** half way above an odd significand is rounded up, to the even one *)
Lemma tie_up : forall t v, 2 ^ (precision t - 1) <= significand t v -> Z.odd (significand t v) = true ->
  rnd t (midpoint_above t v) = (magnitude t v + ulp_of t v)%R.
Proof.
  intros t v N O. pose proof (significand_range t v) as S. pose proof (exponent_ge t v) as G. pose proof (width_facts t) as W.
  set (m := significand t v) in *. set (e := exponent t v) in *.
  assert (X : midpoint_above t v = ((IZR m + / 2) * bpow radix2 e)%R) by (unfold midpoint_above, magnitude, ulp_of; fold m e; field).
  assert (Y : (magnitude t v + ulp_of t v = IZR (m + 1) * bpow radix2 e)%R) by (rewrite plus_IZR; unfold magnitude, ulp_of; fold m e; ring).
  rewrite X, Y. pose proof (bpow_gt_0 radix2 e) as B.
  assert (M : mag radix2 ((IZR m + / 2) * bpow radix2 e) = precision t + e :> Z).
  { apply mag_unique_pos. rewrite (bpow_plus radix2 (precision t) e). replace (precision t + e - 1) with ((precision t - 1) + e) by lia. rewrite (bpow_plus radix2 (precision t - 1) e).
    rewrite (bpow_IZR radix2 (precision t)), (bpow_IZR radix2 (precision t - 1)) by (destruct t; cbn; lia).
    assert (A1 : (IZR (radix2 ^ (precision t - 1)) <= IZR m)%R) by (apply IZR_le; exact N).
    assert (A2 : (IZR m + 1 <= IZR (radix2 ^ precision t))%R) by (rewrite <- plus_IZR; apply IZR_le; change (radix_val radix2) with 2; lia).
    split; [apply Rmult_le_compat_r; lra|apply Rmult_lt_compat_r; lra]. }
  assert (C : cexp radix2 (FLT_exp (min_exp t) (precision t)) ((IZR m + / 2) * bpow radix2 e) = e).
  { unfold cexp. rewrite M. unfold FLT_exp. lia. }
  assert (Z1 : ZnearestE (IZR m + / 2) = m + 1).
  { unfold Znearest. assert (F : Zfloor (IZR m + / 2) = m) by (apply Zfloor_imp; rewrite plus_IZR; lra). rewrite F.
    rewrite Rcompare_Eq by lra. rewrite <- Z.negb_odd, O. cbn [negb]. apply Zceil_imp. rewrite plus_IZR. replace (m + 1 - 1) with m by lia. lra. }
  unfold rnd, round, scaled_mantissa. rewrite C. unfold F2R. cbn [Fnum Fexp].
  replace ((IZR m + / 2) * bpow radix2 e * bpow radix2 (- e))%R with (IZR m + / 2)%R by (rewrite Rmult_assoc, <- bpow_plus; replace (e + - e) with 0 by lia; cbn; ring).
  rewrite Z1. reflexivity.
Qed.

(** 8.30628079e-15 *)
Definition p109 : numeral := nume NoSign [8] (Some [3;0;6;2;8;0;7;9]) Minus [1;5].
Definition v109 : Z := 672506357.
Definition d109 : Z := 4396274367600787456.

Lemma half_way : magnitude Double d109 = midpoint_above Float v109.
Proof.
  assert (G : forall m e a b : Z, a = (2 * m + 1) * 2 ^ 28 -> b = e - 1 + - 28 ->
    (IZR a * bpow radix2 b = IZR m * bpow radix2 e + / 2 * bpow radix2 e)%R).
  { intros m e a b -> ->. rewrite mult_IZR, plus_IZR, mult_IZR. unfold Z.sub. rewrite !bpow_plus. change (2 ^ 28) with (radix2 ^ 28). rewrite <- (bpow_IZR radix2 28) by lia.
    change (bpow radix2 (- (1))) with (/ 2)%R.
    assert (I : (bpow radix2 28 * bpow radix2 (-28) = 1)%R) by (rewrite <- bpow_plus; reflexivity).
    transitivity ((2 * IZR m + 1) * (bpow radix2 e * / 2) * (bpow radix2 28 * bpow radix2 (-28)))%R; [ring|]. rewrite I. field. }
  unfold midpoint_above, ulp_of, magnitude. apply G; vm_compute; reflexivity.
Qed.

(** as a float (with a fallback that rounds correctly) it is the float nearest to it; as a double it is the double
    nearest to it, and that lies half way between this float and the next: narrowing gives the next one *)
Theorem C109_refuted : written p109 = text "8.30628079e-15" /\ forall fb_f fb_d errno, good_fallback Float fb_f ->
  exists f d, atof (fmt_of Float) (written p109 ++ [0]) true fb_f errno = Ok f /\ atof (fmt_of Double) (written p109 ++ [0]) true fb_d errno = Ok d /\
    correctly_rounded Float false (value p109) (at_value f) /\ correctly_rounded Double false (value p109) (at_value d) /\
    rnd Float (real_of Double (at_value d)) = (real_of Float (at_value f) + ulp_of Float v109)%R /\ rnd Float (real_of Double (at_value d)) <> real_of Float (at_value f).
Proof.
  split; [reflexivity|]. intros ff fd errno GF.
  assert (W : well_formed p109) by wfn. assert (F : finite Float v109) by fin. assert (FD : finite Double d109) by fin.
  assert (E : value p109 = (IZR (coefficient p109) * pow10 (scale p109))%R) by reflexivity.
  assert (RF : rnd Float (value p109) = magnitude Float v109) by (rewrite E; apply rounds_strictly_rnd; vm_compute; reflexivity).
  assert (RD : rnd Double (value p109) = magnitude Double d109) by (rewrite E; apply rounds_strictly_rnd; vm_compute; reflexivity).
  destruct (meets_range Float p109 v109 W F) as [A B]; [vm_compute; reflexivity|vm_compute; congruence|vm_compute; congruence|].
  assert (SD : short_decimal Float p109).
  { exists 830628079, 0. split; [vm_compute; split; congruence|]. split; [lia|]. split; [reflexivity|]. intros _. vm_compute. congruence. }
  assert (L : within_limits p109) by lim.
  destruct (C29_correct_with_fallback Float p109 0 [] ff errno W nul_ends L SD A B GF) as (f & F1 & F2 & _).
  assert (FV : real_of Float (at_value f) = magnitude Float v109).
  { destruct F2 as [(_ & _ & F2 & _)|[F2 _]]; [now rewrite F2|]. exfalso. destruct A as [_ A]. lra. }
  exists f, (answer true errno d109 success 14).
  split; [exact F1|]. split; [run|]. split; [exact F2|].
  assert (DV : real_of Double d109 = magnitude Double d109) by reflexivity.
  split.
  { left. split; [|split; [exact FD|split; [rewrite RD; exact DV|]]].
    - rewrite RD, <- DV, DV. rewrite Rabs_pos_eq by (unfold magnitude; apply Rmult_le_pos; [apply IZR_le; vm_compute; congruence|apply bpow_ge_0]). now apply magnitude_lt_max.
    - split; intros C; vm_compute in C; congruence. }
  cbn [at_value answer]. rewrite DV, FV.
  rewrite half_way, tie_up by (vm_compute; congruence). split; [reflexivity|].
  pose proof (bpow_gt_0 radix2 (exponent Float v109)). unfold ulp_of. lra.
Qed.

(** 0.1 *)
Example C109_meets : well_formed p2 /\ ends_number 0 /\ within_limits p2 /\ short_decimal Float p2 /\ in_range Float (value p2) /\
  ~ carries Float (value p2) /\ clear_of_ties Float (/ 128) (value p2) /\ good_fallback Double (reference_fallback Double) /\ good_fallback Float (reference_fallback Float).
Proof.
  destruct (C29_meets Float) as (A & B & C & D & E & F).
  split; [exact A|]. split; [exact nul_ends|]. split; [exact B|]. split; [exact C|]. split; [exact D|]. split; [exact E|]. split; [exact F|].
  split; apply good_fallback_exists.
Qed.
(** so 0.1 read as a double and narrowed is 0.1 as a float *)
Example C109_at_work : forall fb errno, exists v d, atof (fmt_of Float) (text "0.1" ++ [0]) true fb errno = Ok (answer true errno v success 3) /\
  atof (fmt_of Double) (text "0.1" ++ [0]) true (reference_fallback Double) errno = Ok d /\ rnd Float (real_of Double (at_value d)) = real_of Float v.
Proof.
  intros. destruct (C29_meets Float) as (A & B & C & D & E & F).
  exact (C109_clear p2 0 [] fb (reference_fallback Double) errno A nul_ends B C D E F (good_fallback_exists Double)).
Qed.
