(** C113: the text of a double, read as a float. *)
From Coq Require Import Reals Lra Lia ZArith List String Ascii.
From Flocq Require Import Core Relative.
From Verif Require Import Machine MachineFacts BitOps StaticPow Fraction Format DiyFp KComp Chars Grisu Ftoa Krosh Atof Spec ParseSpec Api ParseApi Instances
  DiyFacts BoundFacts TableFacts GrisuFacts ShownFacts FtoaFacts RoundFacts WrittenFacts PrintProps DvalFacts CmpFacts GapFacts KroshNum ShortFacts ParseProps RoundTrip CrossType Narrow.
Import ListNotations.
Open Scope Z_scope.

(** [x] is at least one unit (of a float just above it, 2^-23 of it) away from every power of two *)
Definition away_from_powers (x : R) : Prop := forall k, (bpow radix2 (k - 23) <= Rabs (Rabs x - bpow radix2 k))%R.

(** C113: The number printed for a double is rounded to the same float as the double itself -- narrowing, to nearest and ties to
    even -- or the double lies exactly half way between two floats. *)
Theorem C113_text_narrowed : forall w n, nonzero Double w -> well_formed n -> prints Double w (written n) -> (Rabs (rnd Float (value n)) < bpow radix2 128)%R ->
  rnd Float (value n) = rnd Float (real_of Double w) \/
  exists v, finite Float v /\ Rabs (real_of Double w) = midpoint_above Float v.
Proof.
  intros w n Nw W P M. destruct (C01_reads_back Double w n Nw W P) as (_ & R & _). specialize (R (fun z => negb (Z.even z))).
  change (rnd Double (value n) = real_of Double w) in R.
  destruct (twice_signed (value n) M) as [E|(v & V & E & _)]; rewrite R in *; [left; now symmetry|right; eauto].
Qed.

Lemma same_side : forall a x mg, (0 < mg)%R -> (0 <= a)%R -> (0 <= x)%R -> clear_of_ties Float mg a -> (rnd Float a < bpow radix2 128)%R ->
  (forall v, finite Float v -> (a <= midpoint_above Float v \/ x <= midpoint_above Float v)%R -> (Rabs (x - a) < mg * ulp_of Float v)%R) -> rnd Float x = rnd Float a.
Proof.
  intros a x mg Hm A X CT M N. destruct (Rtotal_order (rnd Float x) (rnd Float a)) as [L|[E|L]]; [exfalso|exact E|exfalso].
  - assert (C : (x <= a)%R) by (apply Rnot_lt_le; intros C; apply Rlt_le, (rnd_mono Float) in C; lra).
    destruct (rnd_gap Float x a ltac:(lra) L) as (v & V1 & V4 & V2 & V3); [cbn [max_exp]; lra|].
    specialize (CT v V1). specialize (N v V1 (or_intror V2)). rewrite (Rabs_pos_eq a) in CT by exact A. rewrite Rabs_pos_eq in CT by lra. rewrite Rabs_minus_sym, Rabs_pos_eq in N by lra. lra.
  - assert (C : (a <= x)%R) by (apply Rnot_lt_le; intros C; apply Rlt_le, (rnd_mono Float) in C; lra).
    destruct (rnd_gap Float a x ltac:(lra) L) as (v & V1 & V4 & V2 & V3); [cbn [max_exp]; lra|].
    specialize (CT v V1). specialize (N v V1 (or_introl V2)). rewrite (Rabs_pos_eq a) in CT by exact A. rewrite Rabs_minus_sym, Rabs_pos_eq in CT by lra. rewrite Rabs_pos_eq in N by lra. lra.
Qed.

Lemma midpoint_bound : forall v, (midpoint_above Float v <= 16777216 * ulp_of Float v)%R.
Proof.
  intros v. pose proof (significand_range Float v) as [_ S]. change (2 ^ precision Float) with 16777216 in S.
  unfold midpoint_above, magnitude. fold (ulp_of Float v). assert (U : (0 < ulp_of Float v)%R) by apply bpow_gt_0.
  assert (IZR (significand Float v) <= 16777215)%R by (apply IZR_le; lia). nra.
Qed.

Lemma b53_small : (bpow radix2 (-53) * 67108864 <= / 8192)%R.
Proof.
  change 67108864%R with (bpow radix2 26). rewrite <- bpow_plus. change (/ 8192)%R with (bpow radix2 (-13)). apply bpow_le. lia.
Qed.

(** C113: A double that a float of normal precision can stand for -- at least 2 * 10^-42, at most the largest float, not within 1/25
    of a unit (of float) of a point half way between two floats, nor within one unit of a power of two -- is printed as a text that
    is read as the float it is narrowed to; the fallback is not called. *)
Theorem C113_read_narrowed : forall w n c rest want fb errno, nonzero Double w -> well_formed n -> prints Double w (written n) -> ends_number c ->
  (2 * pow10 (-42) <= Rabs (real_of Double w) <= bpow radix2 128 * (1 - bpow radix2 (-24)))%R ->
  clear_of_ties Float (/ 25) (real_of Double w) -> away_from_powers (real_of Double w) ->
  exists u, atof (fmt_of Float) (written n ++ c :: rest) want fb errno = Ok (answer want errno u success (len (written n))) /\
    finite Float u /\ real_of Float u = rnd Float (real_of Double w) /\ (negative Float u <-> negative Double w).
Proof.
  intros w n c rest want fb errno Nw W P Hc [Lo Hi] CT AP.
  pose proof (printed_short Double w n Nw W P) as (_ & L & _).
  set (a := Rabs (real_of Double w)) in *. assert (Ea : a = magnitude Double w) by apply abs_real.
  assert (T42 : (bpow radix2 (-140) <= pow10 (-42))%R).
  { change (pow10 (-42)) with (/ IZR (10 ^ 42))%R. change (bpow radix2 (-140)) with (/ IZR (2 ^ 140))%R.
    apply Rinv_le; [apply IZR_lt; reflexivity|apply IZR_le]. vm_compute. discriminate. }
  pose proof (bpow_gt_0 radix2 (-140)) as B140. pose proof (bpow_gt_0 radix2 (-53)) as B53. pose proof b53_small as BS.
  assert (A0 : (bpow radix2 (-140) <= a)%R) by lra.
  assert (NI : (Rabs (abs_value n - a) <= bpow radix2 (-53) * a)%R).
  { rewrite Ea. apply near_itself; try assumption. rewrite <- Ea. apply Rle_trans with (2 := A0). apply bpow_le. lia. }
  pose proof NI as NI'. apply Rabs_le_inv in NI'.
  set (x := abs_value n) in *. set (b := bpow radix2 (-53)) in *.
  assert (X0 : (/ 2 * a <= x)%R) by nra.
  assert (X1 : (0 < x)%R) by lra.
  assert (CA : clear_of_ties Float (/ 25) a). { intros v V. specialize (CT v V). fold a in CT. unfold a in CT |- *. rewrite Rabs_Rabsolu. exact CT. }
  assert (RM : (rnd Float a < bpow radix2 128)%R).
  { apply (rnd_mono Float) in Hi. apply Rle_lt_trans with (1 := Hi).
    assert (E : (bpow radix2 128 * (1 - bpow radix2 (-24)))%R = F2R (Defs.Float radix2 (2 ^ 24 - 1) 104)).
    { unfold F2R. cbn [Fnum Fexp]. rewrite minus_IZR. change (IZR (2 ^ 24)) with (bpow radix2 24).
      replace (bpow radix2 128) with (bpow radix2 24 * bpow radix2 104)%R by (rewrite <- bpow_plus; reflexivity).
      assert (I : (bpow radix2 24 * bpow radix2 (-24) = 1)%R) by (rewrite <- bpow_plus; reflexivity).
      transitivity (bpow radix2 24 * bpow radix2 104 - bpow radix2 24 * bpow radix2 (-24) * bpow radix2 104)%R; [ring|]. rewrite I. ring. }
    unfold rnd. rewrite round_generic; [|typeclasses eauto|].
    - pose proof (bpow_gt_0 radix2 128). pose proof (bpow_gt_0 radix2 (-24)). nra.
    - rewrite E. apply generic_format_FLT. exists (Defs.Float radix2 (2 ^ 24 - 1) 104); [reflexivity|cbn; lia|cbn; lia]. }
  assert (NR : forall v, finite Float v -> (a <= 2 * midpoint_above Float v)%R -> (b * a <= / 8192 * ulp_of Float v)%R).
  { intros v V C. pose proof (midpoint_bound v) as MB. assert (U : (0 < ulp_of Float v)%R) by apply bpow_gt_0.
    apply Rle_trans with (b * (67108864 * ulp_of Float v))%R; [apply Rmult_le_compat_l; lra|]. rewrite <- Rmult_assoc. apply Rmult_le_compat_r; lra. }
  assert (SR : rnd Float x = rnd Float a).
  { apply (same_side a x (/ 25)); try lra; try assumption. intros v V C. assert (U : (0 < ulp_of Float v)%R) by apply bpow_gt_0.
    apply Rle_lt_trans with (1 := NI). apply Rle_lt_trans with (/ 8192 * ulp_of Float v)%R; [apply NR; [exact V|lra]|]. lra. }
  assert (CX : clear_of_ties Float (any_length_margin Float) (value n)).
  { intros v V. rewrite value_abs by exact W. fold x. cbn [any_length_margin]. assert (U : (0 < ulp_of Float v)%R) by apply bpow_gt_0.
    specialize (CA v V). rewrite (Rabs_pos_eq a) in CA by lra.
    destruct (Rle_or_lt a (2 * midpoint_above Float v)) as [C|C].
    - specialize (NR v V C). revert CA NI. unfold Rabs. destruct (Rcase_abs (a - midpoint_above Float v)), (Rcase_abs (x - midpoint_above Float v)), (Rcase_abs (x - a)); intros; lra.
    - assert (MU : (/ 2 * ulp_of Float v <= midpoint_above Float v)%R).
      { unfold midpoint_above, magnitude. fold (ulp_of Float v). pose proof (significand_range Float v) as [S _]. apply IZR_le in S. nra. }
      assert (b * a <= / 8192 * a)%R by (apply Rmult_le_compat_r; lra). rewrite Rabs_pos_eq by lra. lra. }
  assert (IR : in_range Float (value n)).
  { split; [rewrite value_abs by exact W; fold x|rewrite rnd_value_abs by exact W; fold x; rewrite SR; exact RM].
    cbn [min_exp]. assert (bpow radix2 (-149) <= / 2 * bpow radix2 (-140))%R; [|lra]. change (/ 2)%R with (bpow radix2 (-1)). rewrite <- bpow_plus. apply bpow_le. lia. }
  assert (PW : forall k, (bpow radix2 (k - 23) = bpow radix2 k * bpow radix2 (-23))%R) by (intros; rewrite <- bpow_plus; f_equal; lia).
  assert (E23 : (bpow radix2 (-23) = 1073741824 * b)%R).
  { unfold b. change 1073741824%R with (bpow radix2 30). rewrite <- bpow_plus. reflexivity. }
  assert (E24 : (bpow radix2 (-24) = 536870912 * b)%R).
  { unfold b. change 536870912%R with (bpow radix2 29). rewrite <- bpow_plus. reflexivity. }
  assert (AP' : forall k, (bpow radix2 k * (1073741824 * b) <= Rabs (a - bpow radix2 k))%R) by (intros k; rewrite <- E23, <- PW; apply AP).
  assert (NC : ~ carries Float (value n)).
  { intros (k & K1 & K2 & K3). rewrite value_abs in K2 by exact W. rewrite rnd_value_abs in K3 by exact W. fold x in K2, K3. cbn [min_exp precision] in K1.
    assert (K0 : (bpow radix2 (-149 + 24 - 1) <= bpow radix2 k)%R) by (now apply bpow_le).
    assert (RE : (Rabs (rnd Float x - x) <= 536870912 * b * bpow radix2 k)%R).
    { destruct (Rle_or_lt (bpow radix2 (min_exp Float + precision Float - 1)) x) as [NX|NX].
      - assert (RE : (Rabs (rnd Float x - x) <= 536870912 * b * x)%R).
        { rewrite <- E24. unfold rnd. eapply Rle_trans.
          + apply (relative_error_N_FLT radix2 (min_exp Float) (precision Float) ltac:(cbn; lia) (fun z => negb (Z.even z)) x). rewrite Rabs_pos_eq by lra. exact NX.
          + rewrite Rabs_pos_eq by lra. change (- precision Float + 1) with (-23). change (-23) with (1 + -24). rewrite bpow_plus. change (bpow radix2 1) with 2%R. lra. }
        nra.
      - unfold rnd. eapply Rle_trans; [apply (error_le_half_ulp radix2 (FLT_exp (min_exp Float) (precision Float)) (fun z => negb (Z.even z)) x)|].
        assert (UL : ulp radix2 (FLT_exp (min_exp Float) (precision Float)) x = bpow radix2 (-149)).
        { apply ulp_FLT_small; [unfold Prec_gt_0; cbn; lia|]. rewrite Rabs_pos_eq by lra. cbn [min_exp precision] in *. apply Rlt_le_trans with (1 := NX). apply bpow_le. lia. }
        rewrite UL. replace (bpow radix2 (-149)) with (bpow radix2 (-24) * (2 * bpow radix2 (-149 + 24 - 1)))%R.
        + rewrite E24. replace (/ 2 * (536870912 * b * (2 * bpow radix2 (-149 + 24 - 1))))%R with (536870912 * b * bpow radix2 (-149 + 24 - 1))%R by field. apply Rmult_le_compat_l; [lra|exact K0].
        + change 2%R with (bpow radix2 1). rewrite <- !bpow_plus. reflexivity. }
    rewrite K3 in RE. specialize (AP' k). rewrite Rabs_pos_eq in RE by lra.
    assert (b * a <= b * (4 * bpow radix2 k))%R by (apply Rmult_le_compat_l; lra). 
    pose proof (bpow_gt_0 radix2 k) as Bk. set (p := bpow radix2 k) in *. clearbody p.
    assert (Q : (0 < b * p)%R) by now apply Rmult_lt_0_compat.
    replace (p * (1073741824 * b))%R with (1073741824 * (b * p))%R in AP' by ring.
    replace (536870912 * b * p)%R with (536870912 * (b * p))%R in RE by ring. replace (b * (4 * p))%R with (4 * (b * p))%R in * by ring.
    revert AP'. unfold Rabs. destruct (Rcase_abs (a - p)); intros; lra. }
  assert (NJ : ~ just_above_power Float (any_length_margin Float) (value n)).
  { intros (k & K1 & K2 & K3). rewrite value_abs in K2, K3 by exact W. fold x in K2, K3. cbn [any_length_margin precision] in K3. change (1 - 24) with (-23) in K3. rewrite E23 in K3.
    specialize (AP' k). pose proof (bpow_gt_0 radix2 k) as Bk. set (p := bpow radix2 k) in *. clearbody p.
    assert (Q : (0 < b * p)%R) by now apply Rmult_lt_0_compat.
    assert (S8 : (b * 1073741824 <= 1)%R) by lra.
    assert (X3 : (x <= 2 * p)%R) by nra.
    assert (b * a <= b * (4 * p))%R by (apply Rmult_le_compat_l; lra).
    replace (p * (1073741824 * b))%R with (1073741824 * (b * p))%R in AP' by ring.
    replace (p * (1 + 31 / 800 * (1073741824 * b)))%R with (p + 31 / 800 * 1073741824 * (b * p))%R in K3 by field. replace (b * (4 * p))%R with (4 * (b * p))%R in * by ring.
    revert AP'. unfold Rabs. destruct (Rcase_abs (a - p)); intros; lra. }
  destruct (C30_any_length Float n c rest want fb errno W Hc L IR) as (u & U1 & U2); try assumption.
  { intros _. rewrite value_abs by exact W. fold x. assert (0 < pow10 (-42))%R by lra. nra. }
  exists u. split; [exact U1|]. destruct U2 as [(_ & F & RV & NG)|[C _]]; [|exfalso; destruct IR as [_ IR]; lra].
  destruct (C01_reads_back Double w n Nw W P) as (_ & RB & CR).
  assert (NF : negative Double w <-> is_minus (n_sign n) = true).
  { destruct CR as [(_ & _ & _ & X)|[C1 C2]]; [exact X|]. exfalso. rewrite C2 in Nw. destruct Nw as [[_ Fw] _]. revert Fw. destruct (is_minus (n_sign n)); vm_compute; congruence. }
  split; [exact F|]. split; [|rewrite NF; exact NG].
  rewrite RV. unfold value. fold x. unfold real_of. rewrite Ea in SR. unfold negative in NF.
  destruct (is_minus (n_sign n)).
  - rewrite (proj2 NF eq_refl). cbn [Z.eqb Pos.eqb]. rewrite !rnd_opp. now rewrite SR.
  - destruct (Z.eqb_spec (sign_field Double w) 1) as [e|e]; [exfalso; apply NF in e; discriminate|]. exact SR.
Qed.
