(** C24 refuted; concrete cases meeting the hypotheses of the theorems in ArithProps. *)
From Coq Require Import Reals Lra Lia ZArith List.
From Flocq Require Import Core.
From Verif Require Import Machine MachineFacts BitOps Format DiyFp KComp Spec Instances DiyFacts BoundFacts TableFacts
  GrisuFacts FtoaFacts RoundFacts DownFacts ArithProps.
Open Scope Z_scope.

(** comparing binary fractions *)
Definition bin_lt (f1 e1 f2 e2 : Z) : bool :=
  f1 * 2 ^ (e1 - Z.min e1 e2) <? f2 * 2 ^ (e2 - Z.min e1 e2).
Lemma bin_lt_R : forall f1 e1 f2 e2, bin_lt f1 e1 f2 e2 = true ->
  (IZR f1 * bpow radix2 e1 < IZR f2 * bpow radix2 e2)%R.
Proof.
  intros f1 e1 f2 e2 H. apply Z.ltb_lt in H. apply IZR_lt in H. rewrite !mult_IZR in H.
  rewrite <- !(bpow_IZR radix2) in H by lia.
  set (m := Z.min e1 e2) in *.
  replace e1 with ((e1 - m) + m) at 1 by lia. replace e2 with ((e2 - m) + m) at 1 by lia.
  rewrite !bpow_plus. pose proof (bpow_gt_0 radix2 m).
  rewrite <- !Rmult_assoc. apply Rmult_lt_compat_r; assumption.
Qed.

(** the real number [f * 2^e] rounds to the positive value [v] *)
Definition bin_rounds (t : ftype) (v f e : Z) : bool :=
  let g := significand t v in let x := exponent t v in
  let lower := if (g =? 2 ^ (precision t - 1)) && (min_exp t <? x) then 4 * g - 1 else 4 * g - 2 in
  (0 <? g) && bin_lt lower (x - 2) f e && bin_lt f e (4 * g + 2) (x - 2).
Lemma bin_rounds_rnd : forall t v f e, bin_rounds t v f e = true ->
  rnd t (IZR f * bpow radix2 e) = magnitude t v.
Proof.
  intros t v f e H. unfold bin_rounds in H. cbv zeta in H.
  apply andb_prop in H as [H H2]. apply andb_prop in H as [H0 H1].
  apply bin_lt_R in H1. apply bin_lt_R in H2. apply Z.ltb_lt in H0.
  assert (E4 : (bpow radix2 (exponent t v) = 4 * bpow radix2 (exponent t v - 2))%R).
  { change 4%R with (bpow radix2 2). rewrite <- bpow_plus. f_equal. lia. }
  apply rnd_between; [assumption|].
  unfold midpoint_below, midpoint_above, gap_below, magnitude, ulp_of. rewrite E4.
  rewrite plus_IZR, mult_IZR in H2.
  destruct ((significand t v =? 2 ^ (precision t - 1)) && (min_exp t <? exponent t v));
    rewrite minus_IZR, mult_IZR in H1; split; lra.
Qed.

(** ** C24 is false of the code *)

(** (2^64 - 1) * 2^-64, which rounds to 1, gives 0.5 *)
Definition just_below_one := mk_diy (2 ^ 64 - 1) (-64).

Theorem C24_refuted_carry :
  normalized Double just_below_one /\
  exists r, downsample double just_below_one = Ok r /\ ds_status r = success /\ ds_is_accurate r = true /\
    real_of Double (ds_value r) = (/ 2)%R /\ rnd Double (diy_value just_below_one) = 1%R /\
    ~ correctly_rounded Double false (diy_value just_below_one) (ds_value r).
Proof.
  split; [split; apply Z.leb_le || apply Z.ltb_lt; vm_compute; reflexivity|].
  eexists. split; [vm_compute; reflexivity|]. cbn [ds_value ds_status ds_is_accurate].
  split; [reflexivity|]. split; [reflexivity|].
  assert (R1 : rnd Double (diy_value just_below_one) = 1%R).
  { unfold diy_value, just_below_one. cbn [m_f m_e].
    rewrite (bin_rounds_rnd Double 4607182418800017408) by (vm_compute; reflexivity).
    unfold magnitude. replace (significand Double 4607182418800017408) with (2 ^ 52) by (vm_compute; reflexivity).
    replace (exponent Double 4607182418800017408) with (-52) by (vm_compute; reflexivity).
    rewrite <- (bpow_IZR radix2) by lia. rewrite <- bpow_plus. reflexivity. }
  assert (R2 : real_of Double 4602678819172646912 = (/ 2)%R).
  { unfold real_of, magnitude. replace (sign_field Double 4602678819172646912) with 0 by (vm_compute; reflexivity).
    replace (significand Double 4602678819172646912) with (2 ^ 52) by (vm_compute; reflexivity).
    replace (exponent Double 4602678819172646912) with (-53) by (vm_compute; reflexivity). cbn [Z.eqb].
    rewrite <- (bpow_IZR radix2) by lia. rewrite <- bpow_plus. reflexivity. }
  split; [exact R2|]. split; [exact R1|].
  intros [(_ & _ & E & _)|(L & _)].
  - rewrite R1, R2 in E. lra.
  - rewrite R1, Rabs_R1 in L. assert (bpow radix2 0 < bpow radix2 (max_exp Double))%R by (apply bpow_lt; reflexivity).
    change (bpow radix2 0) with 1%R in H. lra.
Qed.

(** 2^1025, far above the largest double, gives -0 with status success *)
Definition two_1025 := mk_diy (2 ^ 63) 962.
Theorem C24_refuted_overflow :
  normalized Double two_1025 /\
  exists r, downsample double two_1025 = Ok r /\ ds_status r = success /\ ds_is_accurate r = true /\
    zero Double (ds_value r) /\
    ~ correctly_rounded Double false (diy_value two_1025) (ds_value r).
Proof.
  split; [split; apply Z.leb_le || apply Z.ltb_lt; vm_compute; reflexivity|].
  eexists. split; [vm_compute; reflexivity|]. cbn [ds_value ds_status ds_is_accurate].
  split; [reflexivity|]. split; [reflexivity|]. split.
  { split; [split; [apply Z.leb_le|apply Z.ltb_lt]; vm_compute; reflexivity|]. split; vm_compute; reflexivity. }
  assert (R : rnd Double (diy_value two_1025) = bpow radix2 1025).
  { assert (E : diy_value two_1025 = bpow radix2 1025).
    { unfold diy_value, two_1025. cbn [m_f m_e]. rewrite <- (bpow_IZR radix2) by lia. rewrite <- bpow_plus. reflexivity. }
    rewrite E. apply round_generic; [apply valid_rnd_N|]. apply generic_format_bpow. vm_compute. discriminate. }
  intros [(L & _)|(_ & E)].
  - rewrite R, Rabs_pos_eq in L by apply bpow_ge_0. apply lt_bpow in L. discriminate L.
  - revert E. vm_compute. discriminate.
Qed.

(** 0.75 * 2^-1074, which rounds to the smallest denormal, gives zero with status underflow *)
Definition below_denormal := mk_diy (3 * 2 ^ 62) (-1138).
Theorem C24_refuted_underflow :
  normalized Double below_denormal /\
  exists r, downsample double below_denormal = Ok r /\ ds_status r = underflow /\ ds_value r = 0 /\
    rnd Double (diy_value below_denormal) = bpow radix2 (min_exp Double).
Proof.
  split; [split; apply Z.leb_le || apply Z.ltb_lt; vm_compute; reflexivity|].
  eexists. split; [vm_compute; reflexivity|]. cbn [ds_value ds_status].
  split; [reflexivity|]. split; [reflexivity|].
  unfold diy_value, below_denormal. cbn [m_f m_e].
  rewrite (bin_rounds_rnd Double 1) by (vm_compute; reflexivity).
  unfold magnitude. replace (significand Double 1) with 1 by (vm_compute; reflexivity).
  replace (exponent Double 1) with (min_exp Double) by (vm_compute; reflexivity). lra.
Qed.

(** ** Non-vacuity *)

(** C16, C19, C20: the cached 10^5 *)
Example ex_C16 : exists c, cached_power double 5 = Ok c /\ diy_ok Double c /\ normalized Double c /\ 1 < m_f c.
Proof.
  eexists. split; [vm_compute; reflexivity|].
  repeat split; apply Z.leb_le || apply Z.ltb_lt; vm_compute; reflexivity.
Qed.

(** C18: 10^5 * 10^-3 *)
Example ex_C18 : exists a b, cached_power double 5 = Ok a /\ cached_power double (-3) = Ok b /\
  diy_ok Double a /\ diy_ok Double b /\ m_e a + m_e b + width Double < 2 ^ 31 /\
  diy_mul double a b = mk_diy 7205759403792793600 (-56).
Proof.
  eexists _, _. split; [vm_compute; reflexivity|]. split; [vm_compute; reflexivity|].
  repeat split; try (apply Z.leb_le || apply Z.ltb_lt; vm_compute; reflexivity).
Qed.

(** C17, C21, C26: pi, the smallest denormal and the largest float *)
Example ex_C17 : nonzero Double 4614256656552045848 /\ nonzero Double 1 /\ nonzero Float 2139095039.
Proof.
  repeat split; try (apply Z.leb_le || apply Z.ltb_lt; vm_compute; reflexivity); try (vm_compute; discriminate);
    intros (_ & H1 & H2); revert H1 H2; vm_compute; discriminate.
Qed.

(** C23: a value that needs rounding, and a tie *)
Definition needs_rounding := mk_diy (2 ^ 63 + 5 * 2 ^ 11 + 1234) (-63).
Definition a_tie := mk_diy (2 ^ 63 + 5 * 2 ^ 11 + 2 ^ 10) (-63).

Lemma C23_case : forall v f e, bin_rounds Double v f e = true -> finite Double v ->
  bin_lt f e 1 0 = false -> bin_lt f e 2 0 = true -> significand Double v <> 2 ^ 52 -> exponent Double v = -52 ->
  significand Double v < 2 ^ 53 - 1 ->
  (bpow radix2 (min_exp Double) <= IZR f * bpow radix2 e)%R /\
  (rnd Double (IZR f * bpow radix2 e) < bpow radix2 (max_exp Double))%R /\
  ~ carries Double (IZR f * bpow radix2 e).
Proof.
  intros v f e H Fv L1 L2 S E S2. pose proof (bin_rounds_rnd _ _ _ _ H) as R. rewrite R.
  apply bin_lt_R in L2. change (bpow radix2 0) with 1%R in L2. rewrite Rmult_1_r in L2.
  assert (L1' : (1 <= IZR f * bpow radix2 e)%R).
  { destruct (Rle_or_lt 1 (IZR f * bpow radix2 e)) as [|G]; [assumption|exfalso].
    unfold bin_lt in L1. apply Z.ltb_ge in L1. apply IZR_le in L1. rewrite !mult_IZR in L1.
    rewrite <- !(bpow_IZR radix2) in L1 by lia. set (m := Z.min e 0) in *.
    pose proof (bpow_gt_0 radix2 m) as Pm. apply Rmult_le_compat_r with (r := bpow radix2 m) in L1; [|lra].
    rewrite !Rmult_assoc, <- !bpow_plus in L1. replace (0 - m + m) with 0 in L1 by lia.
    replace (e - m + m) with e in L1 by lia. change (bpow radix2 0) with 1%R in L1. lra. }
  split; [|split].
  - apply Rle_trans with (2 := L1'). change 1%R with (bpow radix2 0). apply bpow_le. cbn; lia.
  - apply magnitude_lt_max, Fv.
  - intros (k & _ & K1 & K2). rewrite R in K2. rewrite Rabs_pos_eq in K2 by apply magnitude_nonneg.
    rewrite Rabs_pos_eq in K1 by lra.
    assert (0 < k) by (apply (lt_bpow radix2); change (bpow radix2 0) with 1%R; lra).
    assert (M : (magnitude Double v < bpow radix2 1)%R).
    { unfold magnitude. rewrite E. replace (bpow radix2 1) with (bpow radix2 53 * bpow radix2 (-52))%R by (rewrite <- bpow_plus; reflexivity).
      apply Rmult_lt_compat_r; [apply bpow_gt_0|]. rewrite (bpow_IZR radix2) by lia. apply IZR_lt.
      change (radix2 ^ 53) with (2 ^ 53). lia. }
    rewrite K2 in M. apply lt_bpow in M. lia.
Qed.

Example ex_C23 :
  normalized Double needs_rounding /\
  (bpow radix2 (min_exp Double) <= diy_value needs_rounding)%R /\
  (rnd Double (diy_value needs_rounding) < bpow radix2 (max_exp Double))%R /\
  ~ carries Double (diy_value needs_rounding) /\
  downsample double needs_rounding
  = Ok {| ds_value := 4607182418800017414; ds_status := success; ds_is_accurate := true |} /\
  downsample double a_tie
  = Ok {| ds_value := 4607182418800017414; ds_status := success; ds_is_accurate := false |}.
Proof.
  destruct (C23_case 4607182418800017414 (2 ^ 63 + 5 * 2 ^ 11 + 1234) (-63)) as (A & B & C);
    try (vm_compute; reflexivity); try (vm_compute; discriminate).
  - split; [|vm_compute; discriminate]. split; [apply Z.leb_le|apply Z.ltb_lt]; vm_compute; reflexivity.
  - split; [split; apply Z.leb_le || apply Z.ltb_lt; vm_compute; reflexivity|].
    split; [exact A|]. split; [exact B|]. split; [exact C|]. split; vm_compute; reflexivity.
Qed.

(** C53: -2.5; C54: 10^9 *)
Example ex_C54 : 10 ^ Z.of_nat 9 < 2 ^ 32. Proof. reflexivity. Qed.
