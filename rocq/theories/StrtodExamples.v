(** Texts for which strtod is not good enough as the fallback for floats, and one for which it is. *)
From Coq Require Import Reals Lra Lia ZArith List String Ascii.
From Flocq Require Import Core.
From Verif Require Import Machine MachineFacts BitOps StaticPow Fraction Format DiyFp KComp Chars Krosh Atof Spec ParseSpec Api ParseApi Instances
  DiyFacts BoundFacts TableFacts GrisuFacts ShownFacts RoundFacts ArithProps CmpFacts GapFacts KroshNum ParseProps Refuted GoodFallback ParseExamples Ieee Narrow NarrowExamples Strtod.
Import ListNotations.
Open Scope Z_scope.

(** 8.30628079e-15: with strtod as the fallback the next float is returned; with strtof the right one *)
Theorem C117_refuted : written p109 = text "8.30628079e-15" /\ short_decimal Float p109 /\
  correctly_rounded Float false (value p109) v109 /\
  forall fb fb_f want errno, good_fallback Double fb -> as_float_fallback fb fb_f -> errno <> ERANGE ->
    atof (fmt_of Float) (written p109 ++ [0]) want fb_f errno =
      Ok {| at_value := v109 + 1; at_status := success; at_str_end := if want then Some 14 else None; at_errno := errno; at_used_fallback := true |}.
Proof.
  assert (W : well_formed p109) by wfn. assert (F : finite Float v109) by fin. assert (F' : finite Float (v109 + 1)) by fin. assert (FD : finite Double d109) by fin.
  assert (E : value p109 = (IZR (coefficient p109) * pow10 (scale p109))%R) by reflexivity.
  assert (RF : rnd Float (value p109) = magnitude Float v109) by (rewrite E; apply rounds_strictly_rnd; vm_compute; reflexivity).
  assert (RD : rnd Double (value p109) = magnitude Double d109) by (rewrite E; apply rounds_strictly_rnd; vm_compute; reflexivity).
  destruct (meets_range Float p109 v109 W F) as [A B]; [vm_compute; reflexivity|vm_compute; congruence|vm_compute; congruence|].
  assert (SD : short_decimal Float p109).
  { exists 830628079, 0. split; [vm_compute; split; congruence|]. split; [lia|]. split; [reflexivity|]. intros _. vm_compute. congruence. }
  destruct (as_double p109 W SD A) as (_ & AD & _).
  split; [reflexivity|]. split; [exact SD|]. split.
  { left. destruct A as [_ A]. split; [exact A|]. split; [exact F|]. split; [rewrite RF; reflexivity|]. split; intros C; vm_compute in C; congruence. }
  intros fb ff want errno G AF NE.
  destruct (called p109 0 [] fb ff errno W nul_ends A AD G AF) as (u & U1 & U2).
  assert (U : u = v109 + 1).
  { apply (C81_unique Float _ _ _ _ U2). rewrite RD, half_way. left. rewrite tie_up by (vm_compute; congruence).
    assert (N : (magnitude Float v109 + ulp_of Float v109)%R = magnitude Float (v109 + 1)).
    { assert (Q : forall m b, (IZR m * b + b = IZR (m + 1) * b)%R) by (intros; rewrite plus_IZR; ring).
      unfold magnitude, ulp_of. replace (significand Float (v109 + 1)) with (significand Float v109 + 1) by (vm_compute; reflexivity).
      replace (exponent Float (v109 + 1)) with (exponent Float v109) by (vm_compute; reflexivity). apply Q. }
    rewrite N. split; [|split; [exact F'|split; [reflexivity|split; intros C; vm_compute in C; congruence]]].
    rewrite Rabs_pos_eq by (unfold magnitude; apply Rmult_le_pos; [apply IZR_le; vm_compute; congruence|apply bpow_ge_0]). now apply magnitude_lt_max. }
  subst u. transitivity (fallback_answer Float (written p109 ++ [0]) want ff errno).
  { run. }
  unfold fallback_answer. rewrite U1. cbn [fb_value fb_str_end fb_errno]. unfold check_errno. destruct (Z.eqb_spec errno ERANGE); [contradiction|reflexivity].
Qed.

(** 3.4028235678e38: strtof would return infinity and set errno to ERANGE, and the status would be overflow; strtod finds nothing wrong, and
    the status of the infinity is success *)
Definition p117 : numeral := nume NoSign [3] (Some [4;0;2;8;2;3;5;6;7;8]) NoSign [3;8].
Definition d117 : Z := 5183643170835012490.
Theorem C117_refuted_overflow : written p117 = text "3.4028235678e38" /\ (bpow radix2 128 <= Rabs (rnd Float (value p117)))%R /\
  forall fb fb_f want errno, good_fallback Double fb -> as_float_fallback fb fb_f -> errno <> ERANGE ->
    atof (fmt_of Float) (written p117 ++ [0]) want fb_f errno =
      Ok {| at_value := infinity_of Float false; at_status := success; at_str_end := if want then Some 15 else None; at_errno := errno; at_used_fallback := true |}.
Proof.
  assert (W : well_formed p117) by wfn. assert (FD : finite Double d117) by fin.
  assert (E : value p117 = (IZR (coefficient p117) * pow10 (scale p117))%R) by reflexivity.
  assert (RD : rnd Double (value p117) = magnitude Double d117) by (rewrite E; apply rounds_strictly_rnd; vm_compute; reflexivity).
  destruct (meets_range Double p117 d117 W FD) as [A _]; [vm_compute; reflexivity|vm_compute; congruence|vm_compute; congruence|].
  set (m := 2139095039).
  assert (MA : (midpoint_above Float m = IZR (2 ^ 128 - 2 ^ 103))%R).
  { unfold midpoint_above, ulp_of, magnitude. change (significand Float m) with 16777215. change (exponent Float m) with (1 + 103). rewrite bpow_plus.
    rewrite (bpow_IZR radix2 103) by lia. change (bpow radix2 1) with 2%R. change (2 ^ 128 - 2 ^ 103) with ((2 * 16777215 + 1) * 2 ^ 103). change (radix2 ^ 103) with (2 ^ 103).
    rewrite mult_IZR, plus_IZR, mult_IZR. field. }
  assert (TU : (rnd Float (midpoint_above Float m) = bpow radix2 128)%R).
  { rewrite tie_up by (vm_compute; congruence). unfold ulp_of, magnitude. change (significand Float m) with 16777215. change (exponent Float m) with 104.
    replace 128 with (24 + 104) by lia. rewrite bpow_plus, (bpow_IZR radix2 24) by lia. change (radix2 ^ 24) with 16777216. ring. }
  assert (DM : (midpoint_above Float m <= magnitude Double d117)%R).
  { rewrite MA. unfold magnitude. change (significand Double d117) with 9007198986312586. change (exponent Double d117) with 75.
    rewrite (bpow_IZR radix2 75) by lia. rewrite <- mult_IZR. apply IZR_le. vm_compute. congruence. }
  assert (VM : (midpoint_above Float m <= value p117)%R).
  { rewrite E, MA. change (coefficient p117) with 34028235678. change (scale p117) with 28. change (pow10 28) with (bpow radix10 28).
    rewrite (bpow_IZR radix10 28) by lia. rewrite <- mult_IZR. apply IZR_le. vm_compute. congruence. }
  assert (PB : (0 < bpow radix2 128)%R) by apply bpow_gt_0.
  split; [reflexivity|]. split.
  { apply (rnd_mono Float) in VM. rewrite TU in VM. rewrite Rabs_pos_eq by lra. exact VM. }
  intros fb ff want errno G AF NE. destruct (G p117 0 [] errno W nul_ends A) as (r & G1 & G2 & G3 & G4).
  specialize (AF (written p117 ++ [0]) errno). rewrite G1 in AF. destruct AF as (u & U1 & U2).
  destruct A as [A0 A]. destruct G4 as [(_ & D1 & D2 & D3)|[G4 _]]; [|exfalso; lra].
  destruct G2 as [G2|[_ G2]].
  2:{ exfalso. unfold below_normal in G2. rewrite RD in D2. apply (rnd_mono Float) in VM.
      assert (bpow radix2 (min_exp Double + precision Double - 1) <= bpow radix2 0)%R by (apply bpow_le; cbn; lia).
      assert (1 <= Rabs (value p117))%R.
      { rewrite E, Rabs_pos_eq; change (coefficient p117) with 34028235678; change (scale p117) with 28; rewrite (bpow_IZR radix10 28) by lia; rewrite <- mult_IZR; apply IZR_le; vm_compute; congruence. }
      change (bpow radix2 0) with 1%R in *. lra. }
  destruct (U1 D1) as (neg & N1 & N2). rewrite D2, RD in N2.
  assert (neg = false). { destruct neg; [|reflexivity]. assert (is_minus (n_sign p117) = true) by (apply D3, N1; reflexivity). discriminate. } subst neg.
  assert (U : u = infinity_of Float false).
  { destruct N2 as [[N2 _]|[_ N2]]; [|exact N2]. exfalso. apply (rnd_mono Float) in DM. rewrite TU in DM. apply Rabs_lt_inv in N2. cbn [max_exp] in N2. lra. }
  subst u. transitivity (fallback_answer Float (written p117 ++ [0]) want ff errno).
  { run. }
  unfold fallback_answer. rewrite U2, G2, G3. cbn [fb_value fb_str_end fb_errno]. unfold check_errno. destruct (Z.eqb_spec errno ERANGE); [contradiction|reflexivity].
Qed.
(** with strtof: any fallback that does what the C standard says when the result overflows *)
Theorem C117_overflow_by_strtof : forall fb want errno,
  fb (written p117 ++ [0]) errno = Ok {| fb_value := infinity_of Float false; fb_str_end := 15; fb_errno := ERANGE |} ->
  atof (fmt_of Float) (written p117 ++ [0]) want fb errno =
    Ok {| at_value := infinity_of Float false; at_status := overflow; at_str_end := if want then Some 15 else None; at_errno := ERANGE; at_used_fallback := true |}.
Proof.
  intros fb want errno H. transitivity (fallback_answer Float (written p117 ++ [0]) want fb errno).
  - run.
  - unfold fallback_answer. rewrite H. reflexivity.
Qed.

(** 0.1 meets the hypotheses, and fallbacks as required exist *)
Example C117_meets : exists fb fb_f, well_formed p2 /\ ends_number 0 /\ within_limits p2 /\ short_decimal Float p2 /\ in_range Float (value p2) /\
  ~ carries Float (value p2) /\ good_fallback Double fb /\ as_float_fallback fb fb_f /\ (0 <> ERANGE) /\ clear_of_ties Float (/ 128) (value p2).
Proof.
  exists (reference_fallback Double), (float_of_fallback (reference_fallback Double)). destruct (C29_meets Float) as (A & B & C & D & E & F).
  split; [exact A|]. split; [exact nul_ends|]. split; [exact B|]. split; [exact C|]. split; [exact D|]. split; [exact E|].
  split; [apply good_fallback_exists|]. split; [apply as_float_exists|]. split; [vm_compute; congruence|exact F].
Qed.
