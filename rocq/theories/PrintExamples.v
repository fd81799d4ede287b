(** Concrete values that meet the hypotheses of the printing theorems. *)
From Coq Require Import String Ascii Reals Lra List.
From Flocq Require Import Core.
From Verif Require Import Machine Format Ftoa Spec Instances Api CmpFacts PrintProps PrintProps2 PrintProps3.
Open Scope Z_scope.

Ltac wf := unfold well_formed; cbn [n_int frac_digits n_frac n_exp x_digits n_sign];
  repeat split; try discriminate; repeat constructor; unfold digit; lia.
Ltac nz := repeat split; try (vm_compute; congruence); intros (_ & ? & ?); vm_compute in *; congruence.
Ltac pr := apply prints_eval; [split; [discriminate|reflexivity]|vm_compute; reflexivity].

(** -1.5e300 as a double, 0.1f as a float, the smallest double *)
Definition ex1 := {| n_sign := Minus; n_int := [1]; n_frac := Some [5];
  n_exp := Some {| x_upper := false; x_sign := NoSign; x_digits := [3;0;0] |} |}.
Definition ex2 := {| n_sign := NoSign; n_int := [0]; n_frac := Some [1]; n_exp := None |}.
Definition ex3 := {| n_sign := NoSign; n_int := [7]; n_frac := Some [4;1;0;9;8;4;6;8];
  n_exp := Some {| x_upper := false; x_sign := Minus; x_digits := [3;2;4] |} |}.
Definition v1 := 18321183339337242677.
Definition v2 := 1036831949.

Example ex1_meets : nonzero Double v1 /\ normal Double v1 /\ well_formed ex1 /\ prints Double v1 (written ex1)
  /\ written ex1 = text "-1.5e300".
Proof. split; [nz|]. split; [repeat split; vm_compute; congruence|]. split; [wf|]. split; [pr|reflexivity]. Qed.

Example ex2_meets : nonzero Float v2 /\ normal Float v2 /\ well_formed ex2 /\ prints Float v2 (written ex2)
  /\ written ex2 = text "0.1".
Proof. split; [nz|]. split; [repeat split; vm_compute; congruence|]. split; [wf|]. split; [pr|reflexivity]. Qed.

Example ex3_meets : nonzero Double 1 /\ ~ normal Double 1 /\ well_formed ex3 /\ prints Double 1 (written ex3)
  /\ written ex3 = text "7.41098468e-324".
Proof. split; [nz|]. split; [intros [_ C]; vm_compute in C; congruence|]. split; [wf|]. split; [pr|reflexivity]. Qed.

(** C01 at work *)
Example ex1_reads_back : rnd Double (value ex1) = real_of Double v1.
Proof. destruct ex1_meets as (A & _ & B & C & _). apply (C01_reads_back Double v1 ex1 A B C). Qed.

(** C10: 1234567 as a float, 2^53 as a double *)
Example ex_int : finite Float 1234613304 /\ real_of Float 1234613304 = IZR 1234567 /\ 0 < Z.abs 1234567 <= 2 ^ precision Float.
Proof.
  split; [repeat split; vm_compute; congruence|]. split; [|split; vm_compute; congruence].
  unfold real_of, magnitude. replace (significand Float 1234613304) with 9876536 by (vm_compute; reflexivity).
  replace (exponent Float 1234613304) with (-3) by (vm_compute; reflexivity). cbn. lra.
Qed.
Example ex_int_big : prints Double 4845873199050653696 (text "9007199254740992").
Proof. pr. Qed.

(** C11, C12: the shrunk interval of 0.1f contains 1 * 10^-1, which has 1 <= 6 digits *)
Example ex_short : (midpoint_below Float v2 + safety Float * ulp_of Float v2 <= IZR 1 * pow10 (-1)
     <= midpoint_above Float v2 - safety Float * ulp_of Float v2)%R.
Proof.
  unfold midpoint_below, midpoint_above, gap_below, magnitude, ulp_of, safety.
  replace (significand Float v2) with 13421773 by (vm_compute; reflexivity).
  replace (exponent Float v2) with (-27) by (vm_compute; reflexivity).
  change (13421773 =? 2 ^ (precision Float - 1)) with false. cbn [andb]. cbn. lra.
Qed.

(** ... and so do many denormal numbers: 1e-310 as a double *)
Definition v5 : Z := 20240225330731.
Example ex_denormal : enough_bits Double v5 /\ ~ normal Double v5 /\ 0 < 1 < significand Double v5 - 1 /\
  prints Double v5 (text "1e-310").
Proof.
  split; [split; [nz|vm_compute; congruence]|]. split; [intros [_ C]; vm_compute in C; congruence|].
  split; [split; vm_compute; reflexivity|pr].
Qed.

(** C05 *)
Example ex_nan : nan Double 18444492273895866368 /\ nan Float 2143289345.
Proof. split; repeat split; vm_compute; congruence. Qed.
(** C06: infinity is not negative *)
Example ex_inf : infinite Float (infinity_of Float false) /\ ~ negative Float (infinity_of Float false).
Proof. split; [repeat split; vm_compute; congruence|vm_compute; congruence]. Qed.
(** C14: two neighbouring doubles *)
Example ex_neighbours : nonzero Double v1 /\ nonzero Double (v1 + 1) /\ (real_of Double (v1 + 1) < real_of Double v1)%R.
Proof.
  split; [nz|]. split; [nz|].
  unfold real_of, magnitude.
  replace (sign_field Double v1) with 1 by (vm_compute; reflexivity). replace (sign_field Double (v1+1)) with 1 by (vm_compute; reflexivity).
  replace (exponent Double v1) with 945 by (vm_compute; reflexivity). replace (exponent Double (v1+1)) with 945 by (vm_compute; reflexivity).
  cbn [Z.eqb Pos.eqb]. apply Ropp_lt_contravar. apply Rmult_lt_compat_r; [apply bpow_gt_0|]. apply IZR_lt. vm_compute. reflexivity.
Qed.
