(** Properties of atof that do not hold, each with a concrete text: C31, C33, C35, C36, C38,
    C39, C40, C41, C43, C44, C45, C50, C52; and the fallback protocol C42. *)
From Coq Require Import Reals Lra Lia ZArith List String Ascii.
From Flocq Require Import Core.
From Verif Require Import Machine MachineFacts BitOps StaticPow Fraction Format DiyFp KComp Krosh Atof Ftoa Spec ParseSpec ParseApi Api Instances
  DiyFacts BoundFacts TableFacts GrisuFacts FtoaFacts RoundFacts DownFacts DvalFacts CmpFacts ArithProps ScanFacts LoopFacts ParseFacts GapFacts KroshNum ShortFacts PrintProps PrintProps2 PrintProps3 ParseProps.
Open Scope Z_scope.

(** a text as a C string *)
Definition cstr (s : string) : list Z := text s ++ [0].

(** an unsigned number in pieces *)
Definition num (sg : signopt) (i : list Z) (f : option (list Z)) : numeral :=
  {| n_sign := sg; n_int := i; n_frac := f; n_exp := None |}.
Definition nume (sg : signopt) (i : list Z) (f : option (list Z)) (xs : signopt) (x : list Z) : numeral :=
  {| n_sign := sg; n_int := i; n_frac := f; n_exp := Some {| x_upper := false; x_sign := xs; x_digits := x |} |}.

Ltac wfn := unfold well_formed, num, nume; cbn [n_int frac_digits n_frac n_exp x_digits n_sign app];
  repeat split; try discriminate; repeat constructor; unfold digit; lia.
(** running atof on a literal text: the fallback and errno stay symbolic *)
Ltac run := intros; unfold atof; match goal with |- context [krosh ?T ?s] => let r := eval vm_compute in (krosh T s) in
    replace (krosh T s) with r by (vm_compute; reflexivity) end; reflexivity.

Lemma not_correct : forall t n u v, well_formed n -> is_minus (n_sign n) = false ->
  rounds_strictly t u (coefficient n) (scale n) = true -> nonzero t u -> u < 2 ^ (width t - 1) -> v <> u ->
  ~ correctly_rounded t false (value n) v.
Proof.
  intros t n u v W Hs Hr Nu Lu Nv C. apply rounds_strictly_rnd in Hr. unfold correctly_rounded, value in C.
  rewrite Hs in C. unfold abs_value in C. rewrite Hr in C. pose proof (proj1 Nu) as Fu.
  pose proof (magnitude_lt_max t u Fu) as Mm. pose proof (width_facts t) as Ww.
  assert (Su : sign_field t u = 0) by (unfold sign_field; apply Z.div_small; destruct Fu as [[? ?] _]; lia).
  assert (Ru : real_of t u = magnitude t u) by (unfold real_of; rewrite Su; reflexivity).
  assert (M0 : (0 <= magnitude t u)%R).
  { unfold magnitude. apply Rmult_le_pos; [apply IZR_le; pose proof (significand_range t u); lia|apply bpow_ge_0]. }
  destruct C as [(C1 & C2 & C3 & C4)|(C1 & _)].
  - apply Nv. apply (real_of_inj t); [|assumption|congruence].
    split; [assumption|]. intros (Z1 & Z2 & Z3).
    assert (real_of t v = 0%R).
    { unfold real_of, magnitude, significand. rewrite Z2, Z3. cbn [Z.eqb]. destruct (_ =? 1); ring. }
    destruct Nu as [_ Nu]. apply Nu.
    assert (magnitude t u = 0%R) by congruence.
    assert (significand t u = 0).
    { unfold magnitude in H0. pose proof (bpow_gt_0 radix2 (exponent t u)). apply eq_IZR. nra. }
    pose proof (pow2_pos (precision t - 1) ltac:(lia)).
    unfold significand in H1. split; [apply Fu|]. assert (0 <= frac_field t u) by (unfold frac_field; apply Z.mod_pos_bound; lia).
    destruct (Z.eqb_spec (exp_field t u) 0); [auto|lia].
  - rewrite Rabs_pos_eq in C1 by assumption. lra.
Qed.

Lemma not_correct_overflow : forall t n v, well_formed n -> is_minus (n_sign n) = false ->
  (bin_part 1 (max_exp t) (scale n) <? dec_part (coefficient n) (scale n) (max_exp t)) = true -> v <> infinity_of t false ->
  (bpow radix2 (max_exp t) <= rnd t (value n))%R /\ ~ correctly_rounded t false (value n) v.
Proof.
  intros t n v W Hs H Nv. apply bin_lt_dec in H. rewrite Rmult_1_l in H.
  assert (E : value n = (IZR (coefficient n) * pow10 (scale n))%R) by (unfold value; rewrite Hs; reflexivity).
  rewrite <- E in H.
  assert (B : (bpow radix2 (max_exp t) <= rnd t (value n))%R).
  { rewrite <- (rnd_bpow t (max_exp t)) by (destruct t; cbn; lia). apply rnd_mono. lra. }
  split; [exact B|]. intros [(C & _)|(_ & C)]; [|contradiction].
  rewrite Rabs_pos_eq in C by (pose proof (bpow_gt_0 radix2 (max_exp t)); lra). lra.
Qed.

(** C31: without the fallback the result can be wrong even away from powers of two *)
Theorem C31_refuted_wrong_without_fallback : exists n v, well_formed n /\
  (forall want fb errno, atof double (written n ++ [0]) want fb errno = Ok (answer want errno v success (len (written n)))) /\
  ~ correctly_rounded Double (is_minus (n_sign n)) (value n) v /\ written n = text "195923037611322171693172e-32".
Proof.
  exists (nume NoSign [1;9;5;9;2;3;0;3;7;6;1;1;3;2;2;1;7;1;6;9;3;1;7;2] None Minus [3;2]), 4476811558355415637.
  split; [wfn|]. split; [run|]. split; [|reflexivity].
  apply not_correct with 4476811558355415638; try (vm_compute; congruence).
  - wfn.
  - split; [repeat split; vm_compute; congruence|]. intros (_ & C & _). vm_compute in C. congruence.
Qed.

(** C32: rounding up to a power of two *)
Theorem C32_refuted_carry : exists n v, well_formed n /\
  (forall want fb errno, atof double (written n ++ [0]) want fb errno = Ok (answer want errno v success (len (written n)))) /\
  rnd Double (value n) = 1%R /\ real_of Double v = (/ 2)%R /\ written n = text "0.99999999999999999".
Proof.
  exists (num NoSign [0] (Some [9;9;9;9;9;9;9;9;9;9;9;9;9;9;9;9;9])), 4602678819172646912.
  split; [wfn|]. split; [run|]. split; [|split; [|reflexivity]].
  - transitivity (magnitude Double 4607182418800017408).
    + apply rounds_strictly_rnd with (d := 99999999999999999) (j := -17). vm_compute. reflexivity.
    + unfold magnitude. replace (significand Double 4607182418800017408) with (2 ^ 52) by (vm_compute; reflexivity).
      replace (exponent Double 4607182418800017408) with (-52) by (vm_compute; reflexivity).
      change (IZR (2 ^ 52)) with (IZR (radix2 ^ 52)). rewrite <- (bpow_IZR radix2 52) by lia. rewrite <- bpow_plus. reflexivity.
  - unfold real_of. change (sign_field Double 4602678819172646912 =? 1) with false. unfold magnitude.
    replace (significand Double 4602678819172646912) with (2 ^ 52) by (vm_compute; reflexivity).
    replace (exponent Double 4602678819172646912) with (-53) by (vm_compute; reflexivity).
    change (IZR (2 ^ 52)) with (IZR (radix2 ^ 52)). rewrite <- (bpow_IZR radix2 52) by lia. rewrite <- bpow_plus. reflexivity.
Qed.

(** C33: overflow reported as success, with a finite value or a NaN of whatever sign *)
Theorem C33_refuted_overflow_missed : exists n v n' v', well_formed n /\ well_formed n' /\
  (bpow radix2 (max_exp Double) <= rnd Double (value n))%R /\ (bpow radix2 (max_exp Double) <= rnd Double (value n'))%R /\
  (forall want fb errno, atof double (written n ++ [0]) want fb errno = Ok (answer want errno v success (len (written n)))) /\
  (forall want fb errno, atof double (written n' ++ [0]) want fb errno = Ok (answer want errno v' success (len (written n')))) /\
  finite Double v /\ negative Double v /\ nan Double v' /\
  written n = text "1e309" /\ written n' = text "2e308".
Proof.
  exists (nume NoSign [1] None NoSign [3;0;9]), 9229635062979803848, (nume NoSign [2] None NoSign [3;0;8]), 9219375258500057248.
  split; [wfn|]. split; [wfn|].
  split. { apply (not_correct_overflow Double _ 0); [wfn|reflexivity|vm_compute; reflexivity|vm_compute; discriminate]. }
  split. { apply (not_correct_overflow Double _ 0); [wfn|reflexivity|vm_compute; reflexivity|vm_compute; discriminate]. }
  split; [run|]. split; [run|].
  split; [repeat split; vm_compute; congruence|]. split; [vm_compute; reflexivity|].
  split; [repeat split; vm_compute; congruence|]. split; reflexivity.
Qed.

(** C34: for float a number below the tables can be a representable value *)
Theorem C34_refuted_float_underflow : exists n u, well_formed n /\ written n = text "123456789e-51" /\
  (forall want fb errno, atof single (written n ++ [0]) want fb errno = Ok (answer want errno 0 underflow (len (written n)))) /\
  nonzero Float u /\ rnd Float (value n) = real_of Float u.
Proof.
  exists (nume NoSign [1;2;3;4;5;6;7;8;9] None Minus [5;1]), 88.
  split; [wfn|]. split; [reflexivity|]. split; [run|].
  split; [split; [repeat split; vm_compute; congruence|]; intros (_ & _ & C); vm_compute in C; congruence|].
  change (real_of Float 88) with (magnitude Float 88).
  apply rounds_strictly_rnd with (d := 123456789) (j := -51). vm_compute. reflexivity.
Qed.

(** C35: the sign is lost *)
Theorem C35_refuted_sign_lost :
  (forall want fb errno, atof double (cstr "-5e577") want fb errno = Ok (answer want errno (infinity_of Double false) overflow 6)) /\
  (forall want fb errno, atof double (cstr "-1e-400") want fb errno = Ok (answer want errno (zero_of Double false) underflow 7)).
Proof. split; run. Qed.

(** C36: nearer to the smallest denormal than to zero, but read as zero *)
Theorem C36_refuted_half_denormal : exists n, well_formed n /\ written n = text "4e-324" /\
  (forall want fb errno, atof double (written n ++ [0]) want fb errno = Ok (answer want errno 0 underflow (len (written n)))) /\
  rnd Double (value n) = real_of Double 1 /\ ~ correctly_rounded Double false (value n) 0.
Proof.
  exists (nume NoSign [4] None Minus [3;2;4]). split; [wfn|]. split; [reflexivity|]. split; [run|]. split.
  - change (real_of Double 1) with (magnitude Double 1). apply rounds_strictly_rnd with (d := 4) (j := -324). vm_compute. reflexivity.
  - apply not_correct with 1; try (vm_compute; congruence); [wfn|].
    split; [repeat split; vm_compute; congruence|]. intros (_ & _ & C). vm_compute in C. congruence.
Qed.

(** C38: characters that begin no number are consumed *)
Theorem C38_refuted_not_rejected :
  (forall want fb errno, atof double (cstr "nope") want fb errno = Ok (answer want errno 0 success 1)) /\
  (forall want fb errno, atof double (cstr "inch") want fb errno = Ok (answer want errno 0 success 1)) /\
  (forall want fb errno, atof double (cstr "-x") want fb errno = Ok (answer want errno (zero_of Double true) success 1)) /\
  (forall want fb errno, atof double (cstr ".") want fb errno = Ok (answer want errno 0 success 1)).
Proof. repeat split; run. Qed.

(** C39: the exponent part of a zero is left behind *)
Theorem C39_refuted_exponent_left : exists n, well_formed n /\ coefficient n = 0 /\ written n = text "0e5" /\
  (forall want fb errno, atof double (written n ++ [0]) want fb errno = Ok (answer want errno 0 success 1)).
Proof. exists (nume NoSign [0] None NoSign [5]). split; [wfn|]. split; [reflexivity|]. split; [reflexivity|run]. Qed.

(** C40: undefined behaviour, and a wrong value *)
Theorem C40_refuted_exponents :
  (exists n, well_formed n /\ written n = text "1e10000" /\
     forall want fb errno, atof double (written n ++ [0]) want fb errno = Fault TableOverrun) /\
  (exists n v, well_formed n /\ written n = text "1e4294967296" /\
     (forall want fb errno, atof double (written n ++ [0]) want fb errno = Ok (answer want errno v success (len (written n)))) /\
     (0 < real_of Double v < 1)%R) /\
  (exists n, well_formed n /\ written n = text "1e-53687091200" /\
     forall want fb errno, atof double (written n ++ [0]) want fb errno = Fault SignedOverflow).
Proof.
  split; [|split].
  - exists (nume NoSign [1] None NoSign [1;0;0;0;0]). split; [wfn|]. split; [reflexivity|run].
  - exists (nume NoSign [1] None NoSign [4;2;9;4;9;6;7;2;9;6]), 4517329193108106637. split; [wfn|]. split; [reflexivity|]. split; [run|].
    change (real_of Double 4517329193108106637) with (magnitude Double 4517329193108106637).
    unfold magnitude. replace (significand Double 4517329193108106637) with 4722366482869645 by (vm_compute; reflexivity).
    replace (exponent Double 4517329193108106637) with (-72) by (vm_compute; reflexivity). cbn. lra.
  - exists (nume NoSign [1] None Minus [5;3;6;8;7;0;9;1;2;0;0]). split; [wfn|]. split; [reflexivity|run].
Qed.

(** C41: a dangling exponent marker is consumed *)
Theorem C41_refuted_marker_consumed :
  (forall want fb errno, atof double (cstr "1e") want fb errno = Ok (answer want errno 4607182418800017408 success 2)) /\
  (forall want fb errno, atof double (cstr "1e+x") want fb errno = Ok (answer want errno 4607182418800017408 success 3)) /\
  (forall want fb errno, atof double (cstr "1enan") want fb errno = Ok (answer want errno 4607182418800017408 success 5)).
Proof. repeat split; run. Qed.
