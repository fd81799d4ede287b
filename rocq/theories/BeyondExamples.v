(** Concrete texts that meet the hypotheses of C50, C66, C67 and C68. *)
From Coq Require Import Reals Lra Lia ZArith List String Ascii.
From Flocq Require Import Core.
From Verif Require Import Machine Format DiyFp Krosh Atof Ftoa Print Spec ParseSpec Api ParseApi Instances
  TableFacts CmpFacts ArithProps Refuted GoodFallback RoundTrip PowerTrip ShortFacts KroshNum ParseExamples RangeProps Beyond ErrorProps StringProps.
Import ListNotations.
Open Scope Z_scope.

(** bounds of the form [2^k (1 + 2^-p)] as one number *)
Lemma above_power : forall k p m d j, 0 <= p -> m = 2 ^ p + 1 -> (IZR m * bpow radix2 (k - p) < IZR d * pow10 j)%R ->
  (bpow radix2 k * (1 + bpow radix2 (- p)) <= IZR d * pow10 j)%R.
Proof.
  intros k p m d j Hp -> H. left. apply Rle_lt_trans with (2 := H). right. rewrite plus_IZR, <- (bpow_IZR radix2) by lia.
  rewrite Rmult_plus_distr_l, Rmult_plus_distr_r, <- !bpow_plus. f_equal; [rewrite Rmult_1_r; f_equal; lia|].
  rewrite Rmult_1_l. f_equal.
Qed.
Lemma below_power : forall k p m d j, 0 <= p -> m = 2 ^ p - 1 -> (IZR d * pow10 j < IZR m * bpow radix2 (k - p))%R ->
  (IZR d * pow10 j <= bpow radix2 k * (1 - bpow radix2 (- p)))%R.
Proof.
  intros k p m d j Hp -> H. left. apply Rlt_le_trans with (1 := H). right. rewrite minus_IZR, <- (bpow_IZR radix2) by lia.
  rewrite Rmult_minus_distr_l, Rmult_minus_distr_r, <- !bpow_plus. f_equal; [rewrite Rmult_1_r; f_equal; lia|].
  rewrite Rmult_1_l. f_equal.
Qed.
Ltac above x := let p := eval vm_compute in (Z.log2 x) in apply (above_power _ p x); [lia|reflexivity|apply bin_lt_dec; vm_compute; reflexivity].
Ltac below x := let p := eval vm_compute in (Z.log2 x + 1) in apply (below_power _ p x); [lia|reflexivity|apply dec_lt_bin; vm_compute; reflexivity].

(** 1.8e308 *)
Definition q1 : numeral := nume NoSign [1] (Some [8]) NoSign [3;0;8].
Example C66_just_beyond_meets : written q1 = text "1.8e308" /\ well_formed q1 /\ within_limits q1 /\
  (bpow radix2 1024 * (1 + bpow radix2 (-53)) <= Rabs (value q1) <= bpow radix2 1025 * (1 - bpow radix2 (-53)))%R /\
  (bpow radix2 1024 * (1 + bpow radix2 (-51)) <= Rabs (value q1) <= bpow radix2 1025 * (1 - bpow radix2 (-52)))%R.
Proof.
  assert (W : well_formed q1) by wfn.
  split; [reflexivity|]. split; [exact W|]. split; [lim|]. rewrite !value_abs by exact W. unfold abs_value.
  change (coefficient q1) with 18. change (scale q1) with 307. split; split.
  - above 9007199254740993.
  - below 9007199254740991.
  - above 2251799813685249.
  - below 4503599627370495.
Qed.
(** so it becomes NaN, status success *)
Example C66_nan : forall want fb errno, let s := cstr "1.8e308" in
  atof double s want fb errno = Ok (answer want errno 9218874216410055005 success 7) /\ nan Double 9218874216410055005.
Proof. intros. split; [run|]. repeat split; vm_compute; congruence. Qed.

(** -1e309, and 1e39 as a float *)
Definition q2 : numeral := nume Minus [1] None NoSign [3;0;9].
Definition q3 : numeral := nume NoSign [1] None NoSign [3;9].
Example C66_wrong_sign_meets : written q2 = text "-1e309" /\ well_formed q2 /\ within_limits q2 /\
  (bpow radix2 1025 * (1 + bpow radix2 (-53)) <= Rabs (value q2) <= bpow radix2 1087 * (1 - bpow radix2 (-53)))%R /\
  (bpow radix2 1026 * (1 + bpow radix2 (-53)) <= Rabs (value q2))%R.
Proof.
  assert (W : well_formed q2) by wfn.
  split; [reflexivity|]. split; [exact W|]. split; [lim|]. rewrite !value_abs by exact W. unfold abs_value.
  change (coefficient q2) with 1. change (scale q2) with 309. split; [split|].
  - above 9007199254740993.
  - below 9007199254740991.
  - above 9007199254740993.
Qed.
Example C66_float_meets : written q3 = text "1e39" /\ well_formed q3 /\ within_limits q3 /\
  (bpow radix2 129 * (1 + bpow radix2 (-24)) <= Rabs (value q3) <= bpow radix2 159 * (1 - bpow radix2 (-24)))%R.
Proof.
  assert (W : well_formed q3) by wfn.
  split; [reflexivity|]. split; [exact W|]. split; [lim|]. rewrite !value_abs by exact W. unfold abs_value.
  change (coefficient q3) with 1. change (scale q3) with 39. split.
  - above 16777217.
  - below 16777215.
Qed.
(** -1e309 becomes a positive number, 3.09e-308 *)
Example C66_positive : forall want fb errno, 
  (atof double (cstr "-1e309") want fb errno = Ok (answer want errno 6263026125028040 success 6)) /\
  ~ negative Double 6263026125028040 /\ finite Double 6263026125028040.
Proof. intros. split; [run|]. repeat split; vm_compute; congruence. Qed.

(** C33: 1e328 is noticed, 1e327 is not *)
Definition q5 : numeral := nume NoSign [1] None NoSign [3;2;8].
Definition q6 : numeral := nume NoSign [1] None NoSign [3;2;7].
Example C33_threshold_meets :
  (bpow radix2 1087 * (1 + bpow radix2 (-53)) <= Rabs (value q5))%R /\
  (Rabs (value q6) <= bpow radix2 1087 * (1 - bpow radix2 (-53)))%R.
Proof.
  rewrite !value_abs by wfn. unfold abs_value. change (coefficient q5) with 1. change (coefficient q6) with 1. change (scale q5) with 328. change (scale q6) with 327. split.
  - above 9007199254740993.
  - below 9007199254740991.
Qed.

(** C68: pi with 36 digits *)
Example C68_meets : forall t, well_formed p3 /\ within_limits p3 /\
  (bpow radix2 (min_exp t) * (1 + bpow radix2 (- precision t)) <= Rabs (value p3)
     <= bpow radix2 (max_exp t) * (1 - bpow radix2 (1 - precision t)))%R /\
  (t = Float -> pow10 (-42) <= Rabs (value p3))%R.
Proof.
  intros t. destruct (C30_meets t) as (A & B & _ & C & _). split; [exact A|]. split; [exact B|]. split; [|exact C].
  rewrite value_abs by exact A. unfold abs_value. 
  change (coefficient p3) with 314159265358979323846264338327950288. change (scale p3) with (-35).
  destruct t; cbn [min_exp precision max_exp]; split.
  - above 16777217.
  - below 8388607.
  - above 9007199254740993.
  - below 4503599627370495.
Qed.

(** C50: 0.1 and 0.2 *)
Definition q4 : numeral := num NoSign [0] (Some [2]).
Definition fifth (t : ftype) : Z := match t with Float => 1045220557 | Double => 4596373779694328218 end.
Example C50_monotone_meets : forall t,
  (well_formed q4 /\ within_limits q4 /\ short_decimal t q4 /\ in_range t (value q4) /\ ~ carries t (value q4)) /\
  (value p2 <= value q4)%R.
Proof.
  intros t. assert (W : well_formed q4) by wfn. assert (F : finite t (fifth t)) by (destruct t; fin). split.
  - split; [exact W|]. split; [lim|]. split.
    + exists 2, 0. split; [destruct t; vm_compute; split; congruence|]. split; [lia|]. split; [reflexivity|]. intros _. vm_compute. congruence.
    + apply (meets_range t q4 (fifth t) W F); destruct t; vm_compute; congruence.
  - unfold value, abs_value. cbn [is_minus n_sign p2 q4 num]. change (coefficient p2) with 1. change (coefficient q4) with 2. change (scale q4) with (-1). change (scale p2) with (-1).
    apply Rmult_le_compat_r; [apply bpow_ge_0|lra].
Qed.
Example C50_monotone_at_work : forall t, exists r r', atof (fmt_of t) (cstr "0.1") true (reference_fallback t) 0 = Ok r /\
  atof (fmt_of t) (cstr "0.2") true (reference_fallback t) 0 = Ok r' /\ (real_of t (at_value r) <= real_of t (at_value r'))%R.
Proof.
  intros t. destruct (C29_meets t) as (A & B & C & D & E & _). destruct (C50_monotone_meets t) as ((A' & B' & C' & D' & E') & V).
  destruct (C50_monotone_partial t p2 q4 0 0 [] [] (reference_fallback t) 0 0 A nul_ends B C D E A' nul_ends B' C' D' E' (good_fallback_exists t) V)
    as (r & r' & X & Y & _ & _ & Z & _). exists r, r'. auto.
Qed.

(** C67: a text with a NUL inside *)
Example C67_meets : stops_at_nul (fun _ e => Ok {| fb_value := 0; fb_str_end := 0; fb_errno := e |}).
Proof. intros a b b' e. reflexivity. Qed.
Example C67_at_work : forall fb errno, from_string double (text "2.5" ++ 0 :: text "e7") fb errno = from_string double (text "2.5") fb errno.
Proof.
  intros. assert (E : forall fb', from_string double (text "2.5") fb' errno = Ok (answer false errno 4612811918334230528 success 3)) by (intros; unfold from_string; run).
  rewrite E. apply (C67_from_string_sure Double (text "2.5") (text "e7") fb errno _ (E fb) eq_refl).
Qed.
Example C67_circle_at_work : forall t, exists s r, to_basic_string (fmt_of t) (tenth t) = Ok s /\
  from_string (fmt_of t) s (reference_fallback t) 0 = Ok r /\ at_value r = tenth t.
Proof.
  intros t. assert (F : finite t (tenth t)) by (destruct t; fin).
  destruct (C67_string_circle t (tenth t) (reference_fallback t) 0 (proj1 F) (good_fallback_exists t)) as (s & r & A & B & _ & _ & _ & D & _).
  exists s, r. split; [exact A|]. split; [exact B|]. apply D.
  - split; [exact F|]. intros (_ & _ & Z). destruct t; vm_compute in Z; congruence.
  - intros (k & K1 & K2).
    assert (X : (Rabs (real_of t (tenth t)) = IZR (significand t (tenth t)) * bpow radix2 (exponent t (tenth t)))%R).
    { assert (real_of t (tenth t) = magnitude t (tenth t)) as -> by (destruct t; reflexivity). apply Rabs_pos_eq. apply RoundFacts.magnitude_nonneg. }
    assert (significand t (tenth t) = 2 ^ (precision t - 1)).
    { apply power_significand with k; [exact K1|]. unfold magnitude. now rewrite <- X. }
    destruct t; vm_compute in H; congruence.
Qed.
