(** The fallback protocol and the status: C42, C43, C44, C51 (null end pointer); C45, C50, C52. *)
From Coq Require Import Reals Lra Lia ZArith List String Ascii.
From Flocq Require Import Core.
From Verif Require Import Machine MachineFacts BitOps StaticPow Fraction Format DiyFp KComp Krosh Atof Ftoa Spec ParseSpec ParseApi Api Instances
  DiyFacts BoundFacts TableFacts GrisuFacts FtoaFacts RoundFacts DownFacts DvalFacts CmpFacts ArithProps ScanFacts LoopFacts ParseFacts GapFacts KroshNum ShortFacts PrintProps PrintProps2 PrintProps3 ParseProps Refuted.
Open Scope Z_scope.

(** C42: for every text, either the fallback plays no role at all (whatever it is and
    whatever errno is), or its answer is passed on unchanged; it is not asked if nothing
    was consumed. *)
Theorem C42_protocol : forall t s,
  (exists f, forall want fb errno, atof (fmt_of t) s want fb errno = Fault f) \/
  (exists v st e, (e = 0 -> v = 0 /\ st = success) /\
     forall want fb errno, atof (fmt_of t) s want fb errno = Ok (answer want errno v st e)) \/
  (forall want fb errno, atof (fmt_of t) s want fb errno = fallback_answer t s want fb errno).
Proof.
  intros t s. unfold atof, fallback_answer. destruct (krosh (fmt_of t) s) as [[v e st acc]|f]; cbn [bind kr_str_end kr_value kr_status kr_is_accurate].
  - destruct (Z.eqb_spec e 0) as [->|N]; cbn [negb].
    + right. left. exists 0, success, 0. split; [auto|]. reflexivity.
    + destruct acc.
      * right. left. exists v, st, e. split; [contradiction|]. reflexivity.
      * right. right. intros. destruct (fb s errno); reflexivity.
  - left. exists f. reflexivity.
Qed.

(** the fallback does get called for some texts *)
Example C42_fallback_called : forall want fb errno,
  atof double (cstr "9007199254740993") want fb errno = fallback_answer Double (cstr "9007199254740993") want fb errno.
Proof. intros. change double with (fmt_of Double). apply (atof_slow Double _ want fb errno 4845873199050653696 16 success); [vm_compute; reflexivity|lia]. Qed.
(** ... and is not for others *)
Example C42_fallback_not_called : forall want fb errno, atof double (cstr "1.5") want fb errno = Ok (answer want errno 4609434218613702656 success 3).
Proof. run. Qed.

(** * C43 *)

(** A stale errno changes the status: the conversion of 9007199254740993 by a fallback that
    is correct and leaves errno alone is reported as success or as overflow. *)
Theorem C43_refuted_stale_errno : forall fb, good_fallback Double fb ->
  exists r r', atof double (cstr "9007199254740993") true fb 0 = Ok r /\ at_status r = success /\
               atof double (cstr "9007199254740993") true fb ERANGE = Ok r' /\ at_status r' = overflow.
Proof.
  intros fb G.
  set (n := num NoSign [9;0;0;7;1;9;9;2;5;4;7;4;0;9;9;3] None).
  assert (W : well_formed n) by wfn.
  assert (Hc : ends_number 0) by (repeat split; vm_compute; intuition congruence).
  assert (V : value n = IZR 9007199254740993).
  { unfold value, abs_value. replace (coefficient n) with 9007199254740993 by (vm_compute; reflexivity).
    change (scale n) with 0. cbn [is_minus n_sign n num]. change (pow10 0) with 1%R. ring. }
  assert (V1 : (1 <= value n < bpow radix2 54)%R) by (rewrite V; cbn; lra).
  assert (R1 : (1 <= rnd Double (value n) <= bpow radix2 54)%R).
  { split.
    - change 1%R with (bpow radix2 0). rewrite <- (rnd_bpow Double 0) by (cbn; lia). apply rnd_mono. exact (proj1 V1).
    - rewrite <- (rnd_bpow Double 54) by (cbn; lia). apply rnd_mono. lra. }
  assert (R : in_range Double (value n)).
  { split.
    - rewrite Rabs_pos_eq by lra. apply Rle_trans with 1%R; [change 1%R with (bpow radix2 0); apply bpow_le; cbn; lia|lra].
    - rewrite Rabs_pos_eq by lra. apply Rle_lt_trans with (1 := proj2 R1). apply bpow_lt. cbn. lia. }
  assert (Q : forall errno, exists r, atof double (cstr "9007199254740993") true fb errno = Ok r /\
            at_status r = (if errno =? ERANGE then overflow else success)).
  { intros errno. rewrite C42_fallback_called. unfold fallback_answer.
    destruct (G n 0 [] errno W Hc R) as (r & E1 & E2 & E3 & E4).
    assert (NB : ~ below_normal Double (value n)) by (unfold below_normal; rewrite Rabs_pos_eq by lra; apply Rle_not_lt, Rle_trans with 1%R; [change 1%R with (bpow radix2 0); apply bpow_le; cbn; lia|lra]).
    destruct E2 as [E2|[_ E2]]; [|contradiction].
    change (cstr "9007199254740993") with (written n ++ [0])%list. rewrite E1. eexists. split; [reflexivity|].
    cbn [at_status]. unfold check_errno. rewrite E2. destruct (errno =? ERANGE); cbn [negb]; [|reflexivity].
    destruct (is_zero (fmt_of Double) (fb_value r)) eqn:Z0; [exfalso|reflexivity].
    destruct E4 as [(_ & F & E & _)|(_ & E)].
    - assert (Zr : zero Double (fb_value r)) by (apply (is_zero_spec Double); [apply F|exact Z0]).
      destruct Zr as (_ & Z1 & Z2). unfold real_of, magnitude, significand in E. rewrite Z1, Z2 in E. cbn [Z.eqb] in E.
      destruct (_ =? 1); lra.
    - rewrite E in Z0. vm_compute in Z0. congruence. }
  destruct (Q 0) as (r & A1 & A2). destruct (Q ERANGE) as (r' & B1 & B2). exists r, r'. auto.
Qed.

(** Without the fallback errno plays no role, and with a fallback that sets errno whatever it
    was before the outcome does not depend on it either. *)
Theorem C43_partial_no_history : forall t s want fb,
  (forall e1 e2, fb s e1 = fb s e2) ->
  forall e1 e2 r1 r2, atof (fmt_of t) s want fb e1 = Ok r1 -> atof (fmt_of t) s want fb e2 = Ok r2 ->
    at_value r1 = at_value r2 /\ at_status r1 = at_status r2 /\ at_str_end r1 = at_str_end r2.
Proof.
  intros t s want fb H e1 e2 r1 r2 E1 E2. destruct (C42_protocol t s) as [(f & A)|[(v & st & e & _ & A)|A]].
  - rewrite A in E1. discriminate.
  - rewrite A in E1, E2. injection E1 as <-. injection E2 as <-. cbn. auto.
  - rewrite A in E1, E2. unfold fallback_answer in *. rewrite (H e2 e1) in E2. destruct (fb s e1) as [r|]; [|discriminate].
    injection E1 as <-. injection E2 as <-. cbn. auto.
Qed.

(** * C44 *)

(** The status of a conversion made by the fallback *)
Theorem C44_status_partial : forall t s want fb errno a, atof (fmt_of t) s want fb errno = Ok a -> at_used_fallback a = true ->
  exists r, fb s errno = Ok r /\ at_value a = fb_value r /\ at_errno a = fb_errno r /\
    at_str_end a = (if want then Some (fb_str_end r) else None) /\
    (fb_errno r <> ERANGE -> at_status a = success) /\
    (fb_errno r = ERANGE -> zero t (fb_value r) -> at_status a = underflow) /\
    (fb_errno r = ERANGE -> infinite t (fb_value r) -> at_status a = overflow).
Proof.
  intros t s want fb errno a E U. destruct (C42_protocol t s) as [(f & A)|[(v & st & e & _ & A)|A]].
  - rewrite A in E. discriminate.
  - rewrite A in E. injection E as <-. discriminate.
  - rewrite A in E. unfold fallback_answer in E. destruct (fb s errno) as [r|]; [|discriminate].
    injection E as <-. exists r. cbn [at_value at_errno at_str_end at_status]. repeat (split; [reflexivity|]).
    unfold check_errno. split; [|split].
    + intros N. destruct (Z.eqb_spec (fb_errno r) ERANGE); [contradiction|reflexivity].
    + intros -> Hz. cbn [negb Z.eqb]. rewrite Z.eqb_refl. cbn [negb].
      assert (Z1 : is_zero (fmt_of t) (fb_value r) = true) by (apply is_zero_spec; [apply Hz|exact Hz]). now rewrite Z1.
    + intros -> Hi. rewrite Z.eqb_refl. cbn [negb].
      destruct (is_zero (fmt_of t) (fb_value r)) eqn:Z1; [|reflexivity]. exfalso.
      apply is_zero_spec in Z1; [|apply Hi]. destruct Hi as (_ & I & _), Z1 as (_ & J & _). rewrite J in I. destruct t; discriminate.
Qed.

(** A denormal result with errno set (what strtod does on underflow) is reported as overflow. *)
Theorem C44_refuted_denormal : forall want errno, exists (fb : fallback) a v,
  atof double (cstr "9007199254740993") want fb errno = Ok a /\ at_value a = v /\ finite Double v /\ ~ zero Double v /\
  ~ normal Double v /\ at_errno a = ERANGE /\ at_status a = overflow.
Proof.
  intros want errno. exists (fun _ _ => Ok {| fb_value := 1; fb_str_end := 16; fb_errno := ERANGE |}).
  rewrite C42_fallback_called. eexists. exists 1. split; [reflexivity|]. cbn [at_value at_errno at_status].
  split; [reflexivity|]. split; [repeat split; vm_compute; congruence|]. split; [intros (_ & _ & C); vm_compute in C; congruence|].
  split; [intros (_ & C); vm_compute in C; congruence|]. split; reflexivity.
Qed.

(** * C51, first half: the null end pointer *)

Theorem C51_null_end : forall t s fb errno,
  (exists f, atof (fmt_of t) s true fb errno = Fault f /\ atof (fmt_of t) s false fb errno = Fault f) \/
  (exists r r' e, atof (fmt_of t) s true fb errno = Ok r /\ atof (fmt_of t) s false fb errno = Ok r' /\
     at_value r = at_value r' /\ at_status r = at_status r' /\ at_errno r = at_errno r' /\
     at_str_end r = Some e /\ at_str_end r' = None).
Proof.
  intros t s fb errno. destruct (C42_protocol t s) as [(f & A)|[(v & st & e & _ & A)|A]].
  - left. exists f. now rewrite !A.
  - right. rewrite !A. do 3 eexists. repeat split; reflexivity.
  - rewrite !A. unfold fallback_answer. destruct (fb s errno) as [r|f].
    + right. do 3 eexists. repeat split; reflexivity.
    + left. now exists f.
Qed.

(** * C45, C50, C52 *)

(** The double 2^-997 is printed as a number that rounds to it and is read back as half of it. *)
Theorem C45_refuted_full_circle : exists v m, nonzero Double v /\ prints Double v (written m) /\ well_formed m /\
  rnd Double (value m) = real_of Double v /\
  (forall want fb errno, atof double (written m ++ [0]) want fb errno = Ok (answer want errno (v - 2 ^ 52) success (len (written m)))) /\
  real_of Double (v - 2 ^ 52) = (/ 2 * real_of Double v)%R /\ written m = text "7.466108948025751e-301".
Proof.
  exists 117093590311632896, (nume NoSign [7] (Some [4;6;6;1;0;8;9;4;8;0;2;5;7;5;1]) Minus [3;0;1]).
  split; [split; [repeat split; vm_compute; congruence|intros (_ & C & _); vm_compute in C; congruence]|].
  split; [apply prints_eval; [split; [discriminate|reflexivity]|vm_compute; reflexivity]|]. split; [wfn|].
  split. { apply rounds_strictly_rnd with (d := 7466108948025751) (j := -316). vm_compute. reflexivity. }
  split; [run|]. split; [|reflexivity].
  unfold real_of, magnitude. replace (sign_field Double (117093590311632896 - 2 ^ 52)) with 0 by (vm_compute; reflexivity).
  replace (sign_field Double 117093590311632896) with 0 by (vm_compute; reflexivity). cbn [Z.eqb].
  replace (significand Double (117093590311632896 - 2 ^ 52)) with (2 ^ 52) by (vm_compute; reflexivity).
  replace (significand Double 117093590311632896) with (2 ^ 52) by (vm_compute; reflexivity).
  replace (exponent Double (117093590311632896 - 2 ^ 52)) with (-1 + -1049) by (vm_compute; reflexivity).
  replace (exponent Double 117093590311632896) with (-1049) by (vm_compute; reflexivity).
  rewrite bpow_plus. change (bpow radix2 (-1)) with (/ 2)%R. ring.
Qed.

(** A larger number can give a smaller result. *)
Theorem C50_refuted_not_monotone : exists n n' v v', well_formed n /\ well_formed n' /\ (value n < value n')%R /\
  (forall want fb errno, atof double (written n ++ [0]) want fb errno = Ok (answer want errno v success (len (written n)))) /\
  (forall want fb errno, atof double (written n' ++ [0]) want fb errno = Ok (answer want errno v' success (len (written n')))) /\
  finite Double v /\ finite Double v' /\ (real_of Double v' < real_of Double v)%R /\
  written n = text "0.9999999999999998" /\ written n' = text "0.99999999999999999".
Proof.
  exists (num NoSign [0] (Some [9;9;9;9;9;9;9;9;9;9;9;9;9;9;9;8])), (num NoSign [0] (Some [9;9;9;9;9;9;9;9;9;9;9;9;9;9;9;9;9])),
    4607182418800017406, 4602678819172646912.
  split; [wfn|]. split; [wfn|]. split.
  { unfold value, abs_value. cbn [is_minus n_sign num].
    set (a := num NoSign [0] (Some [9;9;9;9;9;9;9;9;9;9;9;9;9;9;9;8])). set (b := num NoSign [0] (Some [9;9;9;9;9;9;9;9;9;9;9;9;9;9;9;9;9])).
    replace (coefficient a) with 9999999999999998 by (vm_compute; reflexivity).
    replace (coefficient b) with 99999999999999999 by (vm_compute; reflexivity).
    change (scale a) with (1 + -17). change (scale b) with (-17). rewrite bpow_plus. change (pow10 1) with 10%R.
    pose proof (bpow_gt_0 radix10 (-17)). nra. }
  split; [run|]. split; [run|]. split; [repeat split; vm_compute; congruence|]. split; [repeat split; vm_compute; congruence|].
  split; [|split; reflexivity].
  unfold real_of, magnitude.
  replace (sign_field Double 4602678819172646912) with 0 by (vm_compute; reflexivity).
  replace (sign_field Double 4607182418800017406) with 0 by (vm_compute; reflexivity). cbn [Z.eqb].
  replace (significand Double 4602678819172646912) with (2 ^ 52) by (vm_compute; reflexivity).
  replace (significand Double 4607182418800017406) with (2 ^ 53 - 2) by (vm_compute; reflexivity).
  replace (exponent Double 4602678819172646912) with (-53) by (vm_compute; reflexivity).
  replace (exponent Double 4607182418800017406) with (-53) by (vm_compute; reflexivity).
  apply Rmult_lt_compat_r; [apply bpow_gt_0|]. apply IZR_lt. lia.
Qed.

(** A long number is cut after 2049 characters: 1 followed by 2100 zeros and e-2100 is one,
    but is read as infinity. *)
Definition long_one : numeral := nume NoSign (1 :: repeat 0 2100) None Minus [2;1;0;0].
Theorem C52_refuted_truncated : well_formed long_one /\ value long_one = 1%R /\
  forall want fb errno, atof double (written long_one ++ [0]) want fb errno = Ok (answer want errno (infinity_of Double false) overflow 2049).
Proof.
  split; [|split].
  - unfold well_formed, long_one, nume. cbn [n_int n_frac frac_digits n_exp x_digits]. split; [|split; [constructor|split; [discriminate|]]].
    + constructor; [unfold digit; lia|]. apply digits_zeros.
    + split; [repeat constructor; unfold digit; lia|discriminate].
  - unfold value, abs_value. change (is_minus (n_sign long_one)) with false.
    change (scale long_one) with (-2100).
    assert (E : coefficient long_one = 10 ^ 2100).
    { unfold coefficient. change (frac_digits long_one) with (@nil Z). rewrite app_nil_r.
      change (n_int long_one) with ([1] ++ repeat 0 2100)%list. rewrite dval_app, dval_zeros. unfold zlen. rewrite repeat_length.
      rewrite dval_one. lia. }
    rewrite E. change (10 ^ 2100) with (radix10 ^ 2100). rewrite <- bpow_IZR by lia. rewrite <- bpow_plus. reflexivity.
  - run.
Qed.
