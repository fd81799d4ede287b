(** Locales with another decimal point (C115). *)
From Coq Require Import Reals Lra Lia ZArith List String Ascii.
From Flocq Require Import Core.
From Verif Require Import Machine MachineFacts BitOps StaticPow Fraction Format DiyFp KComp Chars Grisu Ftoa Krosh Atof Spec ParseSpec Api ParseApi Instances
  DiyFacts BoundFacts TableFacts GrisuFacts DvalFacts RoundFacts ArithProps PrintProps PrintExamples CmpFacts ParseProps ShortFacts GapFacts DownFacts Refuted ParseExamples RoundTrip GoodFallback Points.
Import ListNotations.
Open Scope Z_scope.

Lemma comma_point : point_char (code ",") /\ code "," <> code ".".
Proof. repeat split; vm_compute; intuition congruence. Qed.

Definition asks (t : ftype) (s : list Z) : Prop := forall want fb errno, atof (fmt_of t) s want fb errno = fallback_answer t s want fb errno.
(** who asks the fallback does not answer alone *)
Lemma asks_depends : forall t s fb errno, asks t s -> ~ (forall fb', atof (fmt_of t) s true fb' errno = atof (fmt_of t) s true fb errno).
Proof.
  intros t s fb errno A C.
  pose (f := fun (v : Z) (_ : list Z) (e : Z) => Ok {| fb_value := v; fb_str_end := 0; fb_errno := e |}).
  pose proof (eq_trans (C (f 0)) (eq_sym (C (f 1)))) as E. rewrite !A in E. cbn in E. congruence.
Qed.

(** The float 23.236804, printed, and read where the point is a comma (as after setlocale(LC_ALL, "de_DE.UTF-8")): 23, with status success *)
Definition v23 : Z := 1102701817.
Definition text23 : numeral := num NoSign [2;3] (Some [2;3;6;8;0;4]).
Theorem C115_refuted_circle : nonzero Float v23 /\ prints Float v23 (written text23) /\ written text23 = text "23.236804" /\
  forall fb errno, standard_fallback Float fb -> errno <> ERANGE ->
    exists r, atof (fmt_of Float) (written text23 ++ [0]) true (with_point (code ",") fb) errno = Ok r /\
      real_of Float (at_value r) = 23%R /\ at_str_end r = Some 2 /\ at_status r = success /\ at_errno r = errno.
Proof.
  split; [nz|]. split; [pr|]. split; [reflexivity|]. intros fb errno G NE.
  assert (W : well_formed text23) by wfn. destruct comma_point as [P Np].
  assert (V : value (whole_part text23) = 23%R) by (unfold value, abs_value; cbn; lra).
  assert (R : rnd Float 23 = 23%R).
  { transitivity (magnitude Float 1102577664).
    - replace 23%R with (IZR 23 * pow10 0)%R by (cbn; lra). apply rounds_strictly_rnd. vm_compute. reflexivity.
    - unfold magnitude. replace (significand Float 1102577664) with 12058624 by (vm_compute; reflexivity). replace (exponent Float 1102577664) with (-19) by (vm_compute; reflexivity). cbn. lra. }
  assert (IR : in_range Float (value (whole_part text23))).
  { split; rewrite ?V, ?R, Rabs_pos_eq by lra.
    - apply Rle_trans with (bpow radix2 0); [apply bpow_le; cbn; lia|cbn; lra].
    - apply Rlt_le_trans with (bpow radix2 5); [cbn; lra|apply bpow_le; cbn; lia]. }
  destruct (C115_point Float (code ",") fb text23 [2;3;6;8;0;4] 0 [] errno G P Np W eq_refl ltac:(discriminate) (or_intror IR)) as [C|(r & E & _ & B & C & D)].
  - exfalso. revert C. apply asks_depends. unfold asks. run.
  - exists r. split; [exact E|]. split; [|split; [exact B|now apply C]].
    destruct D as [[D _]|[(_ & _ & D & _)|[D _]]]; [vm_compute in D; discriminate|now rewrite D, V, R|].
    exfalso. rewrite V, R, Rabs_pos_eq in D by lra. revert D. apply Rlt_not_le, Rlt_le_trans with (bpow radix2 5); [cbn; lra|apply bpow_le; cbn; lia].
Qed.

(** 9007199254740993,5 -- an integer, a comma and another integer -- is read as one number there, to its end *)
Definition tie16 : numeral := num NoSign [9;0;0;7;1;9;9;2;5;4;7;4;0;9;9;3] None.
Definition tie16_5 : numeral := num NoSign [9;0;0;7;1;9;9;2;5;4;7;4;0;9;9;3] (Some [5]).
Theorem C115_refuted_list : forall fb errno, standard_fallback Double fb ->
  exists r, atof (fmt_of Double) (cstr "9007199254740993,5") true (with_point (code ",") fb) errno = Ok r /\ at_str_end r = Some 18 /\
    correctly_rounded Double false (value tie16_5) (at_value r).
Proof.
  intros fb errno G. destruct comma_point as [P Np]. assert (W : well_formed tie16) by wfn. assert (W5 : well_formed tie16_5) by wfn.
  assert (IR : in_range Double (value tie16_5)) by (apply (meets_range Double tie16_5 4845873199050653697 W5); [fin|vm_compute; reflexivity|vm_compute; congruence|vm_compute; congruence]).
  destruct (C115_swallowed Double (code ",") fb tie16 [5] 0 [] errno G P Np W eq_refl eq_refl ltac:(repeat constructor; unfold digit; lia) nul_ends ltac:(discriminate) IR) as [C|(r & E & _ & B & D)].
  - exfalso. revert C. apply asks_depends. unfold asks. run.
  - exists r. split; [exact E|]. split; [exact B|exact D].
Qed.

(** .5000000000000001665..., half way between two doubles, without a digit in front of its point: nothing is consumed, and the value is
    zero -- with status success *)
Definition lead : numeral := num NoSign [] (Some [5;0;0;0;0;0;0;0;0;0;0;0;0;0;0;1;6;6;5;3;3;4;5;3;6;9;3;7;7;3;4;8;1;0;6;3;5;4;4;7;5;0;2;1;3;6;2;3;0;4;6;8;7;5]).
Theorem C115_refuted_leading : forall fb errno, standard_fallback Double fb -> errno <> ERANGE ->
  atof (fmt_of Double) (written lead ++ [0]) true (with_point (code ",") fb) errno =
    Ok {| at_value := 0; at_status := success; at_str_end := Some 0; at_errno := errno; at_used_fallback := true |}.
Proof.
  intros fb errno G NE. destruct comma_point as [P Np]. assert (W : well_formed lead) by wfn.
  destruct (C115_leading_point Double (code ",") fb lead _ 0 [] errno G P Np W eq_refl eq_refl) as [C|E].
  - exfalso. revert C. apply asks_depends. unfold asks. run.
  - rewrite E. unfold check_errno. destruct (Z.eqb_spec errno ERANGE); [contradiction|reflexivity].
Qed.

(** a number without a point is read correctly in such a locale with the help of the fallback *)
Example C115_at_work : exists r, atof (fmt_of Double) (cstr "9007199254740993") true (with_point (code ",") (strtod_reference Double)) 0 = Ok r /\ at_str_end r = Some 16.
Proof.
  assert (W : well_formed tie16) by wfn. destruct comma_point as [P Np].
  assert (E : value tie16 = 9007199254740993%R).
  { unfold value, abs_value. change (is_minus (n_sign tie16)) with false. cbv iota. change (coefficient tie16) with 9007199254740993. change (scale tie16) with 0. change (bpow radix10 0) with 1%R. apply Rmult_1_r. }
  pose proof (standard_fallback_exists Double) as G. assert (A : asks Double (written tie16 ++ [0])) by (unfold asks; run).
  assert (R : in_range Double (value tie16)).
  { split; rewrite E.
    - rewrite Rabs_pos_eq by lra. apply Rle_trans with (bpow radix2 0); [apply bpow_le; cbn; lia|cbn; lra].
    - apply Rle_lt_trans with (rnd Double (bpow radix2 54)).
      + rewrite Rabs_pos_eq by (apply rnd_nonneg; lra). apply rnd_mono. rewrite (bpow_IZR radix2 54) by lia. apply IZR_le. vm_compute. discriminate.
      + rewrite rnd_bpow by (cbn; lia). apply bpow_lt. cbn. lia. }
  destruct (C115_no_point Double (code ",") (strtod_reference Double) tie16 0 [] 0 G P W eq_refl nul_ends ltac:(discriminate) R) as (r & G1 & _ & G3 & _).
  change (cstr "9007199254740993") with (written tie16 ++ [0])%list. rewrite A. unfold fallback_answer. rewrite G1. eexists. split; [reflexivity|]. cbn [at_str_end]. now rewrite G3.
Qed.

(** the hypotheses of C115_circle are met by that float, and by the double 0.1 *)
Example C115_meets : nonzero Float v23 /\ well_formed text23 /\ prints Float v23 (written text23) /\ ends_number 0 /\ 0 <> code "," /\ ~ normal_power Float v23 /\
  standard_fallback Float (strtod_reference Float) /\ point_char (code ",") /\ code "," <> code ".".
Proof.
  split; [nz|]. split; [wfn|]. split; [pr|]. split; [exact nul_ends|]. split; [discriminate|]. split; [|split; [apply standard_fallback_exists|exact comma_point]].
  intros (k & K1 & K2). rewrite abs_real in K2. apply power_significand in K2; [|exact K1]. vm_compute in K2. discriminate.
Qed.
