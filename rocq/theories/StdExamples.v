(** Concrete cases for C99. *)
From Coq Require Import ZArith List String Ascii Lia.
From Verif Require Import Machine Format DiyFp Krosh Atof Spec ParseSpec TextSpec ReadSpec MeanSpec SameSpec ParseApi Instances Refuted WholeSpec Whole Reading Meaning StdSpec Std.
Import ListNotations.
Open Scope Z_scope.

Lemma read_it : forall a bits st k, read_text Double a = Returns bits st k ->
  forall rest fb errno, exists r, atof (fmt_of Double) (a ++ 0 :: rest) true fb errno = Ok r /\ at_used_fallback r = false /\ at_str_end r = Some k.
Proof.
  intros a bits st k E rest fb errno. pose proof (C96_any_text Double a rest true fb errno) as H. cbv zeta in H. rewrite E in H.
  eexists. split; [exact H|]. split; reflexivity.
Qed.
(** whether atof and strtod agree, by what atof consumes *)
Lemma agree : forall a bits st k, read_text Double a = Returns bits st k -> (as_strtod a k <-> ~ elsewhere a).
Proof.
  intros a bits st k E. destruct (read_it a bits st k E [] (fun _ _ => Fault OutOfFuel) 0) as (r & H1 & H2 & H3). exact (C99_stops Double a [] _ 0 r k H1 H2 H3).
Qed.

(** "-12.5e3x": seven characters, as with strtod *)
Definition some_number : numeral := {| n_sign := Minus; n_int := [1; 2]; n_frac := Some [5]; n_exp := Some {| x_upper := false; x_sign := NoSign; x_digits := [3] |} |}.
Lemma some_subject : subject (text "-12.5e3x") (written some_number).
Proof. exact (proj1 (proj2 (number_subject (text "-12.5e3x") _ _ (eq_refl : split_bare (text "-12.5e3x") = (without_exponent some_number, text "e3x")) ltac:(discriminate)))). Qed.
Example C99_number : read_text Double (text "-12.5e3x") = Returns 13891469598856839168 success 7 /\ as_strtod (text "-12.5e3x") 7 /\ ~ elsewhere (text "-12.5e3x").
Proof.
  assert (E : read_text Double (text "-12.5e3x") = Returns 13891469598856839168 success 7) by (vm_compute; reflexivity). split; [exact E|].
  assert (A : as_strtod (text "-12.5e3x") 7) by (left; exists (written some_number); split; [exact some_subject|reflexivity]). split; [exact A|]. exact (proj1 (agree _ _ _ _ E) A).
Qed.
(** "nan(x_1)!" *)
Example C99_word : as_strtod (text "nan(x_1)!") 8 /\ ~ elsewhere (text "nan(x_1)!").
Proof.
  assert (A : as_strtod (text "nan(x_1)!") 8).
  { left. exists (text "nan(x_1)"). split; [|reflexivity].
    exact (word_subject (text "nan(x_1)!") _ _ (eq_refl : split_bare (text "nan(x_1)!") = (sign_only NoSign, text "nan(x_1)!")) eq_refl ltac:(discriminate)). }
  split; [exact A|]. eapply (agree (text "nan(x_1)!")); [vm_compute; reflexivity|exact A].
Qed.
(** "1e;", "0e5", "-", "2e5.;": one case of each kind *)
Definition plain (d : Z) (x : option exponent_part) : numeral := {| n_sign := NoSign; n_int := [d]; n_frac := None; n_exp := x |}.
Example C99_dangling : read_text Double (text "1e;") = Returns 4607182418800017408 success 2 /\ elsewhere (text "1e;") /\ ~ as_strtod (text "1e;") 2.
Proof.
  assert (E : read_text Double (text "1e;") = Returns 4607182418800017408 success 2) by (vm_compute; reflexivity). split; [exact E|].
  assert (L : elsewhere (text "1e;")).
  { destruct (number_subject (text "1e;") _ _ (eq_refl : split_bare (text "1e;") = (plain 1 None, text "e;")) ltac:(discriminate)) as (W & S & _).
    apply (dangling _ (plain 1 None) (code "e") (text ";") W S); [discriminate|reflexivity|reflexivity|now left]. }
  split; [exact L|]. intros A. apply (agree _ _ _ _ E) in A. contradiction.
Qed.
Example C99_zero : elsewhere (text "0e5") /\ ~ as_strtod (text "0e5") 1.
Proof.
  assert (L : elsewhere (text "0e5")).
  { destruct (number_subject (text "0e5") _ _ (eq_refl : split_bare (text "0e5") = (plain 0 None, text "e5")) ltac:(discriminate)) as (W & S & _).
    apply (zero_with_exponent _ _ W S); [reflexivity|discriminate]. }
  split; [exact L|]. intros A. eapply (agree (text "0e5")) in A; [contradiction|vm_compute; reflexivity].
Qed.
Example C99_sign : elsewhere (text "-") /\ ~ as_strtod (text "-") 1.
Proof.
  assert (L : elsewhere (text "-")).
  { apply lone; [|right; left; reflexivity].
    apply (nothing_subject (text "-") _ _ (eq_refl : split_bare (text "-") = (sign_only Minus, []))); [reflexivity|right; reflexivity]. }
  split; [exact L|]. intros A. eapply (agree (text "-")) in A; [contradiction|vm_compute; reflexivity].
Qed.
Example C99_point : elsewhere (text "2e5.;") /\ ~ as_strtod (text "2e5.;") 4.
Proof.
  assert (L : elsewhere (text "2e5.;")).
  { destruct (number_subject (text "2e5.;") _ _ (eq_refl : split_bare (text "2e5.;") = (plain 2 None, text "e5.;")) ltac:(discriminate)) as (W & S & _).
    eapply (point_behind _ _ _ (text ";") W S); [discriminate|reflexivity|reflexivity|]. apply Nat.ltb_lt. vm_compute. reflexivity. }
  split; [exact L|]. intros A. eapply (agree (text "2e5.;")) in A; [contradiction|vm_compute; reflexivity].
Qed.
