(** Concrete texts that meet the hypotheses of C41 and C69. *)
From Coq Require Import Lia ZArith List String Ascii.
From Verif Require Import Machine Format DiyFp Krosh Atof Ftoa Print Spec ParseSpec Api ParseApi Instances
  Refuted ParseExamples Marker.
Import ListNotations.
Open Scope Z_scope.

(** 12.5E+x *)
Definition k1 : numeral := num NoSign [1;2] (Some [5]).
Example C41_meets : written k1 = text "12.5" /\ well_formed k1 /\ n_exp k1 = None /\ coefficient k1 <> 0 /\ within_limits k1 /\
  e_letter (code "E") /\ begins_nothing (code "x") /\
  written k1 ++ code "E" :: sign_text Plus ++ code "x" :: [0] = text "12.5E+x" ++ [0].
Proof.
  split; [reflexivity|]. split; [wfn|]. split; [reflexivity|]. split; [vm_compute; congruence|]. split; [lim|].
  split; [right; reflexivity|]. split; [|reflexivity]. repeat split; vm_compute; intuition congruence.
Qed.
(** by computation, in agreement with the theorem: six characters, 12.5 *)
Example C41_at_work : forall want fb errno,
  atof double (cstr "12.5E+x") want fb errno = Ok (answer want errno 4623226492472524800 success 6).
Proof. intros. run. Qed.

(** 1e4294967297: the tenth digit is dropped, 4294967290 = 2^32 - 6 *)
Definition k2 : numeral := nume NoSign [1] None NoSign [4;2;9;4;9;6;7;2;9;7].
Definition k3 : numeral := nume NoSign [1] None Minus [6].
Definition x2 : exponent_part := {| x_upper := false; x_sign := NoSign; x_digits := [4;2;9;4;9;6;7;2;9;7] |}.
Example C69_meets : written k2 = text "1e4294967297" /\ well_formed k2 /\ n_exp k2 = Some x2 /\ coefficient k2 <> 0 /\ within_limits k2 /\
  exponent_taken (dval (x_digits x2)) (-6) /\
  well_formed k3 /\ n_sign k3 = n_sign k2 /\ n_int k3 = n_int k2 /\ n_frac k3 = n_frac k2 /\
  exponent_value k3 = signed (x_sign x2) (-6) /\ small_exponent k3 /\ within_limits k3.
Proof.
  split; [reflexivity|]. split; [wfn|]. split; [reflexivity|]. split; [vm_compute; congruence|]. split; [lim|].
  split. { change (dval (x_digits x2)) with 4294967297. split; [lia|]. split; [vm_compute; congruence|]. exists 4294967290. split.
    - right. exists 1. split; [lia|]. split; [lia|reflexivity].
    - split; [exists (-1); reflexivity|]. lia. }
  split; [wfn|]. do 4 (split; [reflexivity|]). split; [vm_compute; reflexivity|lim].
Qed.
Example C69_at_work : forall want fb errno,
  atof double (cstr "1e4294967297") want fb errno = Ok (answer want errno 4517329193108106637 success 12) /\
  atof double (cstr "1e-6") want fb errno = Ok (answer want errno 4517329193108106637 success 4).
Proof. intros. split; run. Qed.

(** -1e3000000001, a huge number: reads as plus zero, with status underflow *)
Definition k4 : numeral := nume Minus [1] None NoSign [3;0;0;0;0;0;0;0;0;1].
Definition x4 : exponent_part := {| x_upper := false; x_sign := NoSign; x_digits := [3;0;0;0;0;0;0;0;0;1] |}.
Example C69_far_meets : written k4 = text "-1e3000000001" /\ well_formed k4 /\ n_exp k4 = Some x4 /\ coefficient k4 <> 0 /\ within_limits k4 /\
  exponent_taken (dval (x_digits x4)) (-1294967296) /\ 10000 <= Z.abs (-1294967296) <= 2000000000.
Proof.
  split; [reflexivity|]. split; [wfn|]. split; [reflexivity|]. split; [vm_compute; congruence|]. split; [lim|].
  split; [|lia]. change (dval (x_digits x4)) with 3000000001. split; [lia|]. split; [vm_compute; congruence|]. exists 3000000000. split.
    - right. exists 1. split; [lia|]. split; [lia|reflexivity].
    - split; [exists (-1); reflexivity|]. lia.
Qed.
Example C69_far_at_work : forall t want fb errno,
  atof (fmt_of t) (cstr "-1e3000000001") want fb errno = Ok (answer want errno (zero_of t false) underflow 13).
Proof.
  intros. destruct C69_far_meets as (W & A & B & C & D & E & F).
  pose proof (C69_exponent_wraps_far t k4 x4 _ 0 [] want fb errno A B C D nul_ends E F) as H.
  change (written k4 ++ [0]) with (cstr "-1e3000000001") in H. rewrite H. reflexivity.
Qed.
