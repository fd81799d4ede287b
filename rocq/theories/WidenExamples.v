(** Numbers printed as a float and as a double (C110). *)
From Coq Require Import Reals Lra Lia ZArith List String Ascii.
From Flocq Require Import Core.
From Verif Require Import Machine MachineFacts BitOps Format Chars Ftoa Spec ParseSpec Api Instances RoundFacts PrintProps PrintExamples Refuted ParseExamples CrossType CrossExamples Widen.
Import ListNotations.
Open Scope Z_scope.

(** 0.1f is printed "0.1"; as a double it is printed "1.0000000149011612e-01" *)
Example C110_meets : nonzero Float v2 /\ nonzero Double v2_wide /\ real_of Double v2_wide = real_of Float v2 /\
  well_formed ex2 /\ prints Float v2 (written ex2) /\ well_formed ex2_wide /\ prints Double v2_wide (written ex2_wide) /\
  abs_value ex2 = (IZR 1 * pow10 (-1))%R /\ 1 mod 10 <> 0 /\ abs_value ex2_wide = (IZR 10000000149011612 * pow10 (-17))%R.
Proof.
  destruct ex2_meets as (A1 & _ & A2 & A3 & _). destruct C90_meets as (_ & B1 & B2 & _ & _ & B3 & B4 & _).
  repeat match goal with |- _ /\ _ => split end; try assumption; try apply A1; try apply A2; try apply B1; try apply B3; try reflexivity. discriminate.
Qed.

(** a small denormal number, where the shortest text is not printed: "5.6052e-41" has five digits, the double "5.605193857299268e-41" sixteen *)
Definition tiny_float : Z := 40000.
Definition tiny_wide : Z := 4004694027243880448.
Definition tiny_text : numeral := nume NoSign [5] (Some [6;0;5;2]) Minus [4;1].
Definition tiny_wide_text : numeral := nume NoSign [5] (Some [6;0;5;1;9;3;8;5;7;2;9;9;2;6;8]) Minus [4;1].
Example C110_tiny : nonzero Float tiny_float /\ nonzero Double tiny_wide /\ real_of Double tiny_wide = real_of Float tiny_float /\
  prints Float tiny_float (written tiny_text) /\ written tiny_text = text "5.6052e-41" /\
  prints Double tiny_wide (written tiny_wide_text) /\ written tiny_wide_text = text "5.605193857299268e-41".
Proof.
  split; [nz|]. split; [nz|]. split.
  { replace (real_of Float tiny_float) with (IZR 40000 * bpow radix2 (-149))%R by reflexivity.
    replace (real_of Double tiny_wide) with (IZR 5497558138880000 * bpow radix2 (-186))%R by reflexivity.
    change (-149) with (37 + -186). rewrite bpow_plus. change (bpow radix2 37) with (IZR (2 ^ 37)). rewrite <- Rmult_assoc, <- mult_IZR. reflexivity. }
  split; [pr|]. split; [reflexivity|]. split; [pr|reflexivity].
Qed.

(** so a float that is printed with one digit as a double is printed with one digit *)
Example C110_at_work : forall v w m n d k D, nonzero Float v -> nonzero Double w -> real_of Double w = real_of Float v ->
  well_formed m -> prints Float v (written m) -> well_formed n -> prints Double w (written n) ->
  abs_value m = (IZR D * pow10 k)%R -> D mod 10 <> 0 -> abs_value n = (IZR d * pow10 (-1))%R -> d < 10 -> D < 10.
Proof. intros v w m n d k D A B C E F G H I J K L. exact (C110_float_shorter v w m n D k d (-1) 1 A B C E F G H I J K L). Qed.
