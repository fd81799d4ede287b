(** Texts of floats that are read and printed again as doubles (C111). *)
From Coq Require Import Reals Lra Lia ZArith List String Ascii.
From Flocq Require Import Core.
From Verif Require Import Machine MachineFacts BitOps StaticPow Fraction Format DiyFp KComp Chars Grisu Ftoa Krosh Atof Spec ParseSpec Api ParseApi Instances
  RoundFacts PrintProps PrintExamples CmpFacts ParseProps Refuted ParseExamples CrossType PrintExact Relay.
Import ListNotations.
Open Scope Z_scope.

(** the text 1.261943e33 of a float, read as a double (correctly, and without the fallback), is printed 1.2619430000000001e33 *)
Definition relay_float : Z := 1987633111.
Definition relay_text : numeral := nume NoSign [1] (Some [2;6;1;9;4;3]) NoSign [3;3].
Definition relay_double : Z := 5102327667145809376.
Definition relay_again : numeral := nume NoSign [1] (Some [2;6;1;9;4;3;0;0;0;0;0;0;0;0;0;1]) NoSign [3;3].
Theorem C111_refuted : nonzero Float relay_float /\ prints Float relay_float (written relay_text) /\ written relay_text = text "1.261943e33" /\
  (forall want fb errno, atof (fmt_of Double) (written relay_text ++ [0]) want fb errno = Ok (answer want errno relay_double success (len (written relay_text)))) /\
  rnd Double (value relay_text) = real_of Double relay_double /\
  prints Double relay_double (written relay_again) /\ written relay_again = text "1.2619430000000001e33".
Proof.
  split; [nz|]. split; [pr|]. split; [reflexivity|]. split; [run|]. split.
  - change (real_of Double relay_double) with (magnitude Double relay_double). apply (rounds_strictly_rnd Double relay_double (coefficient relay_text) (scale relay_text)). vm_compute. reflexivity.
  - split; [pr|reflexivity].
Qed.

(** 0.1 *)
Example C111_meets : nonzero Float v2 /\ well_formed ex2 /\ prints Float v2 (written ex2) /\ ends_number 0 /\ clear_of_ties Double (/ 512) (value ex2).
Proof.
  destruct ex2_meets as (A & _ & B & C & _). split; [exact A|]. split; [exact B|]. split; [exact C|]. split; [exact nul_ends|].
  apply (meets_clear Double ex2 4591870180066957722 9 _ B); [fin|lia|vm_compute; reflexivity|]. cbn. lra.
Qed.
Example C111_at_work : forall want fb errno, exists y, atof (fmt_of Double) (text "0.1" ++ [0]) want fb errno = Ok (answer want errno y success 3) /\ prints Double y (text "0.1").
Proof. intros. destruct C111_meets as (A & B & C & D & E). exact (C111_relayed v2 ex2 0 [] want fb errno A B C D E). Qed.
(** 1.5 is the same text for both types *)
Definition one_half_text : numeral := num NoSign [1] (Some [5]).
Example C111_same_meets : nonzero Float 1069547520 /\ nonzero Double 4609434218613702656 /\ well_formed one_half_text /\
  prints Float 1069547520 (written one_half_text) /\ prints Double 4609434218613702656 (written one_half_text).
Proof. split; [nz|]. split; [nz|]. split; [wfn|]. split; pr. Qed.
