(** Concrete texts for C75 and C76. *)
From Coq Require Import Lia ZArith List String Ascii.
From Verif Require Import Machine Format DiyFp Krosh Atof Ftoa Print Spec ParseSpec TextSpec ReadSpec Api ParseApi Instances
  Refuted ParseExamples MarkerExamples TruncateExamples Defined DefinedExamples Ends Reading.
Import ListNotations.
Open Scope Z_scope.

(** what is taken, by the specification *)
Example text_lengths :
  map (fun s => text_length (text s))
    ["127.0.0.1"; "1e5e6"; "1.5e-3.x"; "-.5-"; "nano"; "-NAN(ab_1)x"; "nan(x"; "nan(-)"; "+Infinit"; "INFINITY."; "nope"; "i"; "-n1";
     "0e5"; "1e"; "1e+"; "1enan"; "1e-inf"; "1eit"; ".e5"; "-"; "+-1"; ""; "x"; " 1"; "0x10"; "12e3 "]%string
  = [5; 3; 7; 3; 3; 10; 3; 3; 4; 8; 1; 1; 2; 1; 2; 3; 5; 6; 3; 1; 1; 1; 0; 0; 0; 1; 4].
Proof. vm_compute. reflexivity. Qed.

(** ... and by the code *)
Ltac took := intros; run.
Example C75_at_work_1 : forall want fb errno, atof double (cstr "127.0.0.1") want fb errno = Ok (answer want errno 4638637247447433216 success 5).
Proof. took. Qed.
Example C75_at_work_3 : forall want fb errno, atof double (cstr "1enan") want fb errno = Ok (answer want errno 4607182418800017408 success 5).
Proof. took. Qed.
Example C75_at_work_4 : forall want fb errno, atof single (cstr "1e-inf") want fb errno = Ok (answer want errno 1065353216 success 6).
Proof. took. Qed.
Example C75_at_work_5 : forall want fb errno, atof single (cstr "-n1") want fb errno = Ok (answer want errno (2 ^ 31) success 2).
Proof. took. Qed.

Example C75_meets : forall t, ~ has_unfit_exponent t (text "127.0.0.1") /\ ~ has_unfit_exponent t (text "1enan").
Proof.
  intros t. split; intros U; apply C74_undefined_exactly in U; destruct U as (f & U); specialize (U [] true (fun _ _ => Fault OutOfFuel) 0).
  - assert (E : exists v st, atof (fmt_of t) (text "127.0.0.1" ++ [0]) true (fun _ _ => Fault OutOfFuel) 0 = Ok (answer true 0 v st 5)) by (destruct t; eexists; eexists; vm_compute; reflexivity).
    destruct E as (v & st & E). rewrite E in U. discriminate U.
  - assert (E : exists v st, atof (fmt_of t) (text "1enan" ++ [0]) true (fun _ _ => Fault OutOfFuel) 0 = Ok (answer true 0 v st 5)) by (destruct t; eexists; eexists; vm_compute; reflexivity).
    destruct E as (v & st & E). rewrite E in U. discriminate U.
Qed.

Example C75_words_meets : split_bare (text "-inFinitesimal") = (num Minus [] None, text "inFinitesimal") /\
  no_digits (num Minus [] None) = true /\ word_at (text "inFinitesimal") = (Inf, 3) /\ word_at (text "nice") = (NoWord, 1) /\ word_at (text "NaN(_9z)") = (Nan, 8).
Proof. vm_compute. repeat split. Qed.

(** 127.0.0.1: the second point ends the number *)
Definition a1 : numeral := num NoSign [1;2;7] (Some [0]).
Example C76_meets : bare a1 /\ cannot_continue a1 (code ".") /\ cannot_continue a1 (code "+") /\ cannot_continue a1 (code "n") /\ coefficient a1 <> 0 /\
  ~ e_letter (code ".") /\ mantissa_text a1 ++ code "." :: text "0.1" = text "127.0.0.1".
Proof.
  split; [bare_tac|]. split; [cannot_tac|]. split; [cannot_tac|]. split; [cannot_tac|]. split; [vm_compute; congruence|].
  split; [intros [E|E]; vm_compute in E; discriminate E|reflexivity].
Qed.

(** -0.00 followed by an exponent, and a lone sign *)
Example C76_no_digits_meets : bare (num Minus [0] (Some [0;0])) /\ cannot_continue (num Minus [0] (Some [0;0])) (code "e") /\ coefficient (num Minus [0] (Some [0;0])) = 0 /\
  bare (num Plus [] None) /\ cannot_continue (num Plus [] None) (code "-") /\ coefficient (num Plus [] None) = 0.
Proof. split; [bare_tac|]. split; [cannot_tac|]. split; [reflexivity|]. split; [bare_tac|]. split; [|reflexivity].
  split; [unfold between; vm_compute; intuition congruence|]. split; [intros E; vm_compute in E; discriminate E|]. split; [intros _ E; discriminate E|].
  intros E _. vm_compute in E. intuition discriminate. Qed.
