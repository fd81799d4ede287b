(** Concrete cases for C22, C25, C43, C44, C53, C55 and C73. *)
From Coq Require Import Reals Lra Lia ZArith List String Ascii.
From Flocq Require Import Core.
From Verif Require Import Machine Format StaticPow Fraction DiyFp KComp Krosh Atof Ftoa Print BitOps Spec ParseSpec TextSpec Api ParseApi Instances
  CmpFacts ShortFacts Refuted ArithProps ArithExamples ParseExamples MarkerExamples TruncateExamples GoodFallback Protocol Defined DefinedExamples RoundTrip.
Import ListNotations.
Open Scope Z_scope.

(** rounding 45 / 4 = 11.25 down, 47 / 4 = 11.75 up, the ties 46 / 4 = 11.5 up and 42 / 4 = 10.5 down *)
Example ex_C22 : map (fun x => round_up 64 x 2) [45; 47; 46; 42] =
  [Ok {| rr_value := false; rr_is_accurate := true |}; Ok {| rr_value := true; rr_is_accurate := true |};
   Ok {| rr_value := true; rr_is_accurate := false |}; Ok {| rr_value := false; rr_is_accurate := false |}] /\
  round_up 64 45 65 = Fault AssertFailed.
Proof. vm_compute. split; reflexivity. Qed.

(** 0.7500 as a fraction of 128 *)
Example ex_C25 : convert_numerator 4 7 7500 = 96 /\ convert_numerator 4 7 9999 = 127 /\ convert_numerator 4 7 0 = 0.
Proof. vm_compute. repeat split. Qed.

(** a fallback that sets errno whatever it was, and is called *)
Definition fb1 : fallback := fun _ _ => Ok {| fb_value := 4845873199050653696; fb_str_end := 16; fb_errno := 0 |}.
Definition a1 : atof_result := {| at_value := 4845873199050653696; at_str_end := Some 16; at_status := success; at_errno := 0; at_used_fallback := true |}.
Example ex_C43 : (forall e1 e2, fb1 (cstr "9007199254740993") e1 = fb1 (cstr "9007199254740993") e2) /\
  (forall errno, atof double (cstr "9007199254740993") true fb1 errno = Ok a1).
Proof. split; [reflexivity|]. intros errno. rewrite C42_fallback_called. reflexivity. Qed.

(** and some that report an error *)
Definition fb2 (v : Z) : fallback := fun _ _ => Ok {| fb_value := v; fb_str_end := 16; fb_errno := ERANGE |}.
Example ex_C44 : forall errno,
  (exists a, atof double (cstr "9007199254740993") true (fb2 0) errno = Ok a /\ at_used_fallback a = true /\ zero Double 0 /\ at_status a = underflow) /\
  (exists a, atof double (cstr "9007199254740993") true (fb2 (infinity_of Double true)) errno = Ok a /\ at_used_fallback a = true /\
     infinite Double (infinity_of Double true) /\ at_status a = overflow).
Proof.
  intros errno. split; rewrite C42_fallback_called; (eexists; split; [reflexivity|]; split; [reflexivity|]; split; [|reflexivity]);
    repeat split; vm_compute; congruence.
Qed.

(** the bits of -2.5 *)
Example ex_C53 : print_binary_double 13836183955189006336 =
    text "1 10000000000 0100000000000000000000000000000000000000000000000000" /\
  print_binary 5 19 = text "10011".
Proof. vm_compute. split; reflexivity. Qed.

(** -00.000 *)
Definition e1 : numeral := num Minus [0;0] (Some [0;0;0]).
Example ex_C55 : written e1 = text "-00.000" /\ well_formed e1 /\ ends_number 0 /\ within_limits e1 /\ n_exp e1 = None /\ coefficient e1 = 0.
Proof.
  split; [reflexivity|]. split; [wfn|]. split; [repeat split; vm_compute; intuition congruence|]. split; [lim|]. split; reflexivity.
Qed.

(** 12.5E5.5 *)
Example ex_C73 : forall t, bare k1 /\ coefficient k1 <> 0 /\ (List.length (mantissa_text k1) <= parser_limit)%nat /\ e_letter (code "E") /\
  bare d4 /\ cannot_continue d4 0 /\ part_taken d4 d4 /\ ~ exponent_fits t k1 d4.
Proof.
  intros t. split; [bare_tac|]. split; [vm_compute; congruence|].
  split; [apply Nat.leb_le; vm_compute; reflexivity|]. split; [right; reflexivity|]. split; [bare_tac|]. split; [cannot_tac|].
  split; [apply all_taken; [bare_tac|apply Nat.leb_le; vm_compute; reflexivity]|].
  intros (d & K & E & _ & [[C _]|(d' & k & m & P & B & _)] & _); [discriminate C|].
  assert (P' : point_moved Float d4 55 (-1)).
  { split; [vm_compute; intuition congruence|]. exists 0, 0. split; [lia|]. split; [reflexivity|]. split; [reflexivity|]. left. split; [reflexivity|discriminate]. }
  destruct (moved_unique _ _ _ _ _ _ P P') as [_ ->]. lia.
Qed.
