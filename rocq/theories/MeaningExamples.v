(** Concrete texts for C79. *)
From Coq Require Import Reals Lra Lia ZArith List String Ascii.
From Flocq Require Import Core.
From Verif Require Import Machine Format DiyFp Krosh Atof Ftoa Spec ParseSpec TextSpec ReadSpec MeanSpec Api ParseApi Instances
  CmpFacts ShortFacts Refuted ParseExamples BeyondExamples Defined Ends Reading Meaning.
Import ListNotations.
Open Scope Z_scope.

(** what texts mean *)
Example meanings : map (fun s => meaning_of Double (text s))
    ["1e5"; "-1.50e-1.x"; "1e4000000"; "1e-99999"; "1e4294967296"; "1e"; "2e+x"; "1enan"; "0e5"; ""; "-n"; "+inf"; "NaN(1)"; "1e5.5"; "1e10000"; "1.2.3"]%string
  = [Number (nume NoSign [1] None NoSign [0;0;0;5]); Number (nume Minus [1] (Some [5;0]) Minus [0;0;0;1]);
     Undefined; Number (nume NoSign [1] None Minus [9;9;9;9]);
     Number (nume NoSign [1] None Minus [0;0;0;6]); Number (nume NoSign [1] None NoSign [0;0;0;0]);
     Number (nume NoSign [2] None NoSign [0;0;0;0]); Number (nume NoSign [1] None NoSign [0;0;0;0]);
     Number (num NoSign [0] None); Number (num NoSign [] None);
     Word Minus NoWord; Word Plus Inf; Word NoSign Nan; Undefined; Undefined; Number (num NoSign [1] (Some [2]))].
Proof. vm_compute. reflexivity. Qed.

(** "1e-1.z" means 0.1 and is read correctly *)
Definition q1 : numeral := nume NoSign [1] None Minus [0;0;0;1].
Example C79_meets : forall t, meaning_of t (text "1e-1.z") = Number q1 /\ (List.length (mantissa_text q1) <= parser_limit)%nat /\
  short_decimal t q1 /\ in_range t (value q1) /\ ~ carries t (value q1).
Proof.
  intros t. assert (W : well_formed q1) by wfn. assert (F : finite t (tenth t)) by (destruct t; fin).
  split; [destruct t; vm_compute; reflexivity|]. split; [apply Nat.leb_le; vm_compute; reflexivity|]. split.
  - exists 1, 0. split; [destruct t; vm_compute; split; congruence|]. split; [lia|]. split; [reflexivity|]. intros _. vm_compute. congruence.
  - apply (meets_range t q1 (tenth t) W F); destruct t; vm_compute; congruence.
Qed.

Example C79_at_work : forall t, exists v, forall want fb errno,
  atof (fmt_of t) (cstr "1e-1.z") want fb errno = Ok (answer want errno v success 5).
Proof. intros t. exists (tenth t). intros want fb errno. destruct t; run. Qed.

(** pi with 36 digits in front of something else *)
Example C79_near_meets : forall t, meaning_of t (mantissa_text p3 ++ text ".5e7") = Number p3 /\ (List.length (mantissa_text p3) <= parser_limit)%nat /\
  (bpow radix2 (min_exp t) * (1 + bpow radix2 (- precision t)) <= Rabs (value p3)
     <= bpow radix2 (max_exp t) * (1 - bpow radix2 (1 - precision t)))%R /\
  (t = Float -> pow10 (-42) <= Rabs (value p3))%R.
Proof.
  intros t. destruct (C68_meets t) as (_ & B & C & D). split; [destruct t; vm_compute; reflexivity|]. split; [apply B|]. auto.
Qed.
