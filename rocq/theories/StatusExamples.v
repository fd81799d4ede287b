(** Concrete texts for C83. *)
From Coq Require Import Reals Lra Lia ZArith List String Ascii.
From Flocq Require Import Core.
From Verif Require Import Machine Format DiyFp Krosh Atof Ftoa Spec ParseSpec TextSpec ReadSpec MeanSpec Api ParseApi Instances
  ParseFacts CmpFacts ShortFacts Refuted ParseExamples BeyondExamples Defined Ends Reading Meaning Status.
Import ListNotations.
Open Scope Z_scope.

(** 1e-400 underflows, 1e400 overflows, 3e-324 underflows *)
Example C83_meets : forall n, In n [p5; p7; p8] -> well_formed n /\ within_limits n /\ readable_exponent n /\ coefficient n <> 0.
Proof.
  intros n [<-|[<-|[<-|[]]]]; (split; [wfn|]; split; [lim|]; split; [apply small_readable; vm_compute; reflexivity|vm_compute; congruence]).
Qed.

Example C83_at_work : forall want fb errno,
  atof (fmt_of Double) (cstr "1e-400") want fb errno = Ok (answer want errno (zero_of Double false) underflow 6) /\
  atof (fmt_of Double) (cstr "1e400") want fb errno = Ok (answer want errno (infinity_of Double false) overflow 5) /\
  atof (fmt_of Double) (cstr "3e-324") want fb errno = Ok (answer want errno (zero_of Double false) underflow 6) /\
  atof (fmt_of Float) (cstr "123456789e-52") want fb errno = Ok (answer want errno (zero_of Float false) underflow 13).
Proof. intros want fb errno. repeat split; run. Qed.

Example C83_any_text_meets : exists m, meaning_of Double (text "-7E-99999") = Number m /\ (List.length (mantissa_text m) <= parser_limit)%nat /\ coefficient m <> 0.
Proof.
  exists (nume Minus [7] None Minus [9;9;9;9]). split; [vm_compute; reflexivity|]. split; [apply Nat.leb_le; vm_compute; reflexivity|vm_compute; congruence].
Qed.
