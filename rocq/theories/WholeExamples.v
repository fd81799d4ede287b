(** Concrete cases for C96. *)
From Coq Require Import ZArith List String Ascii.
From Verif Require Import Machine DiyFp Krosh Atof Spec ParseSpec SameSpec ParseApi Instances WholeSpec Whole.
Import ListNotations.
Open Scope Z_scope.

Definition reads (t : ftype) (s : string) : outcome := read_text t (text s).

Example C96_one : reads Double "1" = Returns 4607182418800017408 success 1.
Proof. vm_compute. reflexivity. Qed.
Example C96_exponent : reads Double "-1.5e3x" = Returns 13877683922067783680 success 6.
Proof. vm_compute. reflexivity. Qed.
Example C96_empty : reads Double "" = Returns 0 success 0.
Proof. vm_compute. reflexivity. Qed.
Example C96_sign_only : reads Double "-" = Returns (2 ^ 63) success 1.
Proof. vm_compute. reflexivity. Qed.
Example C96_nan : reads Double "nan(12)" = Returns 9221120237041090560 success 7.
Proof. vm_compute. reflexivity. Qed.
(** half way between two values *)
Example C96_defers : reads Double "9007199254740993" = Defers.
Proof. vm_compute. reflexivity. Qed.
(** undefined behaviour *)
Example C96_fails : reads Double "1e10000" = Fails.
Proof. vm_compute. reflexivity. Qed.
(** the exponent of a zero is not consumed; a marker without an exponent is *)
Example C96_zero : reads Double "0e5" = Returns 0 success 1.
Proof. vm_compute. reflexivity. Qed.
Example C96_marker : reads Double "1em" = Returns 4607182418800017408 success 2.
Proof. vm_compute. reflexivity. Qed.
Example C96_many : reads Double "12345678901234567890.5" = Returns 4892433759222981601 success 22.
Proof. vm_compute. reflexivity. Qed.
Example C96_float : reads Float "-3.25" = Returns 3226468352 success 5.
Proof. vm_compute. reflexivity. Qed.

(** a 1 behind 2100 zeros is not seen: the text is a zero *)
Definition zeros_then_one (n : nat) : list Z := text "0." ++ repeat (code "0") n ++ text "1".
Example C96_cut : read_text Double (zeros_then_one 2100) = Returns 0 success 2049.
Proof. vm_compute. reflexivity. Qed.
(** 1 followed by 2100 zeros is infinite; what is left of the text is not consumed *)
Example C96_long : read_text Double (code "1" :: repeat (code "0") 2100) = Returns (2047 * 2 ^ 52) overflow 2049.
Proof. vm_compute. reflexivity. Qed.

(** the theorem at work *)
Example C96_at_work : forall want fb errno, atof (fmt_of Double) (text "-1.5e3x" ++ [0])%list want fb errno = Ok (answer want errno 13877683922067783680 success 6).
Proof. intros. pose proof (C96_any_text Double (text "-1.5e3x") [] want fb errno) as H. cbv zeta in H. fold (reads Double "-1.5e3x") in H. now rewrite C96_exponent in H. Qed.
Example C96_at_work_string : forall fb errno, from_string (fmt_of Double) (text "1em" ++ 0 :: text "x")%list fb errno = Ok (answer false errno 4607182418800017408 success 2).
Proof. intros. pose proof (C96_from_string Double (text "1em") (text "x") fb errno) as H. cbv zeta in H. fold (reads Double "1em") in H. rewrite C96_marker in H. exact (proj2 H). Qed.
