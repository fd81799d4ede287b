(** Concrete cases for C97. *)
From Coq Require Import ZArith List String Ascii Lia.
From Verif Require Import Machine DiyFp Ftoa Krosh Atof Spec ParseSpec SameSpec ParseApi Instances Api WholeSpec Whole ShowSpec ShownText.
Import ListNotations.
Open Scope Z_scope.

Definition shows (t : ftype) (v : Z) (s : string) : Prop := shown_text t v = text s.

Example C97_one : shows Double 4607182418800017408 "1".
Proof. vm_compute. reflexivity. Qed.
Example C97_tenth : shows Double 4591870180066957722 "0.1".
Proof. vm_compute. reflexivity. Qed.
Example C97_minus_pi : shows Double (4614256656552045848 + 2 ^ 63) "-3.141592653589793".
Proof. vm_compute. reflexivity. Qed.
(** the smallest double (4.9e-324) *)
Example C97_smallest : shows Double 1 "7.41098468e-324".
Proof. vm_compute. reflexivity. Qed.
Example C97_float_max : shows Float 2139095039 "3.4028235e38".
Proof. vm_compute. reflexivity. Qed.
Example C97_float_million : shows Float 1232348160 "1000000".
Proof. vm_compute. reflexivity. Qed.
Example C97_nan : shows Double (2047 * 2 ^ 52 + 5) "nan".
Proof. vm_compute. reflexivity. Qed.
Example C97_minus_inf : shows Float (511 * 2 ^ 23) "-inf".
Proof. vm_compute. reflexivity. Qed.
Example C97_minus_zero : shows Double (2 ^ 63) "0".
Proof. vm_compute. reflexivity. Qed.

Lemma tenth_ok : pattern Double 4591870180066957722.
Proof. split; vm_compute; congruence. Qed.
Example C97_at_work : to_basic_string (fmt_of Double) 4591870180066957722 = Ok (text "0.1").
Proof. rewrite (C97_to_string _ _ tenth_ok). now rewrite C97_tenth. Qed.
(** there and back *)
Example C97_back_at_work : forall fb errno,
  bind (to_basic_string (fmt_of Double) 4591870180066957722) (fun s => from_string (fmt_of Double) s fb errno) = Ok (answer false errno 4591870180066957722 success 3).
Proof.
  intros. set (v := 4591870180066957722).
  assert (E : read_text Double (shown_text Double v) = Returns 4591870180066957722 success 3).
  { transitivity (read_text Double (text "0.1")); [exact (f_equal (read_text Double) C97_tenth)|vm_compute; reflexivity]. }
  pose proof (C97_and_back Double v fb errno tenth_ok) as H. cbv zeta in H. destruct (read_text Double (shown_text Double v)); [discriminate E| |discriminate E].
  injection E as -> -> ->. exact H.
Qed.
