(** Concrete cases for C98. *)
From Coq Require Import ZArith List String Ascii Lia.
From Verif Require Import Machine Format DiyFp Krosh Atof Spec ParseSpec ReadSpec SameSpec ParseApi Instances Refuted WholeSpec Whole Prefix.
Import ListNotations.
Open Scope Z_scope.

(** "1.5e" consumes 4 characters, "1.5e2;" consumes 5 *)
Lemma p_short : forall rest fb errno, atof (fmt_of Double) (text "1.5e" ++ 0 :: rest) true fb errno = Ok (answer true errno 4609434218613702656 success 4).
Proof. intros. pose proof (C96_any_text Double (text "1.5e") rest true fb errno) as H. assert (E : read_text Double (text "1.5e") = Returns 4609434218613702656 success 4) by (vm_compute; reflexivity). cbv zeta in H. rewrite E in H. exact H. Qed.
Lemma p_long : forall rest fb errno, atof (fmt_of Double) (text "1.5e" ++ text "2;" ++ 0 :: rest) true fb errno = Ok (answer true errno 4639481672377565184 success 5).
Proof. intros. pose proof (C96_any_text Double (text "1.5e2;") rest true fb errno) as H. assert (E : read_text Double (text "1.5e2;") = Returns 4639481672377565184 success 5) by (vm_compute; reflexivity). cbv zeta in H. rewrite E in H. exact H. Qed.
Example C98_grows_at_work : exists k k', Some 4 = Some k /\ Some 5 = Some k' /\ k <= k'.
Proof.
  set (fb := fun (_ : list Z) (_ : Z) => Fault OutOfFuel : res fallback_result).
  exact (C98_grows Double (text "1.5e") (text "2;") [] [] fb fb 0 0 _ _ (p_short [] fb 0) eq_refl (p_long [] fb 0) eq_refl).
Qed.
Example C98_alone_at_work : forall rest fb errno, atof (fmt_of Double) (text "1.5e2" ++ 0 :: rest) true fb errno = Ok (answer true errno 4639481672377565184 success 5).
Proof.
  intros. apply (C98_alone Double (text "1.5e2;") [] fb errno _ 5 (p_long [] fb errno) eq_refl eq_refl). reflexivity.
Qed.
(** with 2049 characters it need not hold: 2049 zeros and a 1 are 1, of which 2049 characters are consumed; these are zero *)
Example C98_limit :
  read_text Double (repeat (code "0") 2049 ++ text "1") = Returns 4607182418800017408 success 2049 /\
  read_text Double (firstn 2049 (repeat (code "0") 2049 ++ text "1")) = Returns 0 success 2049.
Proof. split; vm_compute; reflexivity. Qed.
(** the outcomes of C98_outcome *)
Example C98_outcomes :
  read_text Double (text "9007199254740993x") = Defers /\ read_text Double (text "1e10000x") = Fails /\ text_length (text "1e10000x") = 7.
Proof. repeat split; vm_compute; reflexivity. Qed.
