(** Concrete cases for C92. *)
From Coq Require Import Reals Lra Lia ZArith List String Ascii.
From Flocq Require Import Core.
From Verif Require Import Machine Krosh Atof Spec ParseSpec SameSpec ParseApi Instances DvalFacts ShortFacts ParseFacts GapFacts CmpFacts BoundFacts TableFacts ScaledFacts ParseProps Refuted ParseExamples SameFacts Same.
Open Scope Z_scope.

(** pi with 25 digits behind the point, and the same without the point *)
Definition s1 : numeral := num NoSign [3] (Some [1;4;1;5;9;2;6;5;3;5;8;9;7;9;3;2;3;8;4;6;2;6;4;3;3]).
Definition s2 : numeral := {| n_sign := Plus; n_int := [0;3;1;4;1;5;9;2;6;5;3;5;8;9;7;9;3;2;3;8;4;6;2;6;4;3;3]; n_frac := Some [0];
  n_exp := Some {| x_upper := true; x_sign := Minus; x_digits := [0;2;5] |} |}.

Lemma scaled_value : forall n m a, is_minus (n_sign n) = is_minus (n_sign m) -> 0 <= a -> scale n = scale m + a -> coefficient m = coefficient n * 10 ^ a ->
  value n = value m.
Proof.
  intros n m a S A E C. assert (H : abs_value n = abs_value m).
  { unfold abs_value. rewrite C, mult_IZR, pow10_IZR, E, bpow_plus by assumption. ring. }
  unfold value. now rewrite S, H.
Qed.

Example C92_meets : forall t, written s1 = text "3.1415926535897932384626433" /\ written s2 = text "+031415926535897932384626433.0E-025" /\
  well_formed s1 /\ well_formed s2 /\ within_limits s1 /\ within_limits s2 /\
  readable_exponent s1 /\ readable_exponent s2 /\ point_clear t s1 /\ point_clear t s2 /\ value s1 = value s2 /\ value s1 <> 0%R.
Proof.
  intros t. split; [reflexivity|]. split; [reflexivity|]. split; [wfn|]. split; [wfn|]. split; [lim|]. split; [lim|].
  split; [apply small_readable; vm_compute; reflexivity|]. split; [apply small_readable; vm_compute; reflexivity|].
  split; [left; destruct t; vm_compute; reflexivity|]. split; [right; right; vm_compute; reflexivity|].
  split; [apply scaled_value with 1; vm_compute; congruence|].
  unfold value. change (is_minus (n_sign s1)) with false. cbv iota. unfold abs_value.
  apply Rmult_integral_contrapositive_currified; [|apply Rgt_not_eq, bpow_gt_0].
  apply IZR_neq. vm_compute. congruence.
Qed.
Example C92_runs : read_alike Double s1 s2.
Proof. apply C92_same_number_partial; apply (C92_meets Double). Qed.

(** 1000, 1e3, 0.1E4 and 00001000.00e-0 *)
Definition s3 : numeral := num NoSign [1;0;0;0] None.
Definition s4 : numeral := nume NoSign [1] None NoSign [3].
Definition s5 : numeral := {| n_sign := Plus; n_int := [0]; n_frac := Some [1]; n_exp := Some {| x_upper := true; x_sign := NoSign; x_digits := [4] |} |}.
Definition s6 : numeral := nume NoSign [0;0;0;0;1;0;0;0] (Some [0;0]) Minus [0].
Example C92_short_meets : forall t x, In x [s4; s5; s6] ->
  well_formed s3 /\ well_formed x /\ within_limits s3 /\ within_limits x /\ readable_exponent s3 /\ readable_exponent x /\
  significant_digits_at_most (exact_digits t) s3 /\ significant_digits_at_most (exact_digits t) x /\ value s3 = value x /\ value s3 <> 0%R.
Proof.
  assert (E : forall x, In x [s4; s5; s6] -> value s3 = value x).
  { intros x [<-|[<-|[<-|[]]]].
    - symmetry. apply scaled_value with 3; vm_compute; congruence.
    - symmetry. apply scaled_value with 3; vm_compute; congruence.
    - apply scaled_value with 2; vm_compute; congruence. }
  assert (P10 : forall t, 1 < 10 ^ exact_digits t) by (intros t; apply Z.ltb_lt; destruct t; vm_compute; reflexivity).
  intros t x Hx. split; [wfn|]. assert (V := E x Hx). specialize (P10 t).
  split; [destruct Hx as [<-|[<-|[<-|[]]]]; wfn|]. split; [lim|]. split; [destruct Hx as [<-|[<-|[<-|[]]]]; lim|].
  split; [apply small_readable; vm_compute; reflexivity|].
  split; [destruct Hx as [<-|[<-|[<-|[]]]]; apply small_readable; vm_compute; reflexivity|].
  split; [exists 1, 3; split; [lia|split; [lia|vm_compute; reflexivity]]|].
  split.
  { destruct Hx as [<-|[<-|[<-|[]]]]; [exists 1, 0|exists 1, 0|exists 1, 5]; (split; [lia|split; [lia|vm_compute; reflexivity]]). }
  split; [exact V|]. unfold value. change (is_minus (n_sign s3)) with false. cbv iota. unfold abs_value.
  apply Rmult_integral_contrapositive_currified; [|apply Rgt_not_eq, bpow_gt_0].
  apply IZR_neq. vm_compute. congruence.
Qed.

(** -0.00 and -0e7 *)
Example C92_zeros_meet : let n := num Minus [0] (Some [0;0]) in let m := nume Minus [0] None NoSign [7] in
  well_formed n /\ well_formed m /\ within_limits n /\ within_limits m /\ value n = 0%R /\ value m = 0%R /\ is_minus (n_sign n) = is_minus (n_sign m).
Proof.
  intros n m. split; [wfn|]. split; [wfn|]. split; [lim|]. split; [lim|].
  split; [unfold value, abs_value; cbn [n n_sign num is_minus]; change (coefficient n) with 0; ring|].
  split; [unfold value, abs_value; cbn [m n_sign nume is_minus]; change (coefficient m) with 0; ring|]. reflexivity.
Qed.

(** the fraction of 10680655625563945099.99e-19 does not count: the number is taken for 1.0680655625563945099 *)
Definition s7 : numeral := nume NoSign [1;0;6;8;0;6;5;5;6;2;5;5;6;3;9;4;5;0;9;9] (Some [9;9]) Minus [1;9].
Example C92_ignored_meets : well_formed s7 /\ within_limits s7 /\ readable_exponent s7 /\ long_integer Double s7 /\
  written s7 = text "10680655625563945099.99e-19" /\ written (integer_only s7) = text "10680655625563945099e-19".
Proof.
  split; [wfn|]. split; [lim|]. split; [apply small_readable; vm_compute; reflexivity|].
  split; [|split; reflexivity].
  intros d j Hd J0 E. change (dval (n_int s7)) with 10680655625563945099 in E. change (10 ^ exact_digits Double) with 10000000000000000000 in Hd.
  destruct (Z.eq_dec j 0) as [->|]; [change (10 ^ 0) with 1 in E; lia|].
  assert (10 ^ j = 10 * 10 ^ (j - 1)) as P by (replace j with (j - 1 + 1) at 1 by lia; rewrite Z.pow_add_r by lia; change (10 ^ 1) with 10; ring).
  rewrite P in E. assert (10680655625563945099 mod 10 = 0) by (rewrite E; replace (d * (10 * 10 ^ (j - 1))) with (d * 10 ^ (j - 1) * 10) by ring; apply Z.mod_mul; lia).
  discriminate.
Qed.
