(** Texts of doubles that are read as floats (C113). *)
From Coq Require Import Reals Lra Lia ZArith List String Ascii.
From Flocq Require Import Core.
From Verif Require Import Machine MachineFacts BitOps StaticPow Fraction Format DiyFp KComp Chars Grisu Ftoa Krosh Atof Spec ParseSpec Api ParseApi Instances
  DiyFacts BoundFacts TableFacts GrisuFacts DvalFacts RoundFacts ArithProps PrintProps PrintExamples CmpFacts ParseProps Refuted ParseExamples CrossType Narrow NarrowExamples Narrowed.
Import ListNotations.
Open Scope Z_scope.

(** the exact value of a double as a decimal number *)
Lemma exactly : forall w d j, sign_field Double w = 0 -> dec_part d j (exponent Double w) = bin_part (significand Double w) (exponent Double w) j ->
  real_of Double w = (IZR d * pow10 j)%R.
Proof.
  intros w d j S E. unfold real_of. rewrite S. cbn [Z.eqb]. unfold magnitude.
  destruct (cmp_scaled d j (significand Double w) (exponent Double w)) as [C1 C2]. pose proof (scale_pos j (exponent Double w)) as P.
  apply Rmult_eq_reg_r with (2 := Rgt_not_eq _ _ P). rewrite C1, C2. now f_equal.
Qed.

(** the double 2.1265629529952996 is printed exactly so, and read as a float -- without the fallback -- as the wrong one of the two floats next to it *)
Definition wrong_double : Z := 4611971012861362174.
Definition wrong_text : numeral := num NoSign [2] (Some [1;2;6;5;6;2;9;5;2;9;9;5;2;9;9;6]).
Definition wrong_float : Z := 1074272668.
Theorem C113_refuted : nonzero Double wrong_double /\ prints Double wrong_double (written wrong_text) /\ written wrong_text = text "2.1265629529952996" /\
  (forall want fb errno, atof (fmt_of Float) (written wrong_text ++ [0]) want fb errno = Ok (answer want errno wrong_float success (len (written wrong_text)))) /\
  rnd Float (real_of Double wrong_double) = real_of Float (wrong_float - 1) /\ real_of Float (wrong_float - 1) <> real_of Float wrong_float.
Proof.
  split; [nz|]. split; [pr|]. split; [reflexivity|]. split; [run|]. split.
  - rewrite (exactly wrong_double 212656295299529940479033029987476766109466552734375 (-50)) by (vm_compute; reflexivity).
    change (real_of Float (wrong_float - 1)) with (magnitude Float (wrong_float - 1)). apply rounds_strictly_rnd. vm_compute. reflexivity.
  - change (magnitude Float (wrong_float - 1) <> magnitude Float wrong_float). unfold magnitude.
    replace (exponent Float (wrong_float - 1)) with (exponent Float wrong_float) by (vm_compute; reflexivity). intros C. apply Rmult_eq_reg_r in C; [|apply Rgt_not_eq, bpow_gt_0].
    apply eq_IZR in C. vm_compute in C. discriminate.
Qed.

(** pi *)
Definition pi_double : Z := 4614256656552045848.
Definition pi_text : numeral := num NoSign [3] (Some [1;4;1;5;9;2;6;5;3;5;8;9;7;9;3]).
Definition pi_exact : numeral := num NoSign [3] (Some [1;4;1;5;9;2;6;5;3;5;8;9;7;9;3;1;1;5;9;9;7;9;6;3;4;6;8;5;4;4;1;8;5;1;6;1;5;9;0;5;7;6;1;7;1;8;7;5]).
Lemma pi_value : real_of Double pi_double = value pi_exact.
Proof.
  rewrite (exactly pi_double (coefficient pi_exact) (scale pi_exact)) by (vm_compute; reflexivity). reflexivity.
Qed.
Lemma between_powers : forall x k0, (bpow radix2 k0 * (1 + bpow radix2 (-23)) <= x)%R -> (x <= bpow radix2 (k0 + 1) * (1 - bpow radix2 (-23)))%R -> away_from_powers x.
Proof.
  intros x k0 L U k. pose proof (bpow_gt_0 radix2 k0) as B0. pose proof (bpow_gt_0 radix2 (-23)) as B.
  assert (P : (bpow radix2 (k - 23) = bpow radix2 k * bpow radix2 (-23))%R) by (rewrite <- bpow_plus; f_equal; lia). rewrite P.
  assert (B1 : (bpow radix2 (-23) <= 1)%R) by (change 1%R with (bpow radix2 0); apply bpow_le; lia).
  assert (X : (0 < x)%R) by nra. rewrite (Rabs_pos_eq x) by lra.
  destruct (Z_le_gt_dec k k0) as [C|C].
  - assert (Q : (bpow radix2 k <= bpow radix2 k0)%R) by (now apply bpow_le). pose proof (bpow_gt_0 radix2 k). rewrite Rabs_pos_eq by nra. nra.
  - assert (Q : (bpow radix2 (k0 + 1) <= bpow radix2 k)%R) by (apply bpow_le; lia). pose proof (bpow_gt_0 radix2 (k0 + 1)). rewrite Rabs_left1 by nra. nra.
Qed.
Example C113_meets : nonzero Double pi_double /\ well_formed pi_text /\ prints Double pi_double (written pi_text) /\ ends_number 0 /\
  (2 * pow10 (-42) <= Rabs (real_of Double pi_double) <= bpow radix2 128 * (1 - bpow radix2 (-24)))%R /\
  clear_of_ties Float (/ 25) (real_of Double pi_double) /\ away_from_powers (real_of Double pi_double).
Proof.
  assert (WE : well_formed pi_exact) by wfn.
  assert (V : (3 <= real_of Double pi_double <= 7 / 2)%R).
  { rewrite (exactly pi_double 3141592653589793115997963468544185161590576171875 (-48)) by (vm_compute; reflexivity).
    change (pow10 (-48)) with (/ IZR (10 ^ 48))%R. assert (P : (0 < IZR (10 ^ 48))%R) by (apply IZR_lt; reflexivity).
    assert (A : (3 * IZR (10 ^ 48) <= IZR 3141592653589793115997963468544185161590576171875)%R) by (rewrite <- mult_IZR; apply IZR_le; vm_compute; discriminate).
    assert (B : (2 * IZR 3141592653589793115997963468544185161590576171875 <= 7 * IZR (10 ^ 48))%R) by (rewrite <- !mult_IZR; apply IZR_le; vm_compute; discriminate).
    revert A B. generalize (IZR 3141592653589793115997963468544185161590576171875). set (q := IZR (10 ^ 48)) in *. clearbody q. intros p A B.
    assert (I : (q * / q = 1)%R) by (field; lra). assert (0 < / q)%R by now apply Rinv_0_lt_compat. split; nra. }
  split; [nz|]. split; [wfn|]. split; [pr|]. split; [exact nul_ends|]. split; [|split].
  - rewrite Rabs_pos_eq by lra. split.
    + assert (pow10 (-42) <= pow10 0)%R by (apply bpow_le; lia). change (pow10 0) with 1%R in *. lra.
    + assert (bpow radix2 2 <= bpow radix2 128)%R by (apply bpow_le; lia). change (bpow radix2 2) with 4%R in *.
      assert (bpow radix2 (-24) <= bpow radix2 (-4))%R by (apply bpow_le; lia). change (bpow radix2 (-4)) with (/ 16)%R in *. nra.
  - rewrite pi_value. apply (meets_clear Float pi_exact 1078530011 4 _ WE); [fin|lia|vm_compute; reflexivity|]. cbn. lra.
  - assert (bpow radix2 (-23) <= bpow radix2 (-4))%R by (apply bpow_le; lia). change (bpow radix2 (-4)) with (/ 16)%R in *. pose proof (bpow_gt_0 radix2 (-23)).
    apply (between_powers _ 1); change (bpow radix2 1) with 2%R; change (bpow radix2 (1 + 1)) with 4%R; nra.
Qed.
Example C113_at_work : forall want fb errno, exists u, atof (fmt_of Float) (text "3.141592653589793" ++ [0]) want fb errno = Ok (answer want errno u success 17) /\
  real_of Float u = rnd Float (real_of Double pi_double).
Proof.
  intros. destruct C113_meets as (A & B & C & D & E & F & G). destruct (C113_read_narrowed pi_double pi_text 0 [] want fb errno A B C D E F G) as (u & U1 & _ & U2 & _).
  exists u. split; [exact U1|exact U2].
Qed.

(** the double 1.000001847743988 lies half way between two floats, its text below: narrowing gives the upper (even) one, the text is nearest
    to the lower one *)
Definition half_double : Z := 4607182427121516544.
Definition half_text : numeral := num NoSign [1] (Some [0;0;0;0;0;1;8;4;7;7;4;3;9;8;8]).
Definition half_float : Z := 1065353231.
Lemma half_double_way : magnitude Double half_double = midpoint_above Float half_float.
Proof.
  assert (G : forall m e a b : Z, a = (2 * m + 1) * 2 ^ 28 -> b = e - 1 + - 28 ->
    (IZR a * bpow radix2 b = IZR m * bpow radix2 e + / 2 * bpow radix2 e)%R).
  { intros m e a b -> ->. rewrite mult_IZR, plus_IZR, mult_IZR. unfold Z.sub. rewrite !bpow_plus. change (2 ^ 28) with (radix2 ^ 28). rewrite <- (bpow_IZR radix2 28) by lia.
    change (bpow radix2 (- (1))) with (/ 2)%R.
    assert (I : (bpow radix2 28 * bpow radix2 (-28) = 1)%R) by (rewrite <- bpow_plus; reflexivity).
    transitivity ((2 * IZR m + 1) * (bpow radix2 e * / 2) * (bpow radix2 28 * bpow radix2 (-28)))%R; [ring|]. rewrite I. field. }
  unfold midpoint_above, ulp_of, magnitude. apply G; vm_compute; reflexivity.
Qed.
Theorem C113_half_way : nonzero Double half_double /\ prints Double half_double (written half_text) /\ written half_text = text "1.000001847743988" /\
  rnd Float (value half_text) = real_of Float half_float /\ rnd Float (real_of Double half_double) = (real_of Float half_float + ulp_of Float half_float)%R.
Proof.
  split; [nz|]. split; [pr|]. split; [reflexivity|]. split.
  - change (value half_text) with (IZR (coefficient half_text) * pow10 (scale half_text))%R. change (real_of Float half_float) with (magnitude Float half_float).
    apply rounds_strictly_rnd. vm_compute. reflexivity.
  - change (real_of Double half_double) with (magnitude Double half_double). change (real_of Float half_float) with (magnitude Float half_float).
    rewrite half_double_way. apply tie_up; vm_compute; congruence.
Qed.
