(** Concrete cases for C93. *)
From Coq Require Import Reals Lra Lia ZArith List String Ascii.
From Flocq Require Import Core.
From Verif Require Import Machine Krosh Atof Spec ParseSpec ParseApi Instances DvalFacts CmpFacts TableFacts ShortFacts BoundFacts RoundFacts ParseFacts ParseProps Refuted ParseExamples GoodFallback BeyondExamples Order.
Open Scope Z_scope.

(** pi with 36 digits and a number that agrees with it in 22 of them *)
Definition o1 : numeral := num NoSign [3] (Some [1;4;1;5;9;2;6;5;3;5;8;9;7;9;3;2;3;8;4;6;2;7;0;0;0;0;0;0;0;0;0;0;0;0;1]).

Lemma not_at_power : forall t x, (3 <= Rabs x <= 3.5)%R -> ~ at_power t x.
Proof.
  intros t x [L U] (k & K & B1 & B2).
  assert (P1 : (0 < bpow radix2 (1 - precision t) <= / 16)%R) by (split; [apply bpow_gt_0|apply (bpow_le radix2 _ (-4)); destruct t; cbn; lia]).
  assert (P2 : (0 < bpow radix2 (- precision t) <= / 16)%R) by (split; [apply bpow_gt_0|apply (bpow_le radix2 _ (-4)); destruct t; cbn; lia]).
  destruct (Z.le_gt_cases k 1) as [C|C].
  - assert (0 < bpow radix2 k <= 2)%R by (split; [apply bpow_gt_0|apply (bpow_le radix2 _ 1); lia]). nra.
  - assert (4 <= bpow radix2 k)%R by (apply (bpow_le radix2 2); lia). nra.
Qed.

Lemma between_values : forall n lo hi, well_formed n -> 0 <= lo -> scale n <= 0 -> lo * 10 ^ (- scale n) <= coefficient n * 10 <= hi * 10 ^ (- scale n) ->
  (IZR lo / 10 <= Rabs (value n) <= IZR hi / 10)%R.
Proof.
  intros n lo hi W L0 S [A B]. rewrite value_abs by exact W. unfold abs_value. apply IZR_le in A, B. rewrite !mult_IZR, pow10_IZR in A, B by lia.
  rewrite bpow_opp in A, B. pose proof (bpow_gt_0 radix10 (scale n)) as P. set (p := bpow radix10 (scale n)) in *.
  split; apply Rmult_le_reg_r with (10 * / p)%R; try (apply Rmult_lt_0_compat; [lra|now apply Rinv_0_lt_compat]); field_simplify; try lra.
Qed.

Example C93_meets : forall t, well_formed p3 /\ well_formed o1 /\ within_limits p3 /\ within_limits o1 /\
  well_inside t (value p3) /\ well_inside t (value o1) /\ ~ at_power t (value p3) /\ ~ at_power t (value o1) /\ (value p3 <= value o1)%R.
Proof.
  intros t. destruct (C68_meets t) as (W & L & R & F). assert (W1 : well_formed o1) by wfn.
  split; [exact W|]. split; [exact W1|]. split; [exact L|]. split; [lim|].
  assert (V3 : (30 / 10 <= Rabs (value p3) <= 35 / 10)%R) by (apply between_values; [exact W|lia|vm_compute; congruence|vm_compute; split; congruence]).
  assert (V1 : (30 / 10 <= Rabs (value o1) <= 35 / 10)%R) by (apply between_values; [exact W1|lia|vm_compute; congruence|vm_compute; split; congruence]).
  split; [split; assumption|].
  assert (E : (value p3 <= value o1)%R).
  { unfold value, abs_value. cbn [is_minus n_sign p3 o1 num]. change (scale p3) with (-35). change (scale o1) with (-35).
    apply Rmult_le_compat_r; [apply bpow_ge_0|]. apply IZR_le. vm_compute. congruence. }
  assert (P : (0 <= value p3)%R).
  { unfold value, abs_value. cbn [is_minus n_sign p3 num]. apply Rmult_le_pos; [apply IZR_le; vm_compute; congruence|apply bpow_ge_0]. }
  split.
  { split.
    - split; [apply Rle_trans with (1 := proj1 R); rewrite !Rabs_pos_eq by lra; exact E|].
      apply Rle_trans with 4%R; [lra|]. apply Rle_trans with (8 * (1 - / 2))%R; [lra|].
      assert (8 <= bpow radix2 (max_exp t))%R by (apply (bpow_le radix2 3); destruct t; cbn; lia).
      assert (bpow radix2 (1 - precision t) <= / 2)%R by (apply (bpow_le radix2 _ (-1)); destruct t; cbn; lia). nra.
    - intros Et. apply Rle_trans with (1 := F Et). rewrite !Rabs_pos_eq by lra. exact E. }
  split; [apply not_at_power; lra|]. split; [apply not_at_power; lra|]. exact E.
Qed.

(** pi and 3.2 *)
Definition o2 : numeral := num NoSign [3] (Some [2]).
Example C93_apart_meets : forall t, well_formed o2 /\ within_limits o2 /\ well_inside t (value o2) /\ ~ at_power t (value o2) /\
  (bpow radix2 (min_exp t + precision t - 1) <= Rabs (value p3))%R /\
  (value p3 + 2 * any_length_margin t * (bpow radix2 (1 - precision t) * Rabs (value p3)) < value o2)%R.
Proof.
  intros t. destruct (C68_meets t) as (W & L & R & F). assert (W2 : well_formed o2) by wfn.
  assert (V3 : (30 / 10 <= Rabs (value p3) <= 35 / 10)%R) by (apply between_values; [exact W|lia|vm_compute; congruence|vm_compute; split; congruence]).
  assert (V2 : value o2 = 3.2%R).
  { unfold value, abs_value. cbn [is_minus n_sign o2 num]. change (scale o2) with (-1). change (coefficient o2) with 32. cbn. lra. }
  assert (V3' : (value p3 <= 3.15)%R).
  { unfold value, abs_value. cbn [is_minus n_sign p3 num]. change (scale p3) with (-35). change (coefficient p3) with 314159265358979323846264338327950288.
    apply Rmult_le_reg_r with (bpow radix10 35); [apply bpow_gt_0|]. rewrite Rmult_assoc, <- bpow_plus. change (bpow radix10 (-35 + 35)) with 1%R.
    rewrite <- pow10_IZR by lia. change (10 ^ 35) with 100000000000000000000000000000000000. lra. }
  assert (B1 : (bpow radix2 (1 - precision t) <= / 16)%R) by (apply (bpow_le radix2 _ (-4)); destruct t; cbn; lia).
  pose proof (bpow_gt_0 radix2 (1 - precision t)) as B0. pose proof (margin_small t) as MS.
  split; [exact W2|]. split; [lim|]. rewrite V2. split.
  { unfold well_inside. rewrite Rabs_pos_eq by lra. split.
    - split.
      + assert (bpow radix2 (min_exp t) <= / 2)%R by (apply (bpow_le radix2 _ (-1)); destruct t; cbn; lia).
        assert (bpow radix2 (- precision t) <= / 2)%R by (apply (bpow_le radix2 _ (-1)); destruct t; cbn; lia).
        pose proof (bpow_gt_0 radix2 (min_exp t)). pose proof (bpow_gt_0 radix2 (- precision t)). nra.
      + assert (8 <= bpow radix2 (max_exp t))%R by (apply (bpow_le radix2 3); destruct t; cbn; lia). nra.
    - intros _. apply Rle_trans with (bpow radix10 0); [apply bpow_le; lia|]. cbn. lra. }
  split; [apply not_at_power; rewrite Rabs_pos_eq by lra; lra|]. split.
  { apply Rle_trans with (bpow radix2 0); [apply bpow_le; destruct t; cbn; lia|]. change (bpow radix2 0) with 1%R. lra. }
  assert (2 * any_length_margin t * (bpow radix2 (1 - precision t) * Rabs (value p3)) <= 2 * / 16 * (/ 16 * 3.5))%R.
  { apply Rmult_le_compat; [lra| |lra|].
    - apply Rmult_le_pos; [lra|apply Rabs_pos].
    - apply Rmult_le_compat; [lra|apply Rabs_pos|exact B1|lra]. }
  lra.
Qed.
