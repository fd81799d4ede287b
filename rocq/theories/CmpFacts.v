(** Comparing decimal and binary fractions by integer arithmetic (for concrete cases). *)
From Coq Require Import Reals Lra Lia ZArith.
From Flocq Require Import Core.
From Verif Require Import Machine MachineFacts Spec DvalFacts TableFacts RoundFacts.
Open Scope Z_scope.

(** [d * 10^j] and [f * 2^e], scaled by [10^max(0,-j) * 2^max(0,-e)] *)
Definition dec_part (d j e : Z) : Z := d * 10 ^ Z.max 0 j * 2 ^ Z.max 0 (- e).
Definition bin_part (f e j : Z) : Z := f * 2 ^ Z.max 0 e * 10 ^ Z.max 0 (- j).

Lemma split_pow : forall (r : radix) e, (bpow r e * IZR (r ^ Z.max 0 (- e)) = IZR (r ^ Z.max 0 e))%R.
Proof.
  intros r e. rewrite <- !bpow_IZR by lia. rewrite <- bpow_plus. f_equal. lia.
Qed.

Lemma cmp_scaled : forall d j f e,
  (IZR d * pow10 j * (IZR (10 ^ Z.max 0 (- j)) * IZR (2 ^ Z.max 0 (- e))) = IZR (dec_part d j e))%R /\
  (IZR f * bpow radix2 e * (IZR (10 ^ Z.max 0 (- j)) * IZR (2 ^ Z.max 0 (- e))) = IZR (bin_part f e j))%R.
Proof.
  intros d j f e. unfold dec_part, bin_part. rewrite !mult_IZR.
  pose proof (split_pow radix10 j) as S1. pose proof (split_pow radix2 e) as S2.
  change (radix10 ^ Z.max 0 (- j)) with (10 ^ Z.max 0 (- j)) in S1. change (radix10 ^ Z.max 0 j) with (10 ^ Z.max 0 j) in S1.
  change (radix2 ^ Z.max 0 (- e)) with (2 ^ Z.max 0 (- e)) in S2. change (radix2 ^ Z.max 0 e) with (2 ^ Z.max 0 e) in S2.
  split.
  - rewrite <- S1. ring.
  - rewrite <- S2. ring.
Qed.

Lemma scale_pos : forall j e, (0 < IZR (10 ^ Z.max 0 (- j)) * IZR (2 ^ Z.max 0 (- e)))%R.
Proof.
  intros. apply Rmult_lt_0_compat; apply IZR_lt; apply Z.pow_pos_nonneg; lia.
Qed.

Lemma dec_lt_bin : forall d j f e, (dec_part d j e <? bin_part f e j) = true ->
  (IZR d * pow10 j < IZR f * bpow radix2 e)%R.
Proof.
  intros d j f e H. apply Z.ltb_lt in H. destruct (cmp_scaled d j f e) as [C1 C2]. pose proof (scale_pos j e) as P.
  apply Rmult_lt_reg_r with (1 := P). rewrite C1, C2. now apply IZR_lt.
Qed.

Lemma bin_lt_dec : forall d j f e, (bin_part f e j <? dec_part d j e) = true ->
  (IZR f * bpow radix2 e < IZR d * pow10 j)%R.
Proof.
  intros d j f e H. apply Z.ltb_lt in H. destruct (cmp_scaled d j f e) as [C1 C2]. pose proof (scale_pos j e) as P.
  apply Rmult_lt_reg_r with (1 := P). rewrite C1, C2. now apply IZR_lt.
Qed.

(** Deciding that a decimal rounds to a given positive value. *)
Definition rounds_strictly (t : ftype) (v d j : Z) : bool :=
  let f := significand t v in let e := exponent t v in
  let lower := if (f =? 2 ^ (precision t - 1)) && (min_exp t <? e) then 4 * f - 1 else 4 * f - 2 in
  (0 <? f) && (bin_part lower (e - 2) j <? dec_part d j (e - 2)) && (dec_part d j (e - 2) <? bin_part (4 * f + 2) (e - 2) j).

Lemma rounds_strictly_ok : forall t v d j, rounds_strictly t v d j = true ->
  (midpoint_below t v < IZR d * pow10 j < midpoint_above t v)%R.
Proof.
  intros t v d j H. unfold rounds_strictly in H. cbv zeta in H.
  apply andb_prop in H as [H H2]. apply andb_prop in H as [H0 H1].
  apply bin_lt_dec in H1. apply dec_lt_bin in H2.
  assert (E4 : (bpow radix2 (exponent t v) = 4 * bpow radix2 (exponent t v - 2))%R).
  { change 4%R with (bpow radix2 2). rewrite <- bpow_plus. f_equal. lia. }
  unfold midpoint_below, midpoint_above, gap_below, magnitude, ulp_of. rewrite E4.
  rewrite plus_IZR, mult_IZR in H2.
  destruct ((significand t v =? 2 ^ (precision t - 1)) && (min_exp t <? exponent t v));
    rewrite minus_IZR, mult_IZR in H1; split; lra.
Qed.

Lemma rounds_strictly_rnd : forall t v d j, rounds_strictly t v d j = true ->
  rnd t (IZR d * pow10 j) = magnitude t v.
Proof.
  intros t v d j H. apply rnd_between; [|now apply rounds_strictly_ok].
  unfold rounds_strictly in H. cbv zeta in H. apply andb_prop in H as [H _]. apply andb_prop in H as [H _]. now apply Z.ltb_lt.
Qed.
