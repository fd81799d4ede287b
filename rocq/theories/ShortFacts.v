(** Numbers with few digits: the parser collects them exactly. *)
From Coq Require Import Reals Lra Lia ZArith List String Ascii.
From Flocq Require Import Core.
From Verif Require Import Machine MachineFacts BitOps StaticPow Fraction Format DiyFp KComp Krosh Atof Spec ParseSpec Instances
  DiyFacts BoundFacts TableFacts GrisuFacts FtoaFacts RoundFacts DownFacts DvalFacts CmpFacts ArithProps ScanFacts LoopFacts ParseFacts GapFacts KroshNum.
Open Scope Z_scope.

Lemma exact_digits_eq : forall t, Z.of_nat (decimal_q (fmt_of t)) = exact_digits t.
Proof. destruct t; reflexivity. Qed.

Lemma dval_last : forall ds, ds <> [] -> Forall digit ds -> last ds 0 <> 0 -> dval ds mod 10 <> 0.
Proof.
  intros ds N D L. destruct (exists_last N) as (l & x & E). subst ds. rewrite last_snoc in L. rewrite dval_snoc.
  apply Forall_app in D as [_ D]. inversion_clear D as [|? ? Dx _]. unfold digit in Dx.
  rewrite Z.add_comm, Z.mul_comm, Z.mod_add by lia. rewrite Z.mod_small; lia.
Qed.

Lemma short_scan : forall t n s st d j, parsed t n s st -> coefficient n <> 0 ->
  0 <= d < 10 ^ exact_digits t -> 0 <= j -> coefficient n = d * 10 ^ j ->
  exists k, 0 <= k /\ coefficient n = dval (pd_digits st) * 10 ^ k /\ k - zlen (frac_digits n) = pd_pow_gain st - pd_fraction_count st /\
    dval (pd_digits st) mod 10 <> 0 /\ 0 < dval (pd_digits st) < 10 ^ exact_digits t /\ pd_frac st = 0.
Proof.
  intros t n s st d j (_ & _ & _ & _ & _ & D1 & D2 & D3 & D4 & H) CN Hd Hj Ec.
  fold (frac_digits n) in H. unfold coefficient in *. rewrite frac_odig in *. rewrite exact_digits_eq in H.
  assert (KP : 0 < exact_digits t) by (destruct t; cbn; lia).
  pose proof (dval_bounds _ D1) as BP.
  assert (PL : forall ds, ds <> [] -> Forall digit ds -> hd 0 ds <> 0 -> 10 ^ (zlen ds - 1) <= dval ds).
  { intros [|x l] N D Hh; [congruence|]. cbn [hd] in Hh. rewrite zlen_cons. replace (1 + zlen l - 1) with (zlen l) by lia.
    now apply dval_lower. }
  destruct H as [(E & H1 & _)|[(E & H1 & H2 & H3 & H4 & H5 & H6 & H7 & H8)|(E & H1 & tt & R & H2 & H3 & H4 & H5 & H6)]].
  - congruence.
  - specialize (PL _ E D1 H2). pose proof (pow10_pos (zlen (pd_digits st) - 1)).
    assert (0 < zlen (pd_digits st)) by (destruct (pd_digits st) as [|x l]; [congruence|rewrite zlen_cons; pose proof (zlen_nonneg l); lia]).
    exists (pd_zeros st). split; [lia|]. split; [exact H4|]. split; [lia|]. split; [now apply dval_last|].
    split; [|exact H8]. split; [lia|]. apply Z.lt_le_trans with (1 := proj2 BP). apply Z.pow_le_mono_r; lia.
  - assert (NE : pd_digits st <> []) by (intros C; rewrite C, zlen_nil in E; lia).
    specialize (PL _ NE D1 H1). rewrite E in PL, BP.
    pose proof (pow10_pos (exact_digits t - 1) ltac:(lia)).
    destruct H6 as [(G1 & G2 & G3 & G4 & G5)|(G1 & G2 & _)].
    + exists tt. split; [lia|]. split; [lia|]. split; [lia|]. split; [now apply dval_last|]. split; [lia|exact G5].
    + exfalso. set (P := dval (pd_digits st)) in *. rewrite Ec in H3.
      pose proof (pow10_pos tt ltac:(lia)) as PT. pose proof (pow10_pos j Hj) as PJ.
      destruct (Z.le_gt_cases tt j) as [L|L].
      * replace j with (j - tt + tt) in H3 by lia. rewrite Z.pow_add_r in H3 by lia.
        assert (R = (d * 10 ^ (j - tt) - P) * 10 ^ tt) by lia.
        assert (0 < d * 10 ^ (j - tt) - P) by nia. nia.
      * replace tt with (tt - j + j) in H3 by lia. rewrite Z.pow_add_r in H3 by lia.
        assert (E10 : 10 ^ (tt - j) = 10 * 10 ^ (tt - j - 1)) by (replace (tt - j) with (tt - j - 1 + 1) at 1 by lia; rewrite pow10_succ by lia; reflexivity).
        pose proof (pow10_pos (tt - j - 1) ltac:(lia)) as PQ.
        assert (d >= P * 10 ^ (tt - j)).
        { apply Z.le_ge. apply Z.mul_le_mono_pos_r with (10 ^ j); [assumption|]. lia. }
        assert (EK : 10 ^ exact_digits t = 10 * 10 ^ (exact_digits t - 1)) by (replace (exact_digits t) with (exact_digits t - 1 + 1) at 1 by lia; rewrite pow10_succ by lia; reflexivity).
        assert (P * 10 <= P * 10 ^ (tt - j)) by (apply Z.mul_le_mono_nonneg_l; lia). lia.
Qed.

Lemma pow10_IZR : forall k, 0 <= k -> IZR (10 ^ k) = pow10 k.
Proof. intros. symmetry. now apply (bpow_IZR radix10). Qed.

Lemma abs_value_parsed : forall n P k K, 0 <= k -> coefficient n = P * 10 ^ k -> K = k - zlen (frac_digits n) + exponent_value n ->
  abs_value n = (IZR P * pow10 K)%R.
Proof.
  intros n P k K Hk E ->. unfold abs_value, scale. rewrite E, mult_IZR, pow10_IZR by lia.
  rewrite Rmult_assoc, <- bpow_plus. do 2 f_equal. unfold zlen. lia.
Qed.

Lemma abs_value_nonneg : forall n, well_formed n -> (0 <= abs_value n)%R.
Proof.
  intros n (W1 & W2 & _). unfold abs_value. apply Rmult_le_pos; [|apply bpow_ge_0]. apply IZR_le.
  unfold coefficient. apply dval_bounds. apply Forall_app. auto.
Qed.

Lemma value_abs : forall n, well_formed n -> Rabs (value n) = abs_value n.
Proof.
  intros n W. pose proof (abs_value_nonneg n W). unfold value. destruct (is_minus (n_sign n)); rewrite ?Rabs_Ropp; now apply Rabs_pos_eq.
Qed.

Lemma rnd_value_abs : forall t n, well_formed n -> Rabs (rnd t (value n)) = rnd t (abs_value n).
Proof.
  intros t n W. pose proof (abs_value_nonneg n W). pose proof (rnd_nonneg t _ H).
  unfold value. destruct (is_minus (n_sign n)); rewrite ?rnd_opp, ?Rabs_Ropp; now apply Rabs_pos_eq.
Qed.

Lemma carries_abs : forall t n, well_formed n -> carries t (value n) <-> carries t (abs_value n).
Proof.
  intros t n W. unfold carries. rewrite rnd_value_abs, value_abs by assumption.
  rewrite (Rabs_pos_eq (abs_value n)), (Rabs_pos_eq (rnd t (abs_value n))) by (try apply rnd_nonneg; now apply abs_value_nonneg).
  reflexivity.
Qed.

Lemma clear_abs : forall t m n, well_formed n -> clear_of_ties t m (value n) <-> clear_of_ties t m (abs_value n).
Proof.
  intros t m n W. unfold clear_of_ties. rewrite value_abs by assumption.
  rewrite (Rabs_pos_eq (abs_value n)) by (now apply abs_value_nonneg). reflexivity.
Qed.

Lemma rnd_small : forall t y, (0 <= y)%R -> (rnd t y < bpow radix2 (max_exp t))%R -> (y < bpow radix2 (max_exp t))%R.
Proof.
  intros t y Hy H. apply Rnot_le_lt. intros C. apply (rnd_mono t) in C.
  rewrite rnd_bpow in C by (pose proof (width_facts t); lia). lra.
Qed.

Lemma max_lt_10 : forall t, (bpow radix2 (max_exp t) <= pow10 309)%R.
Proof.
  intros t. apply Rle_trans with (bpow radix2 1024); [apply bpow_le; destruct t; cbn; lia|].
  left. rewrite <- (Rmult_1_l (bpow radix2 1024)), <- (Rmult_1_l (pow10 309)). apply bin_lt_dec. vm_compute. reflexivity.
Qed.

Lemma min_gt_10 : forall t, (pow10 (-324) <= bpow radix2 (min_exp t))%R.
Proof.
  intros t. apply Rle_trans with (bpow radix2 (-1074)); [|apply bpow_le; destruct t; cbn; lia].
  left. rewrite <- (Rmult_1_l (bpow radix2 (-1074))), <- (Rmult_1_l (pow10 (-324))). apply dec_lt_bin. vm_compute. reflexivity.
Qed.

(** decimal exponents of numbers in range *)
Lemma dec_range : forall t P K L, 0 < P < 10 ^ L -> 0 <= L -> (bpow radix2 (min_exp t) <= IZR P * pow10 K)%R ->
  (IZR P * pow10 K < bpow radix2 (max_exp t))%R -> -324 < K + L /\ K < 309.
Proof.
  intros t P K L HP HL H1 H2. pose proof (bpow_gt_0 radix10 K) as PK. split.
  - apply (lt_bpow radix10). apply Rle_lt_trans with (1 := min_gt_10 t). apply Rle_lt_trans with (1 := H1).
    rewrite bpow_plus, Rmult_comm. apply Rmult_lt_compat_l; [assumption|]. rewrite <- pow10_IZR by assumption. apply IZR_lt. lia.
  - apply (lt_bpow radix10). apply Rlt_le_trans with (2 := max_lt_10 t). apply Rle_lt_trans with (2 := H2).
    rewrite <- (Rmult_1_l (pow10 K)) at 1. apply Rmult_le_compat_r; [lra|]. apply IZR_le. lia.
Qed.

Lemma digits_length : forall n, within_limits n -> zlen (n_int n) + zlen (frac_digits n) <= 2049.
Proof.
  intros n [L _]. rewrite mant_text in L. assert (zlen (mant (n_sign n) (n_int n) (n_frac n)) <= 2049) by (unfold zlen, parser_limit in *; lia).
  rewrite zlen_mant in H. rewrite frac_odig.
  assert (0 <= b2z (has_sign (n_sign n)) /\ 0 <= b2z (is_some (n_frac n))) by (destruct (n_sign n), (n_frac n); cbn; lia). lia.
Qed.

Lemma coefficient_bound : forall n, well_formed n -> within_limits n -> 0 <= coefficient n < 10 ^ 2049.
Proof.
  intros n (W1 & W2 & _) L. apply digits_length in L. unfold coefficient.
  assert (D : Forall digit (n_int n ++ frac_digits n)) by (apply Forall_app; auto).
  pose proof (dval_bounds _ D) as B. rewrite zlen_app in B. split; [lia|].
  apply Z.lt_le_trans with (1 := proj2 B). apply Z.pow_le_mono_r; lia.
Qed.

Lemma range_small_exponent : forall t n, well_formed n -> within_limits n -> in_range t (value n) ->
  readable_exponent n /\ coefficient n <> 0.
Proof.
  intros t n W L [H1 H2]. rewrite rnd_value_abs in H2 by assumption. rewrite value_abs in H1 by assumption.
  pose proof (abs_value_nonneg n W) as A0. apply rnd_small in H2; [|assumption].
  pose proof (coefficient_bound n W L) as CB. pose proof (digits_length n L) as DL.
  pose proof (zlen_nonneg (n_int n)). pose proof (zlen_nonneg (frac_digits n)).
  assert (CN : coefficient n <> 0).
  { intros C. unfold abs_value in H1. rewrite C, Rmult_0_l in H1. pose proof (bpow_gt_0 radix2 (min_exp t)). lra. }
  split; [|exact CN].
  destruct (dec_range t (coefficient n) (scale n) 2049) as [R1 R2]; try assumption; try lia.
  apply small_readable. unfold small_exponent. unfold scale, zlen in *. lia.
Qed.

Lemma short_ready : forall t n s st, parsed t n s st -> well_formed n -> within_limits n -> short_decimal t n ->
  in_range t (value n) ->
  0 < dval (pd_digits st) < 2 ^ width t /\ - table_max t <= power_of n st <= table_max t /\ pd_frac st = 0 /\
  abs_value n = (IZR (dval (pd_digits st)) * pow10 (power_of n st))%R.
Proof.
  intros t n s st Hp W L (d & j & D1 & D2 & D3 & D4) Hr.
  destruct (range_small_exponent t n W L Hr) as [SE CN].
  destruct (short_scan t n s st d j Hp CN D1 D2 D3) as (k & K1 & K2 & K3 & K4 & K5 & K6).
  assert (EV : abs_value n = (IZR (dval (pd_digits st)) * pow10 (power_of n st))%R).
  { apply abs_value_parsed with k; [lia|assumption|]. unfold power_of. lia. }
  destruct Hr as [H1 H2]. rewrite rnd_value_abs in H2 by assumption. rewrite value_abs in H1 by assumption.
  apply rnd_small in H2; [|now apply abs_value_nonneg]. rewrite EV in H1, H2.
  assert (KX : 0 <= exact_digits t) by (destruct t; cbn; lia).
  destruct (dec_range t _ _ _ K5 KX H1 H2) as [R1 R2].
  destruct (kap_facts t) as (_ & _ & B). fold (decimal_q (fmt_of t)) in B. rewrite exact_digits_eq in B.
  split; [lia|]. split; [|split; [exact K6|exact EV]].
  destruct t; cbn [table_max exact_digits] in *; [|lia].
  split.
  - specialize (D4 eq_refl). unfold power_of, scale in *.
    assert (j <= k); [|unfold zlen in *; lia].
    destruct (Z.le_gt_cases j k) as [|G]; [assumption|exfalso]. apply K4.
    rewrite K2 in D3. replace j with (j - k - 1 + 1 + k) in D3 by lia. rewrite !Z.pow_add_r in D3 by lia.
    pose proof (pow10_pos k K1). assert (dval (pd_digits st) = d * 10 ^ (j - k - 1) * 10) as ->.
    { apply Z.mul_cancel_r with (10 ^ k); [lia|]. rewrite D3. ring. }
    apply Z.mod_mul. lia.
  - (* float: below 2^128 *)
    assert (power_of n st < 39); [|lia]. apply (lt_bpow radix10).
    apply Rlt_trans with (bpow radix2 128).
    + apply Rle_lt_trans with (2 := H2). rewrite <- (Rmult_1_l (pow10 (power_of n st))) at 1.
      apply Rmult_le_compat_r; [apply bpow_ge_0|]. apply IZR_le. lia.
    + rewrite <- (Rmult_1_l (bpow radix2 128)), <- (Rmult_1_l (pow10 39)). apply bin_lt_dec. vm_compute. reflexivity.
Qed.

(** krosh on such a number *)
Theorem krosh_short : forall t n c rest, well_formed n -> ends_number c -> within_limits n -> short_decimal t n ->
  in_range t (value n) -> ~ carries t (value n) ->
  exists v acc, krosh (fmt_of t) (written n ++ c :: rest)
      = Ok {| kr_value := v; kr_str_end := zlen (written n); kr_status := success; kr_is_accurate := acc |} /\
    (acc = true -> correctly_rounded t (is_minus (n_sign n)) (value n) v) /\
    (acc = false -> forall mg, (bpow radix2 (precision t + 1 - width t) <= mg)%R -> ~ clear_of_ties t mg (value n)).
Proof.
  intros t n c rest W Hc L S R NC. destruct (range_small_exponent t n W L R) as [SE CN].
  destruct (krosh_numeral t n c rest W Hc L) as (st & Hp & _ & HK). specialize (HK CN SE).
  destruct (short_ready t n _ st Hp W L S R) as (P1 & P2 & P3 & P4). rewrite P3 in HK.
  destruct R as [R1 R2]. rewrite rnd_value_abs in R2 by assumption. rewrite value_abs in R1 by assumption.
  rewrite carries_abs in NC by assumption. rewrite P4 in R1, R2, NC.
  destruct (kr_short t (is_minus (n_sign n)) (zlen (written n)) (power_of n st) _ P1 P2 R1 R2 NC)
    as (w & v & acc & A1 & A2 & A3 & A4 & A5 & A6 & A7).
  rewrite (HK w A1 A2), A3. eexists _, acc. split; [reflexivity|]. split.
  - intros Ha. unfold value. rewrite P4. apply signed_correct; auto.
    apply Rmult_le_pos; [apply IZR_le; lia|apply bpow_ge_0].
  - intros Ha mg Hm. rewrite clear_abs, P4 by assumption. now apply A7.
Qed.
