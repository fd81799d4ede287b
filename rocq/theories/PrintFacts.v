(** The arithmetic of ftoa, exactly (C95). *)
From Coq Require Import String Ascii Reals Lra Lia ZArith List.
From Flocq Require Import Core.
From Verif Require Import Machine MachineFacts StaticPow Format DiyFp KComp Grisu Ftoa Spec ParseSpec Instances Api
  DiyFacts BoundFacts TableFacts DvalFacts DigitGenFacts GrisuFacts PrettifyFacts ShownFacts FtoaFacts RoundFacts CmpFacts ShortFacts WrittenFacts ArithProps PrintProps ExactSpec ExactFacts PrintSpec.
Import ListNotations.
Open Scope Z_scope.

(** ** which power *)
(** the binary logarithms of the powers of ten that are needed *)
Definition lg (k : Z) : Z := Z.shiftr (k * 1741647) 19.
Fixpoint lg_check (n : nat) (k p : Z) : bool :=
  match n with
  | O => true
  | S n => (Z.log2 p =? lg k) && ((k =? 0) || (Z.shiftl 1 (lg k) <? p)) && lg_check n (k + 1) (p * 10)
  end.
Lemma lg_checked : forall n k j, 0 <= k -> lg_check n k (10 ^ k) = true -> k <= j < k + Z.of_nat n ->
  Z.log2 (10 ^ j) = lg j /\ (j = 0 \/ 2 ^ lg j < 10 ^ j).
Proof.
  induction n as [|n IH]; intros k j Hk H Hj; [lia|]. cbn [lg_check] in H. apply andb_true_iff in H as [H H3]. apply andb_true_iff in H as [H1 H2].
  apply Z.eqb_eq in H1. destruct (Z.eq_dec j k) as [->|N].
  - split; [exact H1|]. apply orb_true_iff in H2 as [H2|H2]; [left; now apply Z.eqb_eq|right]. apply Z.ltb_lt in H2.
    rewrite Z.shiftl_mul_pow2, Z.mul_1_l in H2; [exact H2|]. rewrite <- H1. apply Z.log2_nonneg.
  - apply (IH (k + 1)); [lia| |lia]. rewrite Z.pow_add_r by lia. exact H3.
Qed.
Lemma lg_ok : forall j, 0 <= j <= 400 -> Z.log2 (10 ^ j) = lg j /\ (j = 0 \/ 2 ^ lg j < 10 ^ j).
Proof. intros j H. apply (lg_checked 401 0); [lia|vm_compute; reflexivity|cbn; lia]. Qed.

Definition ten_above_b (x k : Z) : bool :=
  (-390 <=? k) && (k <=? 390) &&
  if x =? 0 then k =? 0
  else if 0 <? x then (1 <=? k) && (x <=? lg k) && (lg (k - 1) <? x)
  else (k <=? 0) && (lg (- k) <? - x) && (- x <=? lg (1 - k)).
Lemma ten_above_ok : forall x k, ten_above_b x k = true -> ten_above x k.
Proof.
  intros x k H. unfold ten_above_b in H. apply andb_true_iff in H as [H0 H]. apply andb_true_iff in H0 as [H0 H0']. apply Z.leb_le in H0, H0'.
  unfold ten_above. destruct (Z.eqb_spec x 0) as [->|Nx]; [apply Z.eqb_eq in H; subst k; split; vm_compute; congruence|].
  destruct (Z.ltb_spec 0 x) as [Hx|Hx]; apply andb_true_iff in H as [H H3]; apply andb_true_iff in H as [H1 H2]; apply Z.leb_le in H1.
  - apply Z.leb_le in H2. apply Z.ltb_lt in H3.
    replace (Z.max 0 (- k)) with 0 by lia. replace (Z.max 0 (- x)) with 0 by lia. replace (Z.max 0 (1 - k)) with 0 by lia.
    replace (Z.max 0 x) with x by lia. replace (Z.max 0 k) with k by lia. replace (Z.max 0 (k - 1)) with (k - 1) by lia. rewrite !Z.pow_0_r, !Z.mul_1_r.
    destruct (lg_ok k ltac:(lia)) as [A _]. destruct (lg_ok (k - 1) ltac:(lia)) as [B _]. pose proof (pow10_pos k ltac:(lia)) as P. pose proof (pow10_pos (k - 1) ltac:(lia)) as P'.
    rewrite <- A in H2. rewrite <- B in H3. split; [apply Z.log2_le_pow2; assumption|apply Z.log2_lt_pow2; assumption].
  - apply Z.ltb_lt in H2. apply Z.leb_le in H3.
    replace (Z.max 0 k) with 0 by lia. replace (Z.max 0 x) with 0 by lia. replace (Z.max 0 (k - 1)) with 0 by lia.
    replace (Z.max 0 (- x)) with (- x) by lia. replace (Z.max 0 (- k)) with (- k) by lia. replace (Z.max 0 (1 - k)) with (1 - k) by lia. rewrite !Z.pow_0_r, !Z.mul_1_l.
    destruct (lg_ok (- k) ltac:(lia)) as [A _]. destruct (lg_ok (1 - k) ltac:(lia)) as [B [C|C]]; [lia|].
    pose proof (pow10_pos (- k) ltac:(lia)) as P. rewrite <- A in H2. split.
    + apply Z.lt_le_incl. apply Z.log2_lt_pow2; assumption.
    + apply Z.le_lt_trans with (2 := C). apply Z.pow_le_mono_r; lia.
Qed.

Definition choice_ok (t : ftype) (pe : Z) : bool :=
  match k_comp_exp (grisu_alpha (fmt_of t)) pe with
  | Ok k => ten_above_b (- (width t / 2 + 3) - pe - 1) k
  | Fault _ => false
  end.
Lemma choice_ok_all : forall t, forallb (choice_ok t) (zrange (pe_min t) (pe_max t)) = true.
Proof. destruct t; vm_compute; reflexivity. Qed.

Lemma choice : forall t pe, pe_min t <= pe <= pe_max t ->
  exists k, k_comp_exp (grisu_alpha (fmt_of t)) pe = Ok k /\ ten_above (- (width t / 2 + 3) - pe - 1) k.
Proof.
  intros t pe H. pose proof (zrange_forall _ _ _ (choice_ok_all t) pe H) as C. unfold choice_ok in C.
  destruct (k_comp_exp _ pe) as [k|]; [|discriminate]. exists k. split; [reflexivity|]. now apply ten_above_ok.
Qed.

Lemma pow2_IZR : forall k, 0 <= k -> IZR (2 ^ k) = bpow radix2 k.
Proof. intros. symmetry. now apply (bpow_IZR radix2). Qed.
Lemma pos_neg_pow : forall r a, (bpow r a * bpow r (Z.max 0 (- a)) = bpow r (Z.max 0 a))%R.
Proof. intros. rewrite <- bpow_plus. f_equal. lia. Qed.

Lemma ten_above_R : forall x k, ten_above x k -> (pow10 (k - 1) < bpow radix2 x <= pow10 k)%R.
Proof.
  intros x k [A B]. apply IZR_le in A. apply IZR_lt in B. rewrite !mult_IZR in A, B.
  rewrite !pow10_IZR, !pow2_IZR in A, B by lia.
  replace (Z.max 0 (1 - k)) with (Z.max 0 (- (k - 1))) in B by lia.
  pose proof (pos_neg_pow radix2 x) as X. pose proof (pos_neg_pow radix10 k) as Y. pose proof (pos_neg_pow radix10 (k - 1)) as Z.
  pose proof (bpow_gt_0 radix2 (Z.max 0 (- x))) as P1. pose proof (bpow_gt_0 radix10 (Z.max 0 (- k))) as P2. pose proof (bpow_gt_0 radix10 (Z.max 0 (- (k - 1)))) as P3.
  rewrite <- X in A, B. rewrite <- Y in A. rewrite <- Z in B. 
  set (b := bpow radix2 (Z.max 0 (- x))) in *. set (c := bpow radix10 (Z.max 0 (- k))) in *. set (d := bpow radix10 (Z.max 0 (- (k - 1)))) in *.
  split.
  - apply Rmult_lt_reg_r with (b * d)%R; [now apply Rmult_lt_0_compat|]. lra.
  - apply Rmult_le_reg_r with (b * c)%R; [now apply Rmult_lt_0_compat|]. lra.
Qed.

Lemma ten_above_unique : forall x k k', ten_above x k -> ten_above x k' -> k = k'.
Proof.
  intros x k k' H H'. apply ten_above_R in H, H'.
  assert (k - 1 < k') by (apply pow10_lt_inv; lra). assert (k' - 1 < k) by (apply pow10_lt_inv; lra). lia.
Qed.

(** ** the digit generator stops at the first place that is enough *)
Lemma enough_next : forall u l o i, 0 < o -> 0 <= i -> enough u l o i -> enough u l o (i + 1).
Proof.
  intros u l o i Ho Hi H. unfold enough in *. rewrite Z.pow_add_r by lia. change (10 ^ 1) with 10.
  replace (10 ^ i * 10 * u) with (10 * (10 ^ i * u)) by ring. rewrite <- Z.mul_mod_idemp_r by lia.
  pose proof (Z.mod_pos_bound (10 ^ i * u) o Ho) as B. set (r := (10 ^ i * u) mod o) in *.
  assert ((10 * r) mod o <= 10 * r) by (apply Z.mod_le; lia). lia.
Qed.
Lemma enough_later : forall u l o i j, 0 < o -> 0 <= i -> i <= j -> enough u l o i -> enough u l o j.
Proof.
  intros u l o i j Ho Hi Hj H. replace j with (i + Z.of_nat (Z.to_nat (j - i))) by lia. induction (Z.to_nat (j - i)) as [|n IH].
  - now rewrite Z.add_0_r.
  - replace (i + Z.of_nat (S n)) with (i + Z.of_nat n + 1) by lia. apply enough_next; [assumption|lia|assumption].
Qed.

Lemma cut_places : forall u l sh ds j, 0 <= sh -> cut u (u - l) sh ds j ->
  exists i z, 0 <= i /\ 0 <= z /\ enough u l (2 ^ sh) i /\ (forall j', 0 <= j' < i -> ~ enough u l (2 ^ sh) j') /\
    dval ds * 10 ^ z = 10 ^ i * u / 2 ^ sh /\ j = z - i.
Proof.
  intros u l sh ds j Hs H. pose proof (Z.pow_pos_nonneg 2 sh ltac:(lia) Hs) as P. unfold enough.
  destruct H as [(J & E & L)|(J & _ & r & E & B & L & N)].
  - exists 0, j. split; [lia|]. split; [assumption|]. change (10 ^ 0) with 1. rewrite !Z.mul_1_l. split; [assumption|]. split; [lia|]. split; [assumption|lia].
  - exists (- j), 0. split; [lia|]. split; [lia|]. split.
    + rewrite E, Z.add_comm, Z.mod_add, Z.mod_small by lia. assumption.
    + split.
      * intros j' Hj' C. apply (enough_later u l (2 ^ sh) j' (- j - 1)) in C; [|lia|lia|lia]. unfold enough in C. lia.
      * split; [|lia]. change (10 ^ 0) with 1. rewrite Z.mul_1_r. apply Z.div_unique with r; [left; assumption|lia].
Qed.

(** ** everything before the digit generator *)
Lemma top_ok : forall t v s, 0 <= s -> 0 < significand t v -> 2 ^ (width t - 1) <= (2 * significand t v + 1) * 2 ^ s < 2 ^ width t ->
  top t v = ((2 * significand t v + 1) * 2 ^ s, exponent t v - 1 - s).
Proof.
  intros t v s Hs Hf H. unfold top, full_width. pose proof (width_facts t) as W.
  rewrite <- (log2_shift (width t) (2 * significand t v + 1) s ltac:(lia) ltac:(lia) Hs H). reflexivity.
Qed.

Lemma grisu2_exactly : forall t v, finite t v -> 0 < significand t v ->
  exists ds k i z, Forall digit ds /\ hd 0 ds <> 0 /\ last_nonzero ds /\ (length ds <= 40)%nat /\
    power_for t v k /\ places t v k i /\ 0 <= z /\ dval ds * 10 ^ z = digits_of t v k i /\
    forall pre rest, (length ds <= length rest)%nat ->
      grisu2 (fmt_of t) v (pre ++ rest) (zlen pre) = Ok (pre ++ dchars ds ++ skipn (length ds) rest, zlen ds, z - k - i).
Proof.
  intros t v Hfin Hf.
  destruct (boundaries_ok t v Hf) as (s & S1 & S2 & S3).
  pose proof (finite_exponent t v Hfin) as He1. pose proof (exponent_ge t v) as He2. pose proof (significand_range t v) as Hr.
  assert (Hww : 24 <= precision t /\ precision t + 8 <= width t <= 64 /\ -1074 <= min_exp t < 0 /\ max_exp t <= 1024) by (destruct t; cbn; lia).
  pose proof (top_ok t v s ltac:(lia) Hf S2) as ET.
  assert (Hs2 : s <= width t - 2).
  { destruct (Z.le_gt_cases s (width t - 2)) as [|G]; [assumption|].
    assert (2 ^ (width t - 1) <= 2 ^ s) by (apply Z.pow_le_mono_r; lia).
    assert (2 ^ width t = 2 * 2 ^ (width t - 1)).
    { replace (width t) with (1 + (width t - 1)) at 1 by lia. rewrite Z.pow_add_r by lia. reflexivity. }
    assert (3 * 2 ^ (width t - 1) <= (2 * significand t v + 1) * 2 ^ s) by (apply Z.mul_le_mono_nonneg; lia). lia. }
  assert (PE : pe_min t <= exponent t v - 1 - s <= pe_max t) by (unfold pe_min, pe_max; lia).
  destruct (choice t _ PE) as (k & C1 & C2). destruct (scaling_ok_spec t _ PE) as (k' & cf & ce & D1 & D2 & D3 & D4).
  rewrite C1 in D1. injection D1 as <-.
  assert (EP : power_of_ten t k = (cf, ce)).
  { rewrite power_exactly in D3 by lia. destruct (power_of_ten t k). cbn [fst snd] in D3. injection D3 as -> ->. reflexivity. }
  destruct (cached_power_ok t k) as (cf' & ce' & F1 & F2 & F3 & F4 & F5); [lia|]. rewrite D3 in F1. injection F1 as <- <-.
  assert (EB : bottom t v = lower_mant t (significand t v) s).
  { unfold bottom, lower_mant. rewrite ET. cbn [snd]. replace (exponent t v - 2 - (exponent t v - 1 - s)) with (s - 1) by lia.
    destruct (_ =? _); [reflexivity|]. replace s with (1 + (s - 1)) at 2 by lia. rewrite Z.pow_add_r by lia. ring. }
  set (f := significand t v) in *. set (e := exponent t v) in *.
  set (pf := (2 * f + 1) * 2 ^ s) in *. set (mf := lower_mant t f s) in *. set (pe := e - 1 - s) in *.
  assert (Hmf : 0 < mf < pf).
  { unfold mf, lower_mant, pf. assert (H2s : 2 ^ s = 2 * 2 ^ (s - 1)).
    { replace s with (1 + (s - 1)) at 1 by lia. rewrite Z.pow_add_r by lia. reflexivity. }
    assert (0 < 2 ^ (s - 1)) by (apply Z.pow_pos_nonneg; lia).
    set (X := 2 ^ (s - 1)) in *. rewrite H2s. clear - Hf H.
    destruct (f =? 2 ^ (precision t - 1)); split; nia. }
  destruct (diy_mul_f t (mk_diy pf pe) (mk_diy cf ce)) as (P1 & P2); cbn [m_f] in *; [lia|lia|].
  destruct (diy_mul_f t (mk_diy mf pe) (mk_diy cf ce)) as (M1 & M2); cbn [m_f] in *; [lia|lia|].
  set (E := pe + ce + width t) in *.
  assert (EE : forall f', diy_mul (fmt_of t) (mk_diy f' pe) (mk_diy cf ce) = mk_diy (m_f (diy_mul (fmt_of t) (mk_diy f' pe) (mk_diy cf ce))) E).
  { intros f'. pose proof (diy_mul_e t (mk_diy f' pe) (mk_diy cf ce)) as X. cbn [m_e] in X.
    unfold E. rewrite <- X by lia. destruct (diy_mul _ _ _); reflexivity. }
  assert (EU : upper t v k = mulr (width t) pf cf - 1) by (unfold upper, times; rewrite ET, EP; reflexivity).
  assert (EL : lower t v k = mulr (width t) mf cf + 1) by (unfold lower, times; rewrite EB, EP; reflexivity).
  assert (EO : one t v k = 2 ^ (- E)) by (unfold one; rewrite ET, EP; reflexivity).
  pose proof (interval_ints t f s cf) as I. cbv zeta in I. fold pf mf in I.
  set (P := mulr (width t) pf cf) in *. set (M := mulr (width t) mf cf) in *.
  destruct I as (I1 & I2 & I3); try assumption; try lia.
  assert (Hsh : 16 <= - E /\ - E <= width t - 4).
  { clear - D4. unfold grisu_alpha, grisu_gamma in D4. rewrite fw_width in D4.
    destruct t; cbn [width] in *; change (32 / 2) with 16 in *; change (64 / 2) with 32 in *; lia. }
  assert (Hshp : 2 ^ (- E) <= 2 ^ (width t - 4)) by (apply Z.pow_le_mono_r; lia).
  assert (H4 : 2 ^ (width t - 2) = 4 * 2 ^ (width t - 4)).
  { replace (width t - 2) with (2 + (width t - 4)) by lia. rewrite Z.pow_add_r by lia. reflexivity. }
  assert (0 < 2 ^ (width t - 4)) by (apply Z.pow_pos_nonneg; lia).
  destruct (digit_gen_ok t (P - 1) (M + 1) E) as (ds & j & Q1 & Q2 & Q3 & Q4 & Q5 & Q6); try assumption; try lia.
  destruct (cut_places (P - 1) (M + 1) (- E) ds j ltac:(lia) Q5) as (i & z & K1 & K2 & K3 & K4 & K5 & K6).
  assert (DG : zlen ds <= max_sig t).
  { apply (cut_digits t (P - 1) (P - 1 - (M + 1)) (- E) ds j); try assumption; try lia.
    all: clear - D4; unfold grisu_alpha, grisu_gamma in D4; rewrite fw_width in D4; destruct t; cbn [width] in *; change (32 / 2) with 16 in *; change (64 / 2) with 32 in *; lia. }
  exists ds, k, i, z.
  split; [assumption|]. split; [assumption|]. split; [assumption|].
  split; [clear - DG; unfold zlen in DG; destruct t; cbn [max_sig] in DG; lia|].
  split; [unfold power_for; rewrite ET; exact C2|].
  split; [unfold places; cbv zeta; rewrite EU, EL, EO; auto|].
  split; [assumption|].
  split; [unfold digits_of; rewrite EU, EO; exact K5|].
  intros pre rest Hl. unfold grisu2. rewrite S3. cbn [bind m_e]. fold pe. rewrite C1. cbn [bind]. rewrite D3. cbn [bind]. fold pf mf.
  rewrite (EE pf), P1, (EE mf), M1. unfold diy_inc, diy_dec. cbn [m_f m_e]. rewrite fw_width. fold P M.
  destruct (Z.ltb_spec M (2 ^ width t - 1)) as [_|?]; [|lia]. cbn [bind].
  destruct (Z.ltb_spec 1 P) as [_|?]; [|lia]. cbn [bind].
  assert (table_max t <= 343) by (destruct t; cbn; lia).
  rewrite Q6 by lia. do 2 f_equal. lia.
Qed.
