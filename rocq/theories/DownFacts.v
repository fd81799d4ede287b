(** round_up and downsample: what they compute, on integers and on reals. *)
From Coq Require Import Reals Lra Lia ZArith List.
From Flocq Require Import Core.
From Verif Require Import Machine MachineFacts BitOps Format DiyFp Spec Instances DiyFacts BoundFacts TableFacts
  GrisuFacts FtoaFacts RoundFacts.
Open Scope Z_scope.

(** * Rounding to nearest even of [x / 2^n] on integers *)

Definition half_even (x n : Z) : Z :=
  let q := x / 2 ^ n in let r := x mod 2 ^ n in
  if r <? 2 ^ (n - 1) then q
  else if 2 ^ (n - 1) <? r then q + 1
  else if Z.even q then q else q + 1.

Lemma pow2_half : forall n, 1 <= n -> 2 ^ n = 2 * 2 ^ (n - 1).
Proof. intros n H. replace n with (1 + (n - 1)) at 1 by lia. now rewrite Z.pow_add_r by lia. Qed.

Lemma pow2_pos : forall n, 0 <= n -> 0 < 2 ^ n.
Proof. intros. apply Z.pow_pos_nonneg; lia. Qed.

Lemma testbit_mod : forall x n, 1 <= n -> Z.testbit x (n - 1) = (2 ^ (n - 1) <=? x mod 2 ^ n).
Proof.
  intros x n H. rewrite <- (testbit_top (x mod 2 ^ n) (n - 1)) by
    (try replace (n - 1 + 1) with n by lia; try apply Z.mod_pos_bound; try apply pow2_pos; lia).
  rewrite Z.mod_pow2_bits_low by lia. reflexivity.
Qed.

Lemma land_single : forall x k, 0 <= k -> (Z.land x (2 ^ k) =? 0) = negb (Z.testbit x k).
Proof.
  intros x k H. pose proof (nth_bit_testbit x k H) as E. unfold nth_bit in E.
  rewrite raised_bit_c_pow in E by lia. rewrite <- E. now rewrite negb_involutive.
Qed.

(** the mask of all bits up to [n] except bit [n - 1] *)
Lemma check_mask_bits : forall n i, 1 <= n -> 0 <= i ->
  Z.testbit (Z.lxor (2 ^ (n + 1) - 1) (2 ^ (n - 1))) i = (i <=? n) && negb (i =? n - 1).
Proof.
  intros n i Hn Hi. rewrite Z.lxor_spec.
  replace (2 ^ (n + 1) - 1) with (Z.ones (n + 1)) by (rewrite Z.ones_equiv; lia).
  rewrite Z.testbit_ones_nonneg by lia. rewrite Z.pow2_bits_eqb by lia.
  destruct (Z.ltb_spec i (n + 1)), (Z.leb_spec i n), (Z.eqb_spec (n - 1) i), (Z.eqb_spec i (n - 1)); try lia; reflexivity.
Qed.

Lemma land_check : forall x n, 1 <= n -> 0 <= x ->
  (Z.land x (Z.lxor (2 ^ (n + 1) - 1) (2 ^ (n - 1))) =? 0)
  = (x mod 2 ^ (n - 1) =? 0) && Z.even (x / 2 ^ n).
Proof.
  intros x n Hn Hx. apply Bool.eq_true_iff_eq. rewrite Z.eqb_eq, andb_true_iff, Z.eqb_eq.
  assert (Hodd : Z.even (x / 2 ^ n) = negb (Z.testbit x n)).
  { rewrite <- Z.negb_odd. f_equal. rewrite <- Z.bit0_odd, Z.div_pow2_bits by lia. reflexivity. }
  rewrite Hodd. split.
  - intros E.
    assert (B : forall i, 0 <= i -> (i <=? n) && negb (i =? n - 1) = true -> Z.testbit x i = false).
    { intros i Hi C. rewrite <- (check_mask_bits n i Hn Hi) in C.
      pose proof (f_equal (fun z => Z.testbit z i) E) as F. cbv beta in F.
      rewrite Z.land_spec, C, Z.bits_0, andb_true_r in F. exact F. }
    split.
    + apply Z.bits_inj'. intros i Hi. rewrite Z.bits_0.
      destruct (Z.lt_ge_cases i (n - 1)).
      * rewrite Z.mod_pow2_bits_low by lia. apply B; [lia|].
        destruct (Z.leb_spec i n), (Z.eqb_spec i (n - 1)); try lia; reflexivity.
      * apply Z.mod_pow2_bits_high; lia.
    + rewrite B; [reflexivity|lia|]. destruct (Z.leb_spec n n), (Z.eqb_spec n (n - 1)); try lia; reflexivity.
  - intros [E1 E2]. apply Z.bits_inj'. intros i Hi. rewrite Z.land_spec, check_mask_bits, Z.bits_0 by lia.
    destruct (Z.leb_spec i n) as [L|L]; [|now rewrite andb_false_r].
    destruct (Z.eqb_spec i (n - 1)) as [L1|L1]; [now rewrite andb_false_r|]. cbn. rewrite andb_true_r.
    destruct (Z.eq_dec i n) as [->|L2].
    + destruct (Z.testbit x n); [discriminate E2|reflexivity].
    + rewrite <- (Z.mod_pow2_bits_low x (n - 1)) by lia. rewrite E1. apply Z.bits_0.
Qed.

(** C22, integer form *)
Lemma round_up_full : forall w x, 1 <= w -> 0 <= x < 2 ^ w ->
  round_up w x w = Ok {| rr_is_accurate := negb (x =? 2 ^ (w - 1)); rr_value := 2 ^ (w - 1) <? x |}.
Proof.
  intros w x Hw Hx. unfold round_up. destruct (Z.ltb_spec 0 w); [|lia]. cbn [assert_ bind].
  rewrite raised_bit_ok by lia. cbn [bind].
  assert (M1 : mask w (w + 1) = 2 ^ w - 1) by (unfold mask; destruct (Z.ltb_spec (w + 1) w); [lia|reflexivity]).
  rewrite M1, mask_eq by lia. rewrite land_mask, Z.mod_small by lia.
  rewrite land_single, negb_involutive, testbit_top by (try replace (w - 1 + 1) with w by lia; lia).
  do 2 f_equal. pose proof (pow2_half w Hw) as E. pose proof (pow2_pos (w - 1) ltac:(lia)) as P.
  destruct (Z.leb_spec (2 ^ (w - 1)) x) as [L|L]; cbn [andb]; [|destruct (Z.ltb_spec (2 ^ (w - 1)) x); [lia|reflexivity]].
  replace (Z.lxor (2 ^ w - 1) (2 ^ (w - 1))) with (2 ^ (w - 1) - 1).
  - rewrite land_mask by lia.
    replace (x mod 2 ^ (w - 1)) with (x - 2 ^ (w - 1)) by (apply Z.mod_unique with 1; lia).
    destruct (Z.eqb_spec (x - 2 ^ (w - 1)) 0), (Z.ltb_spec (2 ^ (w - 1)) x); cbn; lia || reflexivity.
  - apply Z.bits_inj'. intros i Hi. rewrite Z.lxor_spec, Z.pow2_bits_eqb by lia.
    replace (2 ^ w - 1) with (Z.ones w) by (rewrite Z.ones_equiv; lia).
    replace (2 ^ (w - 1) - 1) with (Z.ones (w - 1)) by (rewrite Z.ones_equiv; lia).
    rewrite !Z.testbit_ones_nonneg by lia.
    destruct (Z.ltb_spec i (w - 1)), (Z.ltb_spec i w), (Z.eqb_spec (w - 1) i); try lia; reflexivity.
Qed.

Lemma round_up_ok : forall w x n, 1 <= n < w -> 0 <= x ->
  round_up w x n = Ok {| rr_is_accurate := negb (x mod 2 ^ n =? 2 ^ (n - 1));
                         rr_value := negb (half_even x n =? x / 2 ^ n) |}.
Proof.
  intros w x n Hn Hx. unfold round_up.
  destruct (Z.ltb_spec 0 n); [|lia]. cbn [assert_ bind].
  rewrite raised_bit_ok by lia. cbn [bind]. rewrite !mask_eq by lia.
  rewrite land_mask by lia. rewrite land_single, land_check, negb_involutive, testbit_mod by lia.
  do 2 f_equal.
  unfold half_even. cbv zeta. set (q := x / 2 ^ n).
  pose proof (pow2_half n ltac:(lia)) as E. pose proof (pow2_pos (n - 1) ltac:(lia)) as P.
  pose proof (Z.mod_pos_bound x (2 ^ n) ltac:(lia)) as M.
  assert (EM : x mod 2 ^ (n - 1) = if x mod 2 ^ n <? 2 ^ (n - 1) then x mod 2 ^ n else x mod 2 ^ n - 2 ^ (n - 1)).
  { pose proof (Z.div_mod x (2 ^ n) ltac:(lia)) as D. fold q in D.
    destruct (Z.ltb_spec (x mod 2 ^ n) (2 ^ (n - 1))).
    - symmetry. apply Z.mod_unique with (2 * q); [lia|]. rewrite D, E at 1. ring.
    - symmetry. apply Z.mod_unique with (2 * q + 1); [lia|].
      transitivity (2 ^ n * q + x mod 2 ^ n); [exact D|]. rewrite E at 1. ring. }
  rewrite EM.
  destruct (Z.ltb_spec (x mod 2 ^ n) (2 ^ (n - 1))) as [L|L].
  - destruct (Z.leb_spec (2 ^ (n - 1)) (x mod 2 ^ n)); [lia|]. cbn. rewrite Z.eqb_refl. reflexivity.
  - destruct (Z.leb_spec (2 ^ (n - 1)) (x mod 2 ^ n)); [|lia]. cbn [andb].
    destruct (Z.ltb_spec (2 ^ (n - 1)) (x mod 2 ^ n)) as [G|G].
    + destruct (Z.eqb_spec (x mod 2 ^ n - 2 ^ (n - 1)) 0); [lia|]. cbn.
      destruct (Z.eqb_spec (q + 1) q); [lia|reflexivity].
    + destruct (Z.eqb_spec (x mod 2 ^ n - 2 ^ (n - 1)) 0); [|lia]. cbn [andb].
      destruct (Z.even q); [rewrite Z.eqb_refl|]; cbn; [reflexivity|].
      destruct (Z.eqb_spec (q + 1) q); [lia|reflexivity].
Qed.

Lemma half_even_cases : forall x n, half_even x n = x / 2 ^ n \/ half_even x n = x / 2 ^ n + 1.
Proof.
  intros. unfold half_even. cbv zeta.
  destruct (_ <? _); [auto|]. destruct (_ <? _); [auto|]. destruct (Z.even _); auto.
Qed.

Lemma half_even_round : forall x n, 1 <= n ->
  ZnearestE (IZR x * bpow radix2 (- n))%R = half_even x n.
Proof.
  intros x n Hn. unfold half_even. cbv zeta.
  pose proof (pow2_half n ltac:(lia)) as E. pose proof (pow2_pos (n - 1) ltac:(lia)) as P.
  pose proof (Z.mod_pos_bound x (2 ^ n) ltac:(lia)) as M. pose proof (Z.div_mod x (2 ^ n) ltac:(lia)) as D.
  set (q := x / 2 ^ n) in *. set (r := x mod 2 ^ n) in *.
  assert (Eb : bpow radix2 (- n) = (/ IZR (2 ^ n))%R).
  { rewrite bpow_opp. f_equal. symmetry. apply (IZR_Zpower radix2). lia. }
  assert (PR : (0 < IZR (2 ^ n))%R) by (apply IZR_lt; lia).
  assert (EX : (IZR x * bpow radix2 (- n) = IZR q + IZR r / IZR (2 ^ n))%R).
  { rewrite Eb, D at 1. rewrite plus_IZR, mult_IZR. field. lra. }
  assert (R0 : (0 <= IZR r / IZR (2 ^ n) < 1)%R).
  { split.
    - apply Rmult_le_pos; [apply IZR_le; lia|]. left. now apply Rinv_0_lt_compat.
    - apply Rmult_lt_reg_r with (1 := PR). unfold Rdiv. rewrite Rmult_assoc, Rinv_l by lra.
      rewrite Rmult_1_l, Rmult_1_r. apply IZR_lt. lia. }
  assert (FL : Zfloor (IZR x * bpow radix2 (- n)) = q).
  { apply Zfloor_imp. rewrite EX, plus_IZR. lra. }
  unfold Znearest. rewrite FL, EX.
  replace (IZR q + IZR r / IZR (2 ^ n) - IZR q)%R with (IZR r / IZR (2 ^ n))%R by ring.
  assert (H2 : (/ 2 = IZR (2 ^ (n - 1)) / IZR (2 ^ n))%R).
  { rewrite E, mult_IZR. field. apply IZR_neq. lia. }
  assert (CE : forall a b : Z, (a < b) -> (IZR a / IZR (2 ^ n) < IZR b / IZR (2 ^ n))%R).
  { intros a b L. apply Rmult_lt_compat_r; [now apply Rinv_0_lt_compat|now apply IZR_lt]. }
  assert (CL : r <> 0 -> Zceil (IZR q + IZR r / IZR (2 ^ n)) = q + 1).
  { intros N. apply Zceil_imp. rewrite minus_IZR, plus_IZR.
    assert (0 / IZR (2 ^ n) < IZR r / IZR (2 ^ n))%R by (apply (CE 0 r); lia).
    unfold Rdiv at 1 in H. rewrite Rmult_0_l in H. lra. }
  destruct (Z.ltb_spec r (2 ^ (n - 1))).
  - rewrite Rcompare_Lt; [reflexivity|]. rewrite H2. now apply CE.
  - destruct (Z.ltb_spec (2 ^ (n - 1)) r).
    + rewrite Rcompare_Gt; [|rewrite H2; now apply CE]. apply CL. lia.
    + rewrite Rcompare_Eq by (rewrite H2; f_equal; f_equal; lia).
      destruct (Z.even q); cbn; [reflexivity|]. apply CL. lia.
Qed.

(** * downsample on integers *)

Definition down_shift (t : ftype) (e : Z) : Z := Z.max (min_exp t - e) (width t - precision t).
(** biased exponent field of the result *)
Definition down_field (t : ftype) (e : Z) : Z := Z.max 0 (e + width t - precision t - min_exp t + 1).

Lemma fmine_eq : forall t, fmine (fmt_of t) - (fdig (fmt_of t) - 1) = min_exp t + 1.
Proof. destruct t; reflexivity. Qed.
Lemma bias_eq : forall t, fmaxe (fmt_of t) - 1 + (fdig (fmt_of t) - 1) = 1 - min_exp t.
Proof. destruct t; reflexivity. Qed.
Lemma fmaxe_eq : forall t, fmaxe (fmt_of t) = max_exp t.
Proof. destruct t; reflexivity. Qed.

Lemma half_even_bound : forall f n m, 1 <= n <= m -> 0 <= f < 2 ^ m -> 0 <= half_even f n <= 2 ^ (m - n).
Proof.
  intros f n m H Hf. pose proof (pow2_pos n ltac:(lia)).
  assert (0 <= f / 2 ^ n) by (apply Z.div_pos; lia).
  assert (f / 2 ^ n < 2 ^ (m - n)).
  { apply Z.div_lt_upper_bound; [lia|]. rewrite <- Z.pow_add_r by lia. replace (n + (m - n)) with m by lia. lia. }
  destruct (half_even_cases f n) as [-> | ->]; lia.
Qed.

Lemma downsample_eval : forall t f e, 2 ^ (width t - 1) <= f < 2 ^ width t ->
  min_exp t + 1 <= e + width t -> e < max_exp t ->
  downsample (fmt_of t) (mk_diy f e)
  = Ok {| ds_value := (down_field t e * 2 ^ (precision t - 1)) mod 2 ^ width t
                      + half_even f (down_shift t e) mod 2 ^ (precision t - 1);
          ds_status := success;
          ds_is_accurate := negb (f mod 2 ^ down_shift t e =? 2 ^ (down_shift t e - 1)) |}.
Proof.
  intros t f e Hf He1 He2. unfold downsample, is_normalized. cbn [m_f m_e].
  assert (Hw : 24 <= precision t /\ precision t + 8 <= width t <= 64 /\ -1074 <= min_exp t < 0 /\ 0 < max_exp t <= 1024)
    by (destruct t; cbn; lia).
  pose proof (pow2_pos (width t - 1) ltac:(lia)) as PW.
  destruct (Z.eqb_spec f 0) as [?|_]; [lia|]. cbn [negb assert_ bind].
  unfold msb_value. rewrite fw_width, raised_bit_c_pow, land_single, negb_involutive by lia.
  rewrite testbit_top by (replace (width t - 1 + 1) with (width t) by lia; lia).
  destruct (Z.leb_spec (2 ^ (width t - 1)) f); [|lia]. cbn [assert_ bind].
  rewrite fmine_eq, bias_eq, fmaxe_eq, fdig_precision. cbv zeta.
  destruct (Z.leb_spec (max_exp t) e); [lia|].
  destruct (Z.ltb_spec (e + width t) (min_exp t + 1)); [lia|].
  unfold positive_part.
  replace (Z.max 0 (min_exp t + 1 - e - 1)) with (Z.max 0 (min_exp t - e)) by lia.
  destruct (Z.ltb_spec (Z.max 0 (min_exp t - e)) (width t)); [|lia]. cbn [assert_ bind].
  set (sh := down_shift t e). unfold down_shift in sh.
  replace (Z.max (Z.max 0 (min_exp t - e)) (width t - precision t)) with sh by (unfold sh; lia).
  assert (Hsh : width t - precision t <= sh < width t) by (unfold sh; lia).
  assert (EF : e + sh + (1 - min_exp t) - b2z (width t - precision t <? Z.max 0 (min_exp t - e)) = down_field t e).
  { unfold down_field, sh, b2z. destruct (Z.ltb_spec (width t - precision t) (Z.max 0 (min_exp t - e))); lia. }
  rewrite EF.
  assert (BF : 0 <= down_field t e < 5000) by (unfold down_field; lia).
  rewrite (wrap_small 64) by (change (2 ^ 64) with 18446744073709551616; lia).
  rewrite (wrap_small (width t)) by
    (split; [lia|]; apply Z.lt_le_trans with (2 ^ 32); [change (2 ^ 32) with 4294967296; lia|apply Z.pow_le_mono_r; lia]).
  unfold shl. destruct (Z.leb_spec 0 (precision t - 1)); [|lia].
  destruct (Z.ltb_spec (precision t - 1) (width t)); [|lia]. cbn [andb bind].
  rewrite round_up_ok by lia. cbn [bind rr_value rr_is_accurate].
  rewrite shr_ok by lia. cbn [bind].
  rewrite Z.shiftl_mul_pow2 by lia. rewrite mask_eq, land_mask by lia.
  assert (EN : f / 2 ^ sh + b2z (negb (half_even f sh =? f / 2 ^ sh)) = half_even f sh).
  { destruct (half_even_cases f sh) as [-> | ->].
    - rewrite Z.eqb_refl. cbn. lia.
    - destruct (Z.eqb_spec (f / 2 ^ sh + 1) (f / 2 ^ sh)); cbn; lia. }
  rewrite EN.
  pose proof (half_even_bound f sh (width t) ltac:(lia) ltac:(lia)) as HB.
  rewrite (wrap_small (width t) (half_even _ _)).
  2:{ split; [lia|]. apply Z.le_lt_trans with (2 ^ (width t - sh)); [lia|]. apply Z.pow_lt_mono_r; lia. }
  pose proof (pow2_pos (precision t - 1) ltac:(lia)) as PP.
  unfold wrap.
  (* the shifted field is a multiple of 2^(p-1) *)
  assert (EW : 2 ^ width t = 2 ^ (width t - precision t + 1) * 2 ^ (precision t - 1))
    by (rewrite <- Z.pow_add_r by lia; f_equal; lia).
  assert (ED : (down_field t e * 2 ^ (precision t - 1)) mod 2 ^ width t
               = (down_field t e mod 2 ^ (width t - precision t + 1)) * 2 ^ (precision t - 1)).
  { rewrite EW. rewrite Z.mul_mod_distr_r; [reflexivity| |lia].
    apply Z.neq_sym, Z.lt_neq, pow2_pos. lia. }
  rewrite ED.
  rewrite lor_disjoint.
  - reflexivity.
  - lia.
  - apply Z.mod_pos_bound. lia.
  - apply Z.mod_pos_bound, pow2_pos. lia.
Qed.

(** * Making bit patterns *)

Lemma fields_of : forall t E F, 0 <= E <= all_ones t -> 0 <= F < 2 ^ (precision t - 1) ->
  let v := E * 2 ^ (precision t - 1) + F in
  pattern t v /\ v < 2 ^ (width t - 1) /\ sign_field t v = 0 /\ exp_field t v = E /\ frac_field t v = F.
Proof.
  intros t E F HE HF v. unfold all_ones in HE.
  assert (EW : 2 ^ (width t - 1) = 2 ^ (width t - precision t) * 2 ^ (precision t - 1)) by (destruct t; reflexivity).
  assert (E2 : 2 ^ width t = 2 * 2 ^ (width t - 1)) by (destruct t; reflexivity).
  set (P := 2 ^ (precision t - 1)) in *. set (Q := 2 ^ (width t - precision t)) in *.
  assert (V : 0 <= v < 2 ^ (width t - 1)).
  { unfold v. rewrite EW. assert ((E + 1) * P <= Q * P) by (apply Z.mul_le_mono_nonneg_r; lia). lia. }
  unfold pattern, sign_field, exp_field, frac_field. fold P Q.
  split; [lia|]. split; [lia|]. split; [apply Z.div_small; lia|].
  assert (v / P = E) by (symmetry; apply Z.div_unique with F; [lia|unfold v; ring]).
  split; [rewrite H; apply Z.mod_small; lia|].
  symmetry. apply Z.mod_unique with E; [lia|unfold v; ring].
Qed.

Lemma pack : forall t n X, 0 <= n < 2 ^ precision t -> min_exp t <= X <= max_exp t - precision t ->
  2 ^ (precision t - 1) <= n \/ X = min_exp t ->
  let v := (if n <? 2 ^ (precision t - 1) then 0 else X - min_exp t + 1) * 2 ^ (precision t - 1)
           + n mod 2 ^ (precision t - 1) in
  finite t v /\ v < 2 ^ (width t - 1) /\ sign_field t v = 0 /\ significand t v = n /\ exponent t v = X.
Proof.
  intros t n X Hn HX HC v.
  assert (E2 : 2 ^ precision t = 2 * 2 ^ (precision t - 1)) by (destruct t; reflexivity).
  assert (A : min_exp t + all_ones t - 2 = max_exp t - precision t /\ 2 < all_ones t) by (destruct t; cbn; lia).
  pose proof (pow2_pos (precision t - 1) ltac:(destruct t; cbn; lia)) as PP.
  set (P := 2 ^ (precision t - 1)) in *.
  destruct (fields_of t (if n <? P then 0 else X - min_exp t + 1) (n mod P)) as (F1 & F2 & F3 & F4 & F5).
  { destruct (n <? P); lia. }
  { apply Z.mod_pos_bound. lia. }
  fold P v in F1, F2, F3, F4, F5.
  unfold finite, significand, exponent. rewrite F4, F5. fold P.
  destruct (Z.ltb_spec n P) as [L|L].
  - rewrite Z.mod_small in * by lia. cbn [Z.eqb]. repeat split; try assumption; try lia; try apply F1.
  - assert (n mod P = n - P) by (symmetry; apply Z.mod_unique with 1; lia).
    destruct (Z.eqb_spec (X - min_exp t + 1) 0); [lia|]. repeat split; try assumption; try lia; try apply F1.
Qed.

(** * downsample on reals *)

Lemma normalized_mag : forall w f e, 1 <= w -> 2 ^ (w - 1) <= f < 2 ^ w ->
  (bpow radix2 (e + w - 1) <= IZR f * bpow radix2 e < bpow radix2 (e + w))%R.
Proof.
  intros w f e Hw [H1 H2]. replace (e + w - 1) with (w - 1 + e) by lia. replace (e + w) with (w + e) by lia.
  rewrite !bpow_plus. apply IZR_le in H1. apply IZR_lt in H2.
  rewrite (bpow_IZR radix2 (w - 1)), (bpow_IZR radix2 w) by lia.
  pose proof (bpow_gt_0 radix2 e). split.
  - apply Rmult_le_compat_r; [lra|exact H1].
  - apply Rmult_lt_compat_r; [lra|exact H2].
Qed.

Lemma rnd_normalized : forall t f e, 2 ^ (width t - 1) <= f < 2 ^ width t ->
  rnd t (IZR f * bpow radix2 e)
  = (IZR (half_even f (down_shift t e)) * bpow radix2 (e + down_shift t e))%R.
Proof.
  intros t f e Hf. set (y := (IZR f * bpow radix2 e)%R).
  assert (Hw : 24 <= precision t /\ precision t + 8 <= width t <= 64) by (destruct t; cbn; lia).
  pose proof (normalized_mag (width t) f e ltac:(lia) Hf) as HM. fold y in HM.
  assert (MG : mag radix2 y = e + width t :> Z) by (apply mag_unique_pos; exact HM).
  assert (CE : cexp radix2 (fexp t) y = e + down_shift t e).
  { unfold cexp, FLT_exp, down_shift. rewrite MG. lia. }
  unfold rnd, round, F2R. cbn [Fnum Fexp]. rewrite CE. f_equal. f_equal.
  rewrite <- (half_even_round f (down_shift t e)) by (unfold down_shift; lia).
  unfold scaled_mantissa. rewrite CE. f_equal. unfold y. rewrite Rmult_assoc, <- bpow_plus. f_equal. f_equal. lia.
Qed.

Lemma down_shift_ge : forall t e, 1 <= down_shift t e.
Proof. intros t e. unfold down_shift. destruct t; cbn; lia. Qed.

Lemma tie_normalized : forall t f e, 2 ^ (width t - 1) <= f < 2 ^ width t ->
  e + width t <= max_exp t ->
  tie t (IZR f * bpow radix2 e) <-> f mod 2 ^ down_shift t e = 2 ^ (down_shift t e - 1).
Proof.
  intros t f e Hf He.
  assert (Hw : 24 <= precision t /\ precision t + 8 <= width t <= 64) by (destruct t; cbn; lia).
  pose proof (normalized_mag (width t) f e ltac:(lia) Hf) as HM.
  pose proof (down_shift_ge t e) as Hs.
  assert (Hy : Rabs (IZR f * bpow radix2 e) = (IZR f * bpow radix2 e)%R).
  { apply Rabs_pos_eq. pose proof (bpow_ge_0 radix2 (e + width t - 1)). lra. }
  unfold tie. rewrite Hy. set (sh := down_shift t e) in *.
  pose proof (pow2_half sh Hs) as E2. pose proof (pow2_pos (sh - 1) ltac:(lia)) as PS.
  pose proof (Z.div_mod f (2 ^ sh) ltac:(lia)) as D. pose proof (Z.mod_pos_bound f (2 ^ sh) ltac:(lia)) as M.
  pose proof (pow2_half (precision t) ltac:(lia)) as EP.
  assert (Eb : bpow radix2 (e + sh) = (IZR (2 ^ sh) * bpow radix2 e)%R).
  { rewrite bpow_plus, Rmult_comm. f_equal. apply bpow_IZR. lia. }
  split.
  - intros (u & Fu & Eu).
    (* exponent of u *)
    assert (X : exponent t u = e + sh).
    { pose proof (significand_range t u) as SR. pose proof (exponent_ge t u) as EG.
      assert (B2 : (midpoint_above t u < bpow radix2 (precision t + exponent t u))%R).
      { unfold midpoint_above, magnitude, ulp_of. rewrite bpow_plus, (bpow_IZR radix2 (precision t)) by lia.
        assert (IZR (significand t u) <= IZR (2 ^ precision t) - 1)%R by (rewrite <- minus_IZR; apply IZR_le; lia).
        pose proof (bpow_gt_0 radix2 (exponent t u)).
        assert (IZR (significand t u) * bpow radix2 (exponent t u) <= (IZR (2 ^ precision t) - 1) * bpow radix2 (exponent t u))%R
          by (apply Rmult_le_compat_r; lra).
        change (radix2 ^ precision t) with (2 ^ precision t). lra. }
      rewrite <- Eu in B2.
      assert (L1 : e + width t - 1 < precision t + exponent t u) by (apply (lt_bpow radix2); lra).
      destruct (significand_full t u) as [G|G].
      - assert (B1 : (bpow radix2 (precision t - 1 + exponent t u) <= midpoint_above t u)%R).
        { unfold midpoint_above, magnitude, ulp_of. rewrite bpow_plus, (bpow_IZR radix2 (precision t - 1)) by lia.
          pose proof (bpow_gt_0 radix2 (exponent t u)). apply IZR_le in G.
          assert (IZR (2 ^ (precision t - 1)) * bpow radix2 (exponent t u) <= IZR (significand t u) * bpow radix2 (exponent t u))%R
            by (apply Rmult_le_compat_r; lra).
          change (radix2 ^ (precision t - 1)) with (2 ^ (precision t - 1)). lra. }
        rewrite <- Eu in B1.
        assert (L2 : precision t - 1 + exponent t u < e + width t) by (apply (lt_bpow radix2); lra).
        unfold sh, down_shift. lia.
      - rewrite G. unfold sh, down_shift. lia. }
    unfold midpoint_above, magnitude, ulp_of in Eu. rewrite X, Eb in Eu.
    assert (Q : (IZR f = IZR (2 ^ sh) * IZR (significand t u) + IZR (2 ^ (sh - 1)))%R).
    { apply Rmult_eq_reg_r with (bpow radix2 e); [|apply Rgt_not_eq, bpow_gt_0].
      rewrite Eu. rewrite E2, mult_IZR. lra. }
    rewrite <- mult_IZR, <- plus_IZR in Q. apply eq_IZR in Q. symmetry.
    apply Z.mod_unique with (significand t u); lia.
  - intros Em.
    set (q := f / 2 ^ sh) in *.
    assert (Hq : 0 <= q) by (apply Z.div_pos; lia).
    assert (HX : min_exp t <= e + sh <= max_exp t - precision t).
    { assert (min_exp t <= max_exp t - precision t) by (destruct t; cbn; lia). unfold sh, down_shift. lia. }
    destruct (pack t q (e + sh)) as (P1 & P2 & P3 & P4 & P5).
    + split; [lia|]. apply Z.div_lt_upper_bound; [lia|]. rewrite <- Z.pow_add_r by lia.
      apply Z.lt_le_trans with (2 ^ width t); [lia|]. apply Z.pow_le_mono_r; unfold sh, down_shift; lia.
    + assumption.
    + destruct (Z.lt_ge_cases (width t - precision t) sh) as [L|L].
      * right. unfold sh, down_shift in *. lia.
      * left. assert (sh = width t - precision t) by (unfold sh, down_shift in *; lia).
        apply Z.div_le_lower_bound; [lia|]. rewrite <- Z.pow_add_r by lia.
        replace (sh + (precision t - 1)) with (width t - 1) by lia. lia.
    + eexists. split; [exact P1|]. unfold midpoint_above, magnitude, ulp_of. rewrite P4, P5, Eb.
      rewrite D, Em at 1. rewrite E2. rewrite plus_IZR, !mult_IZR. field.
Qed.

(** C23 *)
Lemma downsample_ok : forall t f e, 2 ^ (width t - 1) <= f < 2 ^ width t ->
  let y := (IZR f * bpow radix2 e)%R in
  (bpow radix2 (min_exp t) <= y)%R -> (rnd t y < bpow radix2 (max_exp t))%R -> ~ carries t y ->
  exists v acc, downsample (fmt_of t) (mk_diy f e)
      = Ok {| ds_value := v; ds_status := success; ds_is_accurate := acc |} /\
    finite t v /\ v < 2 ^ (width t - 1) /\ real_of t v = rnd t y /\ (acc = false <-> tie t y).
Proof.
  intros t f e Hf y Hlo Hhi Hc.
  assert (Hw : 24 <= precision t /\ precision t + 8 <= width t <= 64 /\ -1074 <= min_exp t < 0 /\ max_exp t <= 1024 /\ precision t < max_exp t)
    by (destruct t; cbn; lia).
  pose proof (normalized_mag (width t) f e ltac:(lia) Hf) as HM. fold y in HM.
  assert (He1 : min_exp t + 1 <= e + width t).
  { assert (min_exp t < e + width t) by (apply (lt_bpow radix2); lra). lia. }
  assert (Hyp : (0 < y)%R) by (pose proof (bpow_gt_0 radix2 (e + width t - 1)); lra).
  assert (He2 : e + width t <= max_exp t).
  { destruct (Z.le_gt_cases (e + width t) (max_exp t)) as [|G]; [assumption|exfalso].
    assert (B : (bpow radix2 (max_exp t) <= y)%R).
    { apply Rle_trans with (2 := proj1 HM). apply bpow_le. lia. }
    apply rnd_mono with (t := t) in B.
    assert (R : rnd t (bpow radix2 (max_exp t)) = bpow radix2 (max_exp t)).
    { apply round_generic; [apply valid_rnd_N|]. apply generic_format_bpow. unfold FLT_exp. lia. }
    rewrite R in B. lra. }
  pose proof (rnd_normalized t f e Hf) as RN. fold y in RN.
  pose proof (tie_normalized t f e Hf He2) as TN. fold y in TN.
  rewrite downsample_eval by lia.
  pose proof (half_even_bound f (down_shift t e) (width t)) as HB.
  assert (Hs : width t - precision t <= down_shift t e < width t) by (unfold down_shift; lia).
  specialize (HB ltac:(lia) ltac:(pose proof (pow2_pos (width t - 1)); lia)).
  set (n := half_even f (down_shift t e)) in *. set (X := e + down_shift t e) in *.
  pose proof (pow2_half (precision t) ltac:(lia)) as EP.
  pose proof (pow2_pos (precision t - 1) ltac:(lia)) as PP.
  assert (Rabs y = y) by (apply Rabs_pos_eq; lra).
  assert (N1 : if width t - precision t <? down_shift t e then 0 <= n < 2 ^ (precision t - 1)
               else 2 ^ (precision t - 1) <= n < 2 ^ precision t).
  { destruct (Z.ltb_spec (width t - precision t) (down_shift t e)) as [L|L].
    - split; [lia|]. apply Z.le_neq. split.
      + apply Z.le_trans with (1 := proj2 HB). apply Z.pow_le_mono_r; lia.
      + intros En. apply Hc. assert (EX : X = min_exp t) by (unfold X, down_shift in *; lia).
        exists (precision t - 1 + min_exp t). split; [lia|]. rewrite RN, H, En, EX.
        assert (EB : (IZR (2 ^ (precision t - 1)) * bpow radix2 (min_exp t) = bpow radix2 (precision t - 1 + min_exp t))%R).
        { rewrite bpow_plus. f_equal. symmetry. apply (bpow_IZR radix2). lia. }
        rewrite EB. split; [|apply Rabs_pos_eq, bpow_ge_0].
        apply Rlt_le_trans with (1 := proj2 HM). apply bpow_le. unfold down_shift in L. lia.
    - assert (Es : down_shift t e = width t - precision t) by (unfold down_shift in *; lia).
      split.
      + assert (2 ^ (precision t - 1) <= f / 2 ^ down_shift t e).
        { apply Z.div_le_lower_bound; [apply pow2_pos; lia|]. rewrite <- Z.pow_add_r by lia.
          replace (down_shift t e + (precision t - 1)) with (width t - 1) by lia. lia. }
        unfold n. destruct (half_even_cases f (down_shift t e)) as [-> | ->]; lia.
      + apply Z.le_neq. split.
        * apply Z.le_trans with (1 := proj2 HB). apply Z.pow_le_mono_r; lia.
        * intros En. apply Hc. exists (precision t + X).
          assert (min_exp t <= X) by (unfold X, down_shift; lia).
          split; [lia|]. rewrite RN, H, En.
          assert (EB : (IZR (2 ^ precision t) * bpow radix2 X = bpow radix2 (precision t + X))%R).
          { rewrite bpow_plus. f_equal. symmetry. apply (bpow_IZR radix2). lia. }
          rewrite EB. split; [|apply Rabs_pos_eq, bpow_ge_0].
          apply Rlt_le_trans with (1 := proj2 HM). apply bpow_le. unfold X. lia. }
  destruct (pack t n X) as (P1 & P2 & P3 & P4 & P5).
  - destruct (width t - precision t <? down_shift t e); lia.
  - unfold X, down_shift. lia.
  - destruct (Z.ltb_spec (width t - precision t) (down_shift t e)); [right|left]; [unfold X, down_shift in *; lia|lia].
  - set (v := _ + n mod _) in P1, P2, P3, P4, P5.
    exists v, (negb (f mod 2 ^ down_shift t e =? 2 ^ (down_shift t e - 1))).
    split.
    { do 2 f_equal. unfold v. f_equal.
      assert (EF : (if n <? 2 ^ (precision t - 1) then 0 else X - min_exp t + 1) = down_field t e).
      { unfold down_field. destruct (Z.ltb_spec (width t - precision t) (down_shift t e)) as [L|L];
        destruct (Z.ltb_spec n (2 ^ (precision t - 1))); try lia; unfold X, down_shift in *; lia. }
      rewrite EF. rewrite Z.mod_small; [reflexivity|].
      assert (0 <= n mod 2 ^ (precision t - 1)) by (apply Z.mod_pos_bound; lia).
      unfold v in P2. rewrite EF in P2. pose proof (pow2_half (width t) ltac:(lia)).
      assert (0 <= down_field t e) by (unfold down_field; lia). lia. }
    split; [exact P1|]. split; [exact P2|]. split.
    + unfold real_of. rewrite P3. cbn [Z.eqb]. unfold magnitude. rewrite P4, P5. symmetry. exact RN.
    + rewrite TN. destruct (Z.eqb_spec (f mod 2 ^ down_shift t e) (2 ^ (down_shift t e - 1))); cbn; split; congruence.
Qed.
