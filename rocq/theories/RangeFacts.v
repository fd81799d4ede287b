(** downsample outside of the range where it rounds correctly: carry, underflow, overflow. *)
From Coq Require Import Reals Lra Lia ZArith List String Ascii.
From Flocq Require Import Core.
From Verif Require Import Machine MachineFacts BitOps StaticPow Fraction Format DiyFp KComp Krosh Atof Spec ParseSpec ParseApi Instances
  DiyFacts BoundFacts TableFacts GrisuFacts FtoaFacts RoundFacts DownFacts DvalFacts CmpFacts ArithProps ScanFacts LoopFacts ParseFacts GapFacts KroshNum ShortFacts FracFacts LongFacts.
Open Scope Z_scope.

(** what the library makes of a magnitude that rounds up to [2^k] *)
Definition lost_carry (t : ftype) (k : Z) : R :=
  if k =? min_exp t + precision t - 1 then 0%R else bpow radix2 (k - 1).

Lemma downsample_carry : forall t f e k, 2 ^ (width t - 1) <= f < 2 ^ width t ->
  let y := (IZR f * bpow radix2 e)%R in
  min_exp t + precision t - 1 <= k < max_exp t -> (y < bpow radix2 k)%R -> rnd t y = bpow radix2 k ->
  exists v acc, downsample (fmt_of t) (mk_diy f e)
      = Ok {| ds_value := v; ds_status := success; ds_is_accurate := acc |} /\
    finite t v /\ v < 2 ^ (width t - 1) /\ real_of t v = lost_carry t k /\ (acc = false <-> tie t y).
Proof.
  intros t f e k Hf y Hk Hy Hr. pose proof (width_facts t) as W.
  pose proof (normalized_mag (width t) f e ltac:(lia) Hf) as HM. fold y in HM.
  assert (K1 : e + width t - 1 < k) by (apply (lt_bpow radix2); lra).
  assert (K2 : k <= e + width t).
  { destruct (Z.le_gt_cases k (e + width t)) as [|G]; [assumption|exfalso].
    assert (y <= bpow radix2 (k - 1))%R by (apply Rle_trans with (bpow radix2 (e + width t)); [lra|apply bpow_le; lia]).
    apply rnd_mono with (t := t) in H. rewrite rnd_bpow, Hr in H by lia. apply le_bpow in H. lia. }
  assert (Ek : e + width t = k) by lia. clear K1 K2.
  pose proof (rnd_normalized t f e Hf) as RN. fold y in RN.
  pose proof (tie_normalized t f e Hf ltac:(lia)) as TN. fold y in TN.
  rewrite downsample_eval by lia.
  set (sh := down_shift t e) in *.
  assert (En : half_even f sh = 2 ^ (k - (e + sh))).
  { apply eq_IZR. rewrite <- (bpow_IZR radix2) by (unfold sh, down_shift; lia).
    apply Rmult_eq_reg_r with (bpow radix2 (e + sh)); [|apply Rgt_not_eq, bpow_gt_0].
    rewrite <- RN, Hr, <- bpow_plus. f_equal. lia. }
  pose proof (pow2_pos (precision t - 1) ltac:(lia)) as PP. pose proof (pow2_half (precision t) ltac:(lia)) as EP.
  assert (Em : half_even f sh mod 2 ^ (precision t - 1) = 0).
  { rewrite En. replace (k - (e + sh)) with (k - (e + sh) - (precision t - 1) + (precision t - 1)) by lia.
    rewrite Z.pow_add_r by (unfold sh, down_shift; lia). apply Z.mod_mul. lia. }
  rewrite Em, Z.add_0_r. exists ((down_field t e * 2 ^ (precision t - 1)) mod 2 ^ width t), (negb (f mod 2 ^ sh =? 2 ^ (sh - 1))).
  split; [reflexivity|].
  assert (TA : negb (f mod 2 ^ sh =? 2 ^ (sh - 1)) = false <-> tie t y).
  { rewrite TN. fold sh. destruct (Z.eqb_spec (f mod 2 ^ sh) (2 ^ (sh - 1))); cbn; split; congruence. }
  unfold lost_carry.
  destruct (Z.eqb_spec k (min_exp t + precision t - 1)) as [E0|N0].
  - assert (down_field t e = 0) as -> by (unfold down_field; lia). rewrite Z.mul_0_l, Z.mod_0_l by (apply Z.pow_nonzero; lia).
    split; [split; [split; [lia|apply pow2_pos; lia]|]|].
    { destruct t; vm_compute; congruence. }
    split; [apply pow2_pos; lia|]. split; [|exact TA].
    unfold real_of, magnitude. assert (significand t 0 = 0) as -> by (destruct t; reflexivity). destruct (_ =? 1); ring.
  - destruct (pack t (2 ^ (precision t - 1)) (k - precision t)) as (P1 & P2 & P3 & P4 & P5); [lia|lia|lia|].
    rewrite Z.ltb_irrefl, Z.mod_same, Z.add_0_r in P1, P2, P3, P4, P5 by lia.
    assert (EF : down_field t e = k - precision t - min_exp t + 1) by (unfold down_field; lia). rewrite EF.
    pose proof (pow2_half (width t) ltac:(lia)).
    rewrite Z.mod_small by (split; [apply Z.mul_nonneg_nonneg; lia|lia]).
    split; [exact P1|]. split; [exact P2|]. split; [|exact TA].
    unfold real_of. rewrite P3. cbn [Z.eqb]. unfold magnitude. rewrite P4, P5, <- (bpow_IZR radix2), <- bpow_plus by lia.
    f_equal. lia.
Qed.

Lemma downsample_small : forall t f e, 2 ^ (width t - 1) <= f < 2 ^ width t ->
  (IZR f * bpow radix2 e < bpow radix2 (min_exp t))%R ->
  downsample (fmt_of t) (mk_diy f e) = Ok {| ds_value := 0; ds_status := underflow; ds_is_accurate := true |}.
Proof.
  intros t f e Hf Hy. pose proof (width_facts t) as W.
  pose proof (normalized_mag (width t) f e ltac:(lia) Hf) as HM.
  assert (K1 : e + width t - 1 < min_exp t) by (apply (lt_bpow radix2); lra).
  unfold downsample, is_normalized. cbn [m_f m_e].
  pose proof (pow2_pos (width t - 1) ltac:(lia)) as PW.
  destruct (Z.eqb_spec f 0) as [?|_]; [lia|]. cbn [negb assert_ bind].
  unfold msb_value. rewrite fw_width, raised_bit_c_pow, land_single, negb_involutive by lia.
  rewrite testbit_top by (replace (width t - 1 + 1) with (width t) by lia; lia).
  destruct (Z.leb_spec (2 ^ (width t - 1)) f); [|lia]. cbn [assert_ bind].
  rewrite fmine_eq, fmaxe_eq, fdig_precision. cbv zeta. destruct (Z.leb_spec (max_exp t) e); [lia|].
  destruct (Z.ltb_spec (e + width t) (min_exp t + 1)); [|lia]. reflexivity.
Qed.

Lemma downsample_huge : forall t f e, 2 ^ (width t - 1) <= f < 2 ^ width t ->
  (bpow radix2 (max_exp t + width t - 1) <= IZR f * bpow radix2 e)%R ->
  downsample (fmt_of t) (mk_diy f e) = Ok {| ds_value := infinity_of t false; ds_status := overflow; ds_is_accurate := true |}.
Proof.
  intros t f e Hf Hy. pose proof (width_facts t) as W.
  pose proof (normalized_mag (width t) f e ltac:(lia) Hf) as HM.
  assert (K1 : max_exp t + width t - 1 < e + width t) by (apply (lt_bpow radix2); lra).
  unfold downsample, is_normalized. cbn [m_f m_e].
  pose proof (pow2_pos (width t - 1) ltac:(lia)) as PW.
  destruct (Z.eqb_spec f 0) as [?|_]; [lia|]. cbn [negb assert_ bind].
  unfold msb_value. rewrite fw_width, raised_bit_c_pow, land_single, negb_involutive by lia.
  rewrite testbit_top by (replace (width t - 1 + 1) with (width t) by lia; lia).
  destruct (Z.leb_spec (2 ^ (width t - 1)) f); [|lia]. cbn [assert_ bind].
  rewrite fmaxe_eq. cbv zeta. destruct (Z.leb_spec (max_exp t) e); [|lia]. do 2 f_equal. destruct t; reflexivity.
Qed.

(** too large by a factor of less than [2^(width-1)]: not noticed *)
Lemma downsample_band : forall t f e, 2 ^ (width t - 1) <= f < 2 ^ width t ->
  (bpow radix2 (min_exp t) <= IZR f * bpow radix2 e < bpow radix2 (max_exp t + width t - 1))%R ->
  exists v acc, downsample (fmt_of t) (mk_diy f e) = Ok {| ds_value := v; ds_status := success; ds_is_accurate := acc |}.
Proof.
  intros t f e Hf Hy. pose proof (width_facts t) as W.
  pose proof (normalized_mag (width t) f e ltac:(lia) Hf) as HM.
  assert (K1 : min_exp t < e + width t) by (apply (lt_bpow radix2); lra).
  assert (K2 : e + width t - 1 < max_exp t + width t - 1) by (apply (lt_bpow radix2); lra).
  rewrite downsample_eval by lia. eauto.
Qed.

(** the same behind the last normalisation *)
Lemma finish_norm : forall t neg se g e, 0 < g < 2 ^ width t -> -10000 <= e <= 10000 ->
  exists f x, 2 ^ (width t - 1) <= f < 2 ^ width t /\ (IZR f * bpow radix2 x = IZR g * bpow radix2 e)%R /\
    kr_finish (fmt_of t) neg se (mk_diy g e)
    = (v <- downsample (fmt_of t) (mk_diy f x) ;;
       Ok {| kr_value := apply_sign (fmt_of t) (negb neg) (ds_value v);
             kr_str_end := se; kr_status := ds_status v; kr_is_accurate := ds_is_accurate v |}).
Proof.
  intros t neg se g e Hg He. unfold kr_finish.
  destruct (normalize_ok t g e Hg) as (n & N1 & N2 & N3); [lia|]. rewrite N3. cbn [bind].
  exists (g * 2 ^ n), (e - n). split; [exact N2|]. split; [|reflexivity].
  rewrite mult_IZR, <- (bpow_IZR radix2) by lia. rewrite Rmult_assoc, <- bpow_plus. do 2 f_equal. lia.
Qed.
