(** Properties C16 - C26, C53, C54: the arithmetic layer. *)
From Coq Require Import Reals Lra Lia ZArith String Ascii List.
From Flocq Require Import Core.
From Verif Require Import Machine MachineFacts BitOps StaticPow Fraction Format DiyFp KComp Grisu Print Spec Instances
  DiyFacts BoundFacts TableFacts GrisuFacts FtoaFacts RoundFacts DownFacts.
Open Scope Z_scope.

(** the real number a diy_fp stands for *)
Definition diy_value (d : diy) : R := (IZR (m_f d) * bpow radix2 (m_e d))%R.
(** its mantissa is a [width t]-bit number, its exponent an int, away from the ends
    of the int range (the exponents that occur are below 3000 in magnitude) *)
Definition diy_ok (t : ftype) (d : diy) : Prop :=
  0 <= m_f d < 2 ^ width t /\ - 2 ^ 30 <= m_e d <= 2 ^ 30.
(** top bit of the mantissa set *)
Definition normalized (t : ftype) (d : diy) : Prop := 2 ^ (width t - 1) <= m_f d < 2 ^ width t.

Lemma width_facts : forall t, 24 <= precision t /\ precision t + 8 <= width t <= 64 /\
  -1074 <= min_exp t < 0 /\ precision t < max_exp t <= 1024.
Proof. destruct t; cbn; lia. Qed.

(** ** C16 *)
Theorem C16_cached_powers : forall t k,
  fpow_lo (fmt_of t) <= k <= fpow_hi (fmt_of t) ->
  exists c, cached_power (fmt_of t) k = Ok c /\ normalized t c /\
    (Rabs (diy_value c - pow10 k) <= / 2 * bpow radix2 (m_e c))%R.
Proof.
  intros t k H. destruct (cached_power_ok t k) as (cf & ce & C1 & C2 & C3 & C4 & C5).
  { destruct t; exact H. }
  exists (mk_diy cf ce). auto.
Qed.

Theorem C16_advertised_range : forall t,
  fpow_lo (fmt_of t) = (match t with Float => -50 | Double => -343 end) /\
  fpow_hi (fmt_of t) = (match t with Float => 50 | Double => 343 end).
Proof. destruct t; split; reflexivity. Qed.

(** ** C17 *)
Theorem C17_scaling : forall t v, nonzero t v ->
  exists mi pl k c, boundaries (fmt_of t) v = Ok (mi, pl) /\
    k_comp_exp (grisu_alpha (fmt_of t)) (m_e pl) = Ok k /\
    fpow_lo (fmt_of t) <= k <= fpow_hi (fmt_of t) /\
    cached_power (fmt_of t) k = Ok c /\
    m_e (diy_mul (fmt_of t) mi c) = m_e (diy_mul (fmt_of t) pl c) /\
    match t with
    | Float => -19 <= m_e (diy_mul (fmt_of t) pl c) <= -16
    | Double => -35 <= m_e (diy_mul (fmt_of t) pl c) <= -32
    end.
Proof.
  intros t v Hv. pose proof (nonzero_significand t v Hv) as Hs. destruct Hv as [Hfin _].
  destruct (boundaries_ok t v Hs) as (s & S1 & S2 & S3).
  pose proof (finite_exponent t v Hfin) as He1. pose proof (exponent_ge t v) as He2.
  pose proof (width_facts t) as W. pose proof (significand_range t v) as Hr.
  assert (Hs2 : s <= width t - 2).
  { destruct (Z.le_gt_cases s (width t - 2)) as [|G]; [assumption|].
    assert (2 ^ (width t - 1) <= 2 ^ s) by (apply Z.pow_le_mono_r; lia).
    pose proof (pow2_half (width t) ltac:(lia)).
    assert (3 * 2 ^ (width t - 1) <= (2 * significand t v + 1) * 2 ^ s) by (apply Z.mul_le_mono_nonneg; lia).
    pose proof (pow2_pos (width t - 1) ltac:(lia)). lia. }
  set (pe := exponent t v - 1 - s) in *.
  destruct (scaling_ok_spec t pe) as (mk & cf & ce & C1 & C2 & C3 & C4).
  { unfold pe_min, pe_max, pe. lia. }
  destruct (cached_power_ok t mk) as (cf' & ce' & D1 & D2 & D3 & _); [lia|].
  rewrite C3 in D1. injection D1 as <- <-.
  exists (mk_diy (lower_mant t (significand t v) s) pe), (mk_diy ((2 * significand t v + 1) * 2 ^ s) pe), mk, (mk_diy cf ce).
  split; [exact S3|]. split; [exact C1|]. split; [destruct t; cbn in *; lia|]. split; [exact C3|].
  rewrite !diy_mul_e by (cbn [m_e]; unfold pe; lia). cbn [m_e].
  split; [reflexivity|]. destruct t; cbn in *; lia.
Qed.

(** ** C18 *)
Theorem C18_multiplication : forall t x y, diy_ok t x -> diy_ok t y ->
  let z := diy_mul (fmt_of t) x y in
  m_f z = Zfloor (IZR (m_f x * m_f y) / bpow radix2 (width t) + / 2) /\
  0 <= m_f z < 2 ^ width t /\
  (m_e x + m_e y + width t < 2 ^ 31 -> m_e z = m_e x + m_e y + width t /\
     (Rabs (diy_value z - diy_value x * diy_value y) <= / 2 * bpow radix2 (m_e z))%R).
Proof.
  intros t x y [Hx Hxe] [Hy Hye] z. pose proof (width_facts t) as W.
  destruct (diy_mul_f t x y Hx Hy) as (M1 & M2). fold z in M1.
  pose proof (mulr_bounds (width t) (m_f x) (m_f y) ltac:(lia)) as [B1 B2].
  apply IZR_lt in B1. apply IZR_le in B2. rewrite minus_IZR, !mult_IZR in B1. rewrite plus_IZR, !mult_IZR in B2.
  assert (EW : bpow radix2 (width t) = IZR (2 ^ width t)) by (apply (bpow_IZR radix2); lia).
  pose proof (bpow_gt_0 radix2 (width t)) as PW.
  assert (EH : IZR (2 ^ (width t - 1)) = (/ 2 * IZR (2 ^ width t))%R).
  { rewrite (pow2_half (width t)) by lia. rewrite mult_IZR. lra. }
  rewrite EH, <- EW in *. set (W2 := bpow radix2 (width t)) in *.
  split; [|split].
  - rewrite M1. symmetry. apply Zfloor_imp. rewrite mult_IZR, plus_IZR. split.
    + apply Rmult_le_reg_r with (1 := PW). unfold Rdiv. rewrite Rmult_plus_distr_r, Rmult_assoc, Rinv_l by lra. lra.
    + apply Rmult_lt_reg_r with (1 := PW). unfold Rdiv. rewrite Rmult_plus_distr_r, Rmult_assoc, Rinv_l by lra. lra.
  - rewrite M1. exact M2.
  - intros He. assert (E : m_e z = m_e x + m_e y + width t) by (apply diy_mul_e; lia).
    split; [exact E|]. unfold diy_value. rewrite E, M1, !bpow_plus. fold W2.
    set (a := IZR (m_f x)) in *. set (b := IZR (m_f y)) in *. set (q := IZR (mulr _ _ _)) in *.
    pose proof (bpow_gt_0 radix2 (m_e x)) as P1. pose proof (bpow_gt_0 radix2 (m_e y)) as P2.
    set (u := bpow radix2 (m_e x)) in *. set (v := bpow radix2 (m_e y)) in *.
    assert (P3 : (0 < u * v)%R) by (apply Rmult_lt_0_compat; assumption).
    replace (q * (u * v * W2) - a * u * (b * v))%R with ((q * W2 - a * b) * (u * v))%R by ring.
    rewrite Rabs_mult, (Rabs_pos_eq (u * v)) by lra.
    replace (/ 2 * (u * v * W2))%R with (/ 2 * W2 * (u * v))%R by ring.
    apply Rmult_le_compat_r; [lra|]. apply Rabs_le. lra.
Qed.

(** ** C19 *)
Theorem C19_normalize : forall t d, diy_ok t d ->
  (m_f d <> 0 -> exists d', normalize (fmt_of t) d = Ok d' /\ normalized t d' /\
     diy_value d' = diy_value d /\ (normalized t d -> d' = d)) /\
  (m_f d = 0 -> normalize (fmt_of t) d = Fault AssertFailed).
Proof.
  intros t [f e] [Hf He]. cbn [m_f m_e] in *. split.
  - intros N. destruct (normalize_ok t f e ltac:(lia) ltac:(lia)) as (n & N1 & N2 & N3).
    exists (mk_diy (f * 2 ^ n) (e - n)). split; [exact N3|]. split; [exact N2|]. split.
    + unfold diy_value. cbn [m_f m_e]. rewrite mult_IZR, <- (bpow_IZR radix2) by lia.
      rewrite Rmult_assoc, <- bpow_plus. do 2 f_equal. lia.
    + intros [Q1 Q2]. cbn [m_f] in *. unfold normalize in N3. cbn [m_f] in N3.
      destruct (Z.eqb_spec f 0); [lia|]. cbn [negb assert_ bind] in N3.
      rewrite fw_width, normalize_loop_id in N3 by lia. injection N3 as E1 E2. congruence.
  - intros ->. reflexivity.
Qed.

(** ** C20 *)
Theorem C20_increment : forall t d, diy_ok t d ->
  exists d', diy_inc (fmt_of t) d = Ok d' /\ 0 <= m_f d' < 2 ^ width t /\
    diy_value d' = (diy_value d + bpow radix2 (m_e d))%R.
Proof.
  intros t [f e] [Hf He]. unfold diy_inc, diy_value. cbn [m_f m_e] in *. rewrite fw_width.
  pose proof (width_facts t) as W. pose proof (pow2_half (width t) ltac:(lia)) as E2.
  pose proof (pow2_half (width t - 1) ltac:(lia)) as E3. pose proof (pow2_pos (width t - 1 - 1) ltac:(lia)) as P3.
  destruct (Z.ltb_spec f (2 ^ width t - 1)) as [L|L].
  - eexists. split; [reflexivity|]. cbn [m_f m_e]. split; [lia|]. rewrite plus_IZR. ring.
  - assert (f = 2 ^ width t - 1) by lia. subst f. rewrite sint_ok by lia. cbn [bind].
    rewrite Z.shiftr_div_pow2 by lia. change (2 ^ 1) with 2.
    assert (D : (2 ^ width t - 1) / 2 = 2 ^ (width t - 1) - 1) by (symmetry; apply Z.div_unique with 1; lia).
    rewrite D. replace (2 ^ (width t - 1) - 1 + 1) with (2 ^ (width t - 1)) by lia.
    rewrite wrap_small by lia. eexists. split; [reflexivity|]. cbn [m_f m_e]. split; [lia|].
    rewrite minus_IZR, E2, mult_IZR, bpow_plus. change (bpow radix2 1) with 2%R. ring.
Qed.

Theorem C20_decrement : forall t d, diy_ok t d -> 1 < m_f d ->
  exists d', diy_dec (fmt_of t) d = Ok d' /\ 0 <= m_f d' < 2 ^ width t /\
    diy_value d' = (diy_value d - bpow radix2 (m_e d))%R.
Proof.
  intros t [f e] [Hf He] H1. unfold diy_dec, diy_value. cbn [m_f m_e] in *.
  destruct (Z.ltb_spec 1 f); [|lia]. eexists. split; [reflexivity|]. cbn [m_f m_e]. split; [lia|].
  rewrite minus_IZR. ring.
Qed.

(** At mantissa 1 and 0 the decrement differs: 1 loses half a unit only, 0 jumps up to the
    largest mantissa. *)
Theorem C20_decrement_edge : forall t e, - 2 ^ 30 <= e <= 2 ^ 30 ->
  diy_dec (fmt_of t) (mk_diy 1 e) = Ok (mk_diy 1 (e - 1)) /\
  diy_dec (fmt_of t) (mk_diy 0 e) = Ok (mk_diy (2 ^ width t - 1) (e - 1)).
Proof.
  intros t e He. unfold diy_dec. cbn [m_f m_e Z.ltb Z.compare Pos.compare Pos.compare_cont].
  rewrite sint_ok by lia. cbn [bind]. split; destruct t; reflexivity.
Qed.

Theorem C20_postfix : forall t d d' , 
  (diy_inc (fmt_of t) d = Ok d' -> diy_post_inc (fmt_of t) d = Ok (d, d')) /\
  (diy_dec (fmt_of t) d = Ok d' -> diy_post_dec (fmt_of t) d = Ok (d, d')).
Proof. intros. unfold diy_post_inc, diy_post_dec. split; intros ->; reflexivity. Qed.

(** ** C22 *)
Theorem C22_round_up : forall w x n, 1 <= n <= w -> 0 <= x < 2 ^ w ->
  exists r, round_up w x n = Ok r /\
    let y := (IZR x * bpow radix2 (- n))%R in   (* x / 2^n *)
    ZnearestE y = Zfloor y + (if rr_value r then 1 else 0) /\
    (rr_is_accurate r = false <-> (y - IZR (Zfloor y) = / 2)%R).
Proof.
  intros w x n Hn Hx. cbv zeta. rewrite half_even_round by lia.
  pose proof (pow2_half n ltac:(lia)) as E. pose proof (pow2_pos (n - 1) ltac:(lia)) as P.
  pose proof (Z.mod_pos_bound x (2 ^ n) ltac:(lia)) as M. pose proof (Z.div_mod x (2 ^ n) ltac:(lia)) as D.
  assert (Eb : bpow radix2 (- n) = (/ IZR (2 ^ n))%R).
  { rewrite bpow_opp. f_equal. symmetry. apply (IZR_Zpower radix2). lia. }
  assert (PR : (0 < IZR (2 ^ n))%R) by (apply IZR_lt; lia).
  assert (EX : (IZR x * bpow radix2 (- n) = IZR (x / 2 ^ n) + IZR (x mod 2 ^ n) / IZR (2 ^ n))%R).
  { rewrite Eb, D at 1. rewrite plus_IZR, mult_IZR. field. lra. }
  assert (FL : Zfloor (IZR x * bpow radix2 (- n)) = x / 2 ^ n).
  { rewrite Eb. apply (Zfloor_div x (2 ^ n)). lia. }
  rewrite FL, EX.
  assert (AC : (IZR (x / 2 ^ n) + IZR (x mod 2 ^ n) / IZR (2 ^ n) - IZR (x / 2 ^ n) = / 2)%R <-> x mod 2 ^ n = 2 ^ (n - 1)).
  { assert (H2 : (/ 2 = IZR (2 ^ (n - 1)) / IZR (2 ^ n))%R).
    { rewrite E, mult_IZR. field. apply IZR_neq. lia. }
    split.
    - intros Q. apply eq_IZR. apply Rmult_eq_reg_r with (/ IZR (2 ^ n))%R; [|apply Rinv_neq_0_compat; lra].
      unfold Rdiv in *. lra.
    - intros ->. rewrite H2. ring. }
  destruct (Z.eq_dec n w) as [->|Nw].
  - rewrite round_up_full by lia. eexists. split; [reflexivity|]. cbn [rr_value rr_is_accurate].
    rewrite Z.div_small, Z.mod_small in * by lia. split.
    + unfold half_even. cbv zeta. rewrite Z.div_small, Z.mod_small by lia.
      destruct (Z.ltb_spec x (2 ^ (w - 1))), (Z.ltb_spec (2 ^ (w - 1)) x); try lia; reflexivity.
    + rewrite AC. destruct (Z.eqb_spec x (2 ^ (w - 1))); cbn; split; congruence.
  - rewrite round_up_ok by lia. eexists. split; [reflexivity|]. cbn [rr_value rr_is_accurate]. split.
    + destruct (half_even_cases x n) as [-> | ->]; [rewrite Z.eqb_refl; cbn; lia|].
      destruct (Z.eqb_spec (x / 2 ^ n + 1) (x / 2 ^ n)); cbn; lia.
    + rewrite AC. destruct (Z.eqb_spec (x mod 2 ^ n) (2 ^ (n - 1))); cbn; split; congruence.
Qed.

(** Outside of [1..w] the assertions of the function fire. *)
Theorem C22_precondition : forall w x n, ~ (1 <= n <= w) -> round_up w x n = Fault AssertFailed.
Proof.
  intros w x n H. unfold round_up. destruct (Z.ltb_spec 0 n); cbn [assert_ bind]; [|reflexivity].
  unfold raised_bit. destruct (Z.leb_spec 0 (n - 1)), (Z.ltb_spec (n - 1) w); try lia; reflexivity.
Qed.

(** ** C23 *)
Theorem C23_downsample : forall t d, normalized t d ->
  (bpow radix2 (min_exp t) <= diy_value d)%R ->
  (rnd t (diy_value d) < bpow radix2 (max_exp t))%R ->
  ~ carries t (diy_value d) ->
  exists r, downsample (fmt_of t) d = Ok r /\
    correctly_rounded t false (diy_value d) (ds_value r) /\
    ds_status r = success /\
    (ds_is_accurate r = false <-> tie t (diy_value d)).
Proof.
  intros t [f e] Hn H1 H2 H3. unfold diy_value, normalized in *. cbn [m_f m_e] in *.
  destruct (downsample_ok t f e Hn H1 H2 H3) as (v & acc & E & V1 & V2 & V3 & V4).
  eexists. split; [exact E|]. cbn [ds_value ds_status ds_is_accurate].
  split; [|split; [reflexivity|exact V4]]. left.
  assert (0 <= rnd t (IZR f * bpow radix2 e))%R.
  { replace 0%R with (rnd t 0) by (apply round_0, valid_rnd_N). apply rnd_mono.
    apply Rle_trans with (2 := H1). apply bpow_ge_0. }
  split; [now rewrite Rabs_pos_eq|]. split; [exact V1|]. split; [exact V3|].
  unfold negative, sign_field. destruct V1 as [[V1 _] _]. rewrite Z.div_small by lia. split; discriminate.
Qed.

(** A carry halves the result (or gives zero, when the carry reaches the smallest normal
    value from below): the exact extent of the defect behind C24 and C32. *)
Theorem C24_carry_is_lost : forall t d, normalized t d ->
  (bpow radix2 (min_exp t) <= diy_value d < bpow radix2 (max_exp t))%R ->
  carries t (diy_value d) ->
  exists r k, downsample (fmt_of t) d = Ok r /\ rnd t (diy_value d) = bpow radix2 k /\
    finite t (ds_value r) /\
    real_of t (ds_value r) = (if k =? min_exp t + precision t - 1 then 0 else / 2 * bpow radix2 k)%R /\
    ds_status r = success.
Proof.
  intros t [f e] Hn [H1 H2] (k & K1 & K2 & K3). unfold diy_value, normalized in *. cbn [m_f m_e] in *.
  pose proof (width_facts t) as W.
  pose proof (normalized_mag (width t) f e ltac:(lia) Hn) as HM.
  set (y := (IZR f * bpow radix2 e)%R) in *.
  assert (He1 : min_exp t + 1 <= e + width t).
  { assert (min_exp t < e + width t) by (apply (lt_bpow radix2); lra). lia. }
  assert (Hyp : (0 < y)%R) by (pose proof (bpow_gt_0 radix2 (e + width t - 1)); lra).
  assert (He2 : e + width t <= max_exp t).
  { assert (e + width t - 1 < max_exp t) by (apply (lt_bpow radix2); lra). lia. }
  assert (R0 : (0 <= rnd t y)%R).
  { replace 0%R with (rnd t 0) by (apply round_0, valid_rnd_N). apply rnd_mono. lra. }
  rewrite Rabs_pos_eq in K2, K3 by lra.
  pose proof (rnd_normalized t f e Hn) as RN. fold y in RN.
  pose proof (half_even_bound f (down_shift t e) (width t)) as HB.
  assert (Hs : width t - precision t <= down_shift t e < width t) by (unfold down_shift; lia).
  specialize (HB ltac:(lia) ltac:(pose proof (pow2_pos (width t - 1)); lia)).
  rewrite downsample_eval by lia.
  set (n := half_even f (down_shift t e)) in *. set (X := e + down_shift t e) in *.
  pose proof (pow2_half (precision t) ltac:(lia)) as EP.
  pose proof (pow2_pos (precision t - 1) ltac:(lia)) as PP.
  (* k = e + width t, n = 2^(width - shift) *)
  assert (EK : k = e + width t).
  { assert (e + width t - 1 < k) by (apply (lt_bpow radix2); lra).
    assert (k <= e + width t); [|lia].
    assert (X1 : (rnd t y <= bpow radix2 (e + width t))%R).
    { rewrite RN. replace (e + width t) with ((width t - down_shift t e) + X) by (unfold X; lia).
      rewrite bpow_plus. apply Rmult_le_compat_r; [apply bpow_ge_0|]. rewrite bpow_IZR by lia. apply IZR_le. apply HB. }
    rewrite K3 in X1. now apply le_bpow in X1. }
  assert (En : n = 2 ^ (width t - down_shift t e)).
  { apply eq_IZR. rewrite <- (bpow_IZR radix2) by lia.
    apply Rmult_eq_reg_r with (bpow radix2 X); [|apply Rgt_not_eq, bpow_gt_0].
    rewrite <- RN, K3, <- bpow_plus. f_equal. unfold X. lia. }
  eexists _, k. split; [reflexivity|]. split; [exact K3|]. cbn [ds_value ds_status].
  set (DF := down_field t e).
  assert (BF : 0 <= DF < all_ones t).
  { unfold DF, down_field. assert (min_exp t + all_ones t - 2 = max_exp t - precision t /\ 2 < all_ones t) by (destruct t; cbn; lia). lia. }
  assert (EN0 : n mod 2 ^ (precision t - 1) = 0).
  { rewrite En. replace (width t - down_shift t e) with
      ((width t - down_shift t e - (precision t - 1)) + (precision t - 1)) by lia.
    rewrite Z.pow_add_r by (unfold down_shift in *; lia). apply Z.mod_mul. lia. }
  rewrite EN0.
  destruct (fields_of t DF 0 ltac:(lia) ltac:(lia)) as (F1 & F2 & F3 & F4 & F5).
  rewrite Z.mod_small.
  2:{ destruct F1 as [F1 _]. pose proof (pow2_half (width t) ltac:(lia)). lia. }
  assert (EV : real_of t (DF * 2 ^ (precision t - 1) + 0) =
     (if DF =? 0 then 0 else IZR (2 ^ (precision t - 1)) * bpow radix2 (min_exp t + DF - 1))%R).
  { unfold real_of, magnitude, significand, exponent. rewrite F3, F4, F5. cbn [Z.eqb].
    destruct (Z.eqb_spec DF 0); [ring|]. f_equal. f_equal. lia. }
  split; [split; [exact F1|rewrite F4; lia]|]. split; [|reflexivity].
  rewrite EV, EK. unfold DF, down_field.
  destruct (Z.eqb_spec (e + width t) (min_exp t + precision t - 1)) as [Q|Q].
  - replace (Z.max _ _) with 0 by lia. reflexivity.
  - rewrite Z.max_r by lia. destruct (Z.eqb_spec (e + width t - precision t - min_exp t + 1) 0); [lia|].
    rewrite <- (bpow_IZR radix2) by lia. change (/ 2)%R with (bpow radix2 (-1)). rewrite <- !bpow_plus. f_equal. lia.
Qed.

(** ** C25 *)

(** checks [k] consecutive numerators starting with [n] *)
Fixpoint conv_check (k : nat) (n prev : Z) : bool :=
  match k with
  | O => true
  | S k' => let r := convert_numerator 4 7 n in
      (prev <=? r) && (0 <=? r) && (r <=? 127) && (-9872 <=? r * 10000 - n * 128) && (r * 10000 - n * 128 <=? 112)
      && conv_check k' (n + 1) r
  end.

Lemma conv_check_spec : forall k n prev, conv_check k n prev = true -> forall i, n <= i < n + Z.of_nat k ->
  let r := convert_numerator 4 7 i in
  0 <= r <= 127 /\ -9872 <= r * 10000 - i * 128 <= 112 /\ (i = n -> prev <= r) /\
  (n < i -> convert_numerator 4 7 (i - 1) <= r).
Proof.
  induction k as [|k IH]; intros n prev H i Hi; [lia|]. cbn [conv_check] in H. cbv zeta in H.
  rewrite !andb_true_iff, !Z.leb_le in H. destruct H as (((((H1 & H2) & H3) & H4) & H5) & H6).
  destruct (Z.eq_dec i n) as [->|Ni].
  - cbv zeta. repeat split; try assumption; lia.
  - destruct (IH _ _ H6 i ltac:(lia)) as (G1 & G2 & G3 & G4). cbv zeta in *.
    split; [exact G1|]. split; [exact G2|]. split; [lia|]. intros _.
    destruct (Z.eq_dec i (n + 1)) as [->|Nj]; [|apply G4; lia].
    replace (n + 1 - 1) with n by lia. apply G3. reflexivity.
Qed.

Lemma conv_check_all : conv_check (Z.to_nat 10000) 0 0 = true.
Proof. vm_compute. reflexivity. Qed.

Theorem C25_fraction : forall n, 0 <= n < 10000 ->
  let r := convert_numerator 4 7 n in
  0 <= r <= 127 /\ -9872 <= r * 10000 - n * 128 <= 112.
Proof.
  intros n H. destruct (conv_check_spec (Z.to_nat 10000) 0 0 conv_check_all n ltac:(lia)) as (G1 & G2 & _). split; assumption.
Qed.

Theorem C25_monotone : forall m n, 0 <= m <= n -> n < 10000 ->
  convert_numerator 4 7 m <= convert_numerator 4 7 n.
Proof.
  intros m n H Hn. replace n with (m + Z.of_nat (Z.to_nat (n - m))) in * by lia.
  set (k := Z.to_nat (n - m)) in *. clearbody k. induction k as [|k IH].
  - replace (m + Z.of_nat 0) with m by lia. lia.
  - apply Z.le_trans with (1 := IH ltac:(lia) ltac:(lia)).
    destruct (conv_check_spec (Z.to_nat 10000) 0 0 conv_check_all (m + Z.of_nat (S k)) ltac:(lia)) as (_ & _ & _ & G).
    replace (m + Z.of_nat (S k) - 1) with (m + Z.of_nat k) in G by lia. apply G. lia.
Qed.

(** ** C26 *)
Theorem C26_boundaries : forall t v, nonzero t v ->
  exists mi pl, boundaries (fmt_of t) v = Ok (mi, pl) /\ normalized t pl /\ m_e mi = m_e pl /\
    diy_value pl = midpoint_above t v /\
    diy_value mi = (if (significand t v =? 2 ^ (precision t - 1)) && (exponent t v =? min_exp t)
                    then magnitude t v - / 4 * ulp_of t v   (* the smallest normal value *)
                    else midpoint_below t v)%R.
Proof.
  intros t v Hv. pose proof (nonzero_significand t v Hv) as Hs.
  destruct (boundaries_ok t v Hs) as (s & S1 & S2 & S3). pose proof (width_facts t) as W.
  eexists _, _. split; [exact S3|]. split; [exact S2|]. split; [reflexivity|]. split.
  - rewrite midpoint_above_mplus. apply upper_mant_real. lia.
  - unfold diy_value. cbn [m_f m_e]. rewrite lower_mant_real by lia.
    pose proof (exponent_ge t v). unfold mminus, midpoint_below, gap_below, magnitude, ulp_of.
    destruct (significand t v =? 2 ^ (precision t - 1)); cbn [andb].
    + destruct (Z.eqb_spec (exponent t v) (min_exp t)), (Z.ltb_spec (min_exp t) (exponent t v)); try lia; lra.
    + lra.
Qed.

(** ** C21 *)

Lemma no_tie_value : forall t v, ~ tie t (magnitude t v).
Proof.
  intros t v (u & _ & E). rewrite Rabs_pos_eq in E by apply magnitude_nonneg.
  assert (U : (0 < ulp_of t u)%R) by apply bpow_gt_0.
  destruct (Z.eq_dec (significand t u) 0) as [Z0|Z0].
  - (* u = 0: half of the smallest denormal *)
    pose proof (significand_full t u) as F. pose proof (pow2_pos (precision t - 1) ltac:(pose proof (width_facts t); lia)).
    unfold midpoint_above, magnitude in E. rewrite Z0 in E. unfold ulp_of in *.
    destruct F as [F|F]; [lia|]. rewrite F in *. rewrite Rmult_0_l, Rplus_0_l in E.
    destruct (Z.eq_dec (significand t v) 0) as [V0|V0].
    + rewrite V0 in E. lra.
    + pose proof (significand_range t v).
      assert (1 <= IZR (significand t v))%R by (apply IZR_le; lia).
      assert (bpow radix2 (min_exp t) <= bpow radix2 (exponent t v))%R by (apply bpow_le, exponent_ge).
      assert (1 * bpow radix2 (exponent t v) <= IZR (significand t v) * bpow radix2 (exponent t v))%R
        by (apply Rmult_le_compat_r; lra). lra.
  - pose proof (significand_range t u). 
    assert (L : (magnitude t u < magnitude t v)%R) by (rewrite E; unfold midpoint_above; lra).
    apply succ_le_lt with (beta := radix2) (fexp := fexp t) in L; try apply format_mag; [|apply fexp_valid].
    rewrite succ_mag in L by lia. rewrite E in L. unfold midpoint_above in L. lra.
Qed.

Lemma no_carry_value : forall t v, ~ carries t (magnitude t v).
Proof.
  intros t v (k & _ & L & E). unfold rnd in E. rewrite round_generic in E; [lra|apply valid_rnd_N|apply format_mag].
Qed.

Theorem C21_unpack_pack : forall t v, nonzero t v ->
  exists d, normalize (fmt_of t) (diy_of_bits (fmt_of t) v) = Ok d /\
    downsample (fmt_of t) d
    = Ok {| ds_value := v mod 2 ^ (width t - 1);   (* v without its sign *)
            ds_status := success; ds_is_accurate := true |}.
Proof.
  intros t v Hv. pose proof (nonzero_significand t v Hv) as Hs. pose proof (significand_range t v) as SR.
  pose proof (width_facts t) as W. pose proof (exponent_range t v) as ER.
  rewrite diy_of_bits_ok.
  assert (2 ^ precision t <= 2 ^ width t) by (apply Z.pow_le_mono_r; lia).
  destruct (C19_normalize t (mk_diy (significand t v) (exponent t v))) as [N _].
  { split; cbn [m_f m_e]; lia. }
  destruct N as ([f e] & N1 & N2 & N3 & _); [cbn [m_f]; lia|].
  exists (mk_diy f e). split; [exact N1|].
  unfold diy_value in N3. cbn [m_f m_e] in N3. fold (magnitude t v) in N3.
  assert (RG : rnd t (magnitude t v) = magnitude t v) by (apply round_generic; [apply valid_rnd_N|apply format_mag]).
  destruct (downsample_ok t f e N2) as (u & acc & D1 & D2 & D3 & D4 & D5).
  - rewrite N3. unfold magnitude. apply Rle_trans with (1 * bpow radix2 (exponent t v))%R.
    + rewrite Rmult_1_l. apply bpow_le, exponent_ge.
    + apply Rmult_le_compat_r; [apply bpow_ge_0|]. apply IZR_le. lia.
  - rewrite N3, RG. apply magnitude_lt_max, Hv.
  - rewrite N3. apply no_carry_value.
  - rewrite D1. rewrite N3 in *. rewrite RG in D4.
    assert (acc = true) by (destruct acc; [reflexivity|]; exfalso; apply (no_tie_value t v), D5; reflexivity).
    subst acc. do 2 f_equal.
    destruct (pattern_split t v (proj1 (proj1 Hv))) as [Ev Bv].
    pose proof (pow2_half (width t) ltac:(lia)) as E2.
    assert (Su : sign_field t u = 0) by (unfold sign_field; destruct D2 as [[D2 _] _]; apply Z.div_small; lia).
    assert (Mu : magnitude t u = magnitude t v) by (unfold real_of in D4; rewrite Su in D4; exact D4).
    assert (Sgu : 0 < significand t u).
    { pose proof (significand_range t u). destruct (Z.eq_dec (significand t u) 0) as [Z0|]; [|lia].
      pose proof (magnitude_pos t v Hs). unfold magnitude in Mu at 1. rewrite Z0 in Mu. lra. }
    destruct (magnitude_inj t u v Sgu Hs Mu) as [I1 I2].
    destruct (pattern_split t u (proj1 D2)) as [Eu Bu]. rewrite Su in Eu.
    pose proof (fields_of t (exp_field t v) (frac_field t v) (exp_field_range t v) (frac_field_range t v)) as (F1 & F2 & _).
    cbv zeta in F1, F2.
    rewrite Eu, I1, I2. destruct F1 as [F1 _]. 
    apply Z.mod_unique with (sign_field t v); [lia|]. rewrite Ev at 1. ring.
Qed.

(** ** C53 *)

(** the number written by a list of binary digits, most significant first *)
Definition bval (ds : list Z) : Z := fold_left (fun a d => 2 * a + d) ds 0.
Definition bits_text (ds : list Z) : Prop := Forall (fun c => c = code "0" \/ c = code "1") ds.
(** characters to digits *)
Definition bdigits (cs : list Z) : list Z := map (fun c => c - code "0") cs.

Lemma bval_acc : forall ds a, fold_left (fun a d => 2 * a + d) ds a = a * 2 ^ zlen ds + bval ds.
Proof.
  induction ds as [|d ds IH]; intros a; [cbn; lia|]. unfold bval. cbn [fold_left].
  rewrite IH, (IH (2 * 0 + d)). rewrite zlen_cons, Z.pow_add_r by (pose proof (zlen_nonneg ds); lia). ring.
Qed.

(** bits [lo + k - 1 .. lo] of [x] *)
Definition bit_chars (x : Z) (lo : Z) (k : nat) : list Z :=
  map (fun i => code "0" + b2z (Z.testbit x (lo + Z.of_nat (k - 1 - i)))) (seq 0 k).

Lemma bit_chars_val : forall k x lo, 0 <= lo -> 0 <= x ->
  bits_text (bit_chars x lo k) /\ List.length (bit_chars x lo k) = k /\
  bval (bdigits (bit_chars x lo k)) = (x / 2 ^ lo) mod 2 ^ Z.of_nat k.
Proof.
  intros k x lo Hlo Hx. split; [|split].
  - unfold bits_text, bit_chars. apply Forall_forall. intros c Hc. apply in_map_iff in Hc as (i & <- & _).
    destruct (Z.testbit _ _); [right|left]; reflexivity.
  - unfold bit_chars. now rewrite map_length, seq_length.
  - induction k as [|k IH].
    + cbn. now rewrite Z.mod_1_r.
    + assert (E : bit_chars x lo (S k) = (code "0" + b2z (Z.testbit x (lo + Z.of_nat k))) :: bit_chars x lo k).
      { unfold bit_chars. cbn [seq map]. replace (S k - 1 - 0)%nat with k by lia. f_equal.
        rewrite <- seq_shift, map_map. apply map_ext_in. intros i Hi. apply in_seq in Hi.
        replace (S k - 1 - S i)%nat with (k - 1 - i)%nat by lia. reflexivity. }
      rewrite E. unfold bdigits. cbn [map]. unfold bval. cbn [fold_left]. rewrite bval_acc.
      fold (bdigits (bit_chars x lo k)). rewrite IH.
      assert (L : zlen (bdigits (bit_chars x lo k)) = Z.of_nat k).
      { unfold zlen, bdigits, bit_chars. now rewrite !map_length, seq_length. }
      rewrite L. replace (code "0" + b2z (Z.testbit x (lo + Z.of_nat k)) - code "0") with (b2z (Z.testbit x (lo + Z.of_nat k))) by lia.
      replace (Z.of_nat (S k)) with (Z.of_nat k + 1) by lia.
      pose proof (pow2_pos (Z.of_nat k) ltac:(lia)) as P.
      set (y := x / 2 ^ lo). assert (Hy : Z.testbit x (lo + Z.of_nat k) = Z.testbit y (Z.of_nat k)).
      { unfold y. rewrite Z.div_pow2_bits by lia. f_equal. lia. }
      rewrite Hy. rewrite Z.pow_add_r by lia. change (2 ^ 1) with 2.
      rewrite Z.rem_mul_r by lia.
      assert (B : b2z (Z.testbit y (Z.of_nat k)) = (y / 2 ^ Z.of_nat k) mod 2).
      { rewrite <- Z.testbit_spec' by lia. destruct (Z.testbit y (Z.of_nat k)); reflexivity. }
      rewrite B. ring.
Qed.

Lemma bit_chars_app : forall a b x lo, bit_chars x lo (a + b) = (bit_chars x (lo + Z.of_nat b) a ++ bit_chars x lo b)%list.
Proof.
  intros a b x lo. unfold bit_chars. rewrite seq_app, map_app. f_equal.
  - apply map_ext_in. intros i Hi. apply in_seq in Hi. do 3 f_equal. lia.
  - cbn [plus]. rewrite <- (map_id (seq 0 b)) at 1.
    replace (seq a b) with (map (fun i => (a + i)%nat) (seq 0 b)).
    2:{ clear. induction b in a |- *; [reflexivity|]. cbn [seq map]. f_equal; [lia|].
        rewrite <- (IHb (S a)), <- seq_shift, map_map. apply map_ext. intros; lia. }
    rewrite !map_map. apply map_ext_in. intros i Hi. apply in_seq in Hi. do 3 f_equal. lia.
Qed.

Lemma bitset_chars : forall n x, bitset_to_string n x = bit_chars x 0 n.
Proof. reflexivity. Qed.

Lemma insert_at : forall a b pos c, List.length a = pos -> insert_char (a ++ b) pos c = (a ++ c :: b)%list.
Proof.
  intros a b pos c <-. unfold insert_char. rewrite firstn_app, firstn_all, Nat.sub_diag, firstn_O, app_nil_r.
  rewrite skipn_app, skipn_all, Nat.sub_diag. reflexivity.
Qed.

Theorem C53_print_binary_double : forall v, pattern Double v ->
  exists s e m, print_binary_double v = (s ++ text " " ++ e ++ text " " ++ m)%list /\
    bits_text s /\ bits_text e /\ bits_text m /\
    List.length s = 1%nat /\ List.length e = 11%nat /\ List.length m = 52%nat /\
    bval (bdigits s) = sign_field Double v /\
    bval (bdigits e) = exp_field Double v /\
    bval (bdigits m) = frac_field Double v.
Proof.
  intros v Hv. unfold print_binary_double. rewrite bitset_chars.
  replace 64%nat with (1 + (11 + 52))%nat by reflexivity. rewrite bit_chars_app, bit_chars_app.
  destruct (bit_chars_val 1 v (0 + Z.of_nat (11 + 52)) ltac:(lia) (proj1 Hv)) as (A1 & A2 & A3).
  destruct (bit_chars_val 11 v (0 + Z.of_nat 52) ltac:(lia) (proj1 Hv)) as (B1 & B2 & B3).
  destruct (bit_chars_val 52 v 0 ltac:(lia) (proj1 Hv)) as (C1 & C2 & C3).
  set (s := bit_chars v (0 + Z.of_nat (11 + 52)) 1) in *. set (e := bit_chars v (0 + Z.of_nat 52) 11) in *.
  set (m := bit_chars v 0 52) in *.
  exists s, e, m. rewrite insert_at by assumption.
  change (s ++ ch_space :: e ++ m)%list with (s ++ (ch_space :: e) ++ m)%list.
  rewrite app_assoc, insert_at by (rewrite app_length, A2; cbn [List.length]; rewrite B2; reflexivity).
  rewrite <- app_assoc. split; [reflexivity|]. repeat (split; [assumption|]).
  rewrite A3, B3, C3. unfold sign_field, exp_field, frac_field. cbn [width precision].
  rewrite Z.div_1_r. split; [|split; reflexivity].
  apply Z.mod_small. split; [apply Z.div_pos; [apply Hv|reflexivity]|].
  apply Z.div_lt_upper_bound; [reflexivity|]. apply Hv.
Qed.

Theorem C53_print_binary : forall n v, 0 <= v < 2 ^ Z.of_nat n ->
  bits_text (print_binary n v) /\ List.length (print_binary n v) = n /\ bval (bdigits (print_binary n v)) = v.
Proof.
  intros n v Hv. unfold print_binary. rewrite bitset_chars.
  destruct (bit_chars_val n v 0 ltac:(lia) ltac:(lia)) as (A1 & A2 & A3).
  split; [exact A1|]. split; [exact A2|]. rewrite A3. change (2 ^ 0) with 1. rewrite Z.div_1_r. now apply Z.mod_small.
Qed.

(** [print_double_presentation]: 1, 52, 1 and 10 bits *)
Theorem C53_print_double_presentation : forall v, 0 <= v < 2 ^ 64 ->
  exists a b c d, print_double_presentation v = (a ++ text " " ++ b ++ text " " ++ c ++ text " " ++ d)%list /\
    bits_text a /\ bits_text b /\ bits_text c /\ bits_text d /\
    List.length a = 1%nat /\ List.length b = 52%nat /\ List.length c = 1%nat /\ List.length d = 10%nat /\
    bval (bdigits (a ++ b ++ c ++ d)) = v.
Proof.
  intros v Hv. unfold print_double_presentation.
  destruct (C53_print_binary 64 v Hv) as (_ & _ & V). unfold print_binary in V.
  rewrite bitset_chars in *.
  replace 64%nat with (1 + (52 + (1 + 10)))%nat in * by reflexivity. rewrite !bit_chars_app in *.
  destruct (bit_chars_val 1 v (0 + Z.of_nat (52 + (1 + 10))) ltac:(lia) (proj1 Hv)) as (A1 & A2 & _).
  destruct (bit_chars_val 52 v (0 + Z.of_nat (1 + 10)) ltac:(lia) (proj1 Hv)) as (B1 & B2 & _).
  destruct (bit_chars_val 1 v (0 + Z.of_nat 10) ltac:(lia) (proj1 Hv)) as (C1 & C2 & _).
  destruct (bit_chars_val 10 v 0 ltac:(lia) (proj1 Hv)) as (D1 & D2 & _).
  set (a := bit_chars v (0 + Z.of_nat (52 + (1 + 10))) 1) in *. set (b := bit_chars v (0 + Z.of_nat (1 + 10)) 52) in *.
  set (c := bit_chars v (0 + Z.of_nat 10) 1) in *. set (d := bit_chars v 0 10) in *.
  exists a, b, c, d. rewrite insert_at by assumption.
  change (a ++ ch_space :: b ++ c ++ d)%list with (a ++ (ch_space :: b) ++ c ++ d)%list.
  rewrite app_assoc, insert_at by (rewrite app_length, A2; cbn [List.length]; rewrite B2; reflexivity).
  replace ((a ++ ch_space :: b) ++ ch_space :: c ++ d)%list with ((a ++ (ch_space :: b) ++ ch_space :: c) ++ d)%list
    by (cbn [app]; rewrite <- ?app_assoc; cbn [app]; rewrite <- ?app_assoc; reflexivity).
  rewrite insert_at by (rewrite app_length, A2; cbn [app List.length]; rewrite app_length, B2; cbn [List.length]; rewrite C2; reflexivity).
  split.
  { cbn [app]. rewrite <- ?app_assoc. cbn [app]. rewrite <- ?app_assoc. reflexivity. }
  repeat (split; [assumption|]). exact V.
Qed.

(** ** C54 *)
Theorem C54_static_pow : forall b n, 1 <= b -> b ^ Z.of_nat n < 2 ^ 32 -> static_pow b n = b ^ Z.of_nat n.
Proof.
  intros b n Hb. unfold static_pow. induction n as [|n IH]; intros H; [reflexivity|].
  cbn [static_pow_helper]. replace (Z.of_nat (S n)) with (1 + Z.of_nat n) in * by lia.
  rewrite Z.pow_add_r, Z.pow_1_r in * by lia.
  assert (0 < b ^ Z.of_nat n) by (apply Z.pow_pos_nonneg; lia).
  rewrite IH by nia. apply wrap_small. nia.
Qed.

Lemma pow_sequencer_value_ok : forall b n, pow_sequencer_value b n = b ^ Z.of_nat n.
Proof.
  intros b n. induction n as [|n IH]; [reflexivity|]. cbn [pow_sequencer_value]. rewrite IH.
  replace (Z.of_nat (S n)) with (Z.of_nat n + 1) by lia. rewrite Z.pow_add_r, Z.pow_1_r by lia. reflexivity.
Qed.

Lemma pow_sequencer_sequence_ok : forall b n,
  pow_sequencer_sequence b n = map (fun i => b ^ Z.of_nat i) (seq 0 (S n)).
Proof.
  intros b n. induction n as [|n IH]; [reflexivity|].
  cbn [pow_sequencer_sequence]. rewrite IH, pow_sequencer_value_ok.
  rewrite (seq_S (S n)), map_app. reflexivity.
Qed.

Theorem C54_seq_pow : forall b m k, (Z.of_nat m < 2 ^ 31) ->
  (0 <= k <= Z.of_nat m -> seq_pow b m k = Ok (b ^ k)) /\
  (Z.of_nat m < k < 2 ^ 64 \/ - 2 ^ 31 <= k < 0 -> seq_pow b m k = Fault TableOverrun).
Proof.
  intros b m k Hm. unfold seq_pow, read_tab, read. rewrite pow_sequencer_sequence_ok. split.
  - intros H. rewrite wrap_small by lia. destruct (Z.ltb_spec k 0); [lia|].
    rewrite nth_error_map, nth_error_nth' with (d := 0%nat) by (rewrite seq_length; lia).
    rewrite seq_nth by lia. cbn [option_map]. do 2 f_equal. lia.
  - intros H. assert (Z.of_nat m < wrap 64 k).
    { destruct H as [H|H]; [rewrite wrap_small; lia|].
      assert (E : k + 2 ^ 64 = wrap 64 k) by (apply Z.mod_unique with (-1); lia). rewrite <- E. lia. }
    destruct (Z.ltb_spec (wrap 64 k) 0); [reflexivity|].
    match goal with |- context [nth_error ?l ?i] => destruct (nth_error l i) eqn:E end; [|reflexivity].
    assert (X : nth_error (map (fun i : nat => b ^ Z.of_nat i) (seq 0 (S m))) (Z.to_nat (wrap 64 k)) <> None) by congruence.
    apply nth_error_Some in X. rewrite map_length, seq_length in X. lia.
Qed.
