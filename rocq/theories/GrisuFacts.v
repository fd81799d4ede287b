(** Grisu2: the digits lie in the rounding interval, are few, and cannot be shortened. *)
From Coq Require Import Reals Lra.
From Flocq Require Import Core.
From Verif Require Import Machine MachineFacts BitOps Format DiyFp KComp Chars Grisu Spec Instances
  DiyFacts BoundFacts TableFacts DvalFacts DigitGenFacts.
Open Scope Z_scope.

(** * Error of one rounded product *)

Lemma mulr_bounds : forall w x y, 1 <= w ->
  x * y - 2 ^ (w - 1) < mulr w x y * 2 ^ w <= x * y + 2 ^ (w - 1).
Proof.
  intros w x y Hw. unfold mulr.
  assert (E : 2 ^ w = 2 * 2 ^ (w - 1)).
  { replace w with (1 + (w - 1)) at 1 by lia. rewrite Z.pow_add_r by lia. reflexivity. }
  assert (0 < 2 ^ (w - 1)) by (apply Z.pow_pos_nonneg; lia).
  pose proof (Z.div_mod (x * y + 2 ^ (w - 1)) (2 ^ w) ltac:(lia)).
  pose proof (Z.mod_pos_bound (x * y + 2 ^ (w - 1)) (2 ^ w) ltac:(lia)).
  set (q := (x * y + 2 ^ (w - 1)) / 2 ^ w) in *. lia.
Qed.

Lemma mulr_error : forall w x cf ce k, 1 <= w -> 0 <= x < 2 ^ w ->
  (Rabs (IZR cf * bpow radix2 ce - pow10 k) <= / 2 * bpow radix2 ce)%R ->
  (Rabs (IZR (mulr w x cf) * bpow radix2 (ce + w) - IZR x * pow10 k) < bpow radix2 (ce + w))%R.
Proof.
  intros w x cf ce k Hw Hx Hc.
  pose proof (mulr_bounds w x cf Hw) as [B1 B2].
  apply IZR_lt in B1. apply IZR_le in B2.
  rewrite minus_IZR, !mult_IZR in B1. rewrite plus_IZR, !mult_IZR in B2.
  assert (Ew : bpow radix2 w = IZR (2 ^ w)) by (symmetry; apply (IZR_Zpower radix2); lia).
  assert (Ew1 : IZR (2 ^ (w - 1)) = (/ 2 * IZR (2 ^ w))%R).
  { replace (2 ^ w) with (2 * 2 ^ (w - 1)). rewrite mult_IZR; lra.
    replace w with (1 + (w - 1)) at 2 by lia. rewrite Z.pow_add_r by lia. reflexivity. }
  rewrite bpow_plus, Ew. rewrite Ew1 in *.
  destruct Hx as [Hx1 Hx2]. apply IZR_le in Hx1. apply IZR_lt in Hx2.
  set (W := IZR (2 ^ w)) in *. set (X := IZR x) in *. set (C := IZR cf) in *.
  set (Q := IZR (mulr w x cf)) in *. set (b := bpow radix2 ce) in *.
  assert (Hb : (0 < b)%R) by apply bpow_gt_0.
  apply Rabs_le_inv in Hc. apply Rabs_def1.
  - (* Q*b*W - X*10^k < b*W *)
    assert (Q * W * b <= (X * C + / 2 * W) * b)%R by (apply Rmult_le_compat_r; lra).
    assert (X * (C * b - pow10 k) <= X * (/ 2 * b))%R by (apply Rmult_le_compat_l; lra).
    assert (X * (/2 * b) < W * (/ 2 * b))%R by (apply Rmult_lt_compat_r; lra). lra.
  - assert ((X * C - / 2 * W) * b < Q * W * b)%R by (apply Rmult_lt_compat_r; lra).
    assert (X * (- (/ 2 * b)) <= X * (C * b - pow10 k))%R by (apply Rmult_le_compat_l; lra).
    assert (X * (/2 * b) < W * (/ 2 * b))%R by (apply Rmult_lt_compat_r; lra). lra.
Qed.

(** * Interval of a value *)

(** midpoint to the next larger magnitude *)
Definition mplus (t : ftype) (v : Z) : R := ((IZR (significand t v) + / 2) * ulp_of t v)%R.
(** lower end of the interval the code works with: the midpoint to the next
    smaller magnitude (conservative for the smallest normal number) *)
Definition mminus (t : ftype) (v : Z) : R :=
  ((IZR (significand t v) - (if significand t v =? 2 ^ (precision t - 1) then / 4 else / 2)) * ulp_of t v)%R.

(** the safety margin, as a fraction of an ulp: 1/512 (double), 1/64 (float) *)
Definition margin (t : ftype) (v : Z) : R := (bpow radix2 (precision t - width t + 2) * ulp_of t v)%R.

(** largest number of digits *)
Definition max_sig (t : ftype) : Z := match t with Float => 9 | Double => 17 end.

Lemma finite_exponent : forall t v, finite t v -> exponent t v <= max_exp t - precision t.
Proof.
  intros t v [_ H]. pose proof (exp_field_range t v) as R. unfold exponent.
  assert (E : min_exp t + all_ones t - 2 = max_exp t - precision t) by (destruct t; reflexivity).
  assert (1 < all_ones t) by (destruct t; reflexivity). lia.
Qed.

Lemma exponent_ge : forall t v, min_exp t <= exponent t v.
Proof. intros t v. unfold exponent. lia. Qed.

Lemma lower_mant_real : forall t v s, 1 <= s ->
  (IZR (lower_mant t (significand t v) s) * bpow radix2 (exponent t v - 1 - s) = mminus t v)%R.
Proof.
  intros t v s Hs. unfold lower_mant, mminus, ulp_of.
  set (f := significand t v). set (e := exponent t v).
  replace (bpow radix2 e) with (bpow radix2 (e - 1 - s) * bpow radix2 (s + 1))%R
    by (rewrite <- bpow_plus; f_equal; lia).
  set (b := bpow radix2 (e - 1 - s)).
  destruct (f =? 2 ^ (precision t - 1)).
  - rewrite mult_IZR, minus_IZR, mult_IZR.
    change (IZR (2 ^ (s - 1))) with (IZR (radix2 ^ (s - 1))).
    rewrite IZR_Zpower by lia.
    replace (s + 1) with (2 + (s - 1)) by lia. rewrite bpow_plus.
    change (bpow radix2 2) with 4%R. lra.
  - rewrite mult_IZR, minus_IZR, mult_IZR.
    change (IZR (2 ^ s)) with (IZR (radix2 ^ s)).
    rewrite IZR_Zpower by lia.
    replace (s + 1) with (1 + s) by lia. rewrite bpow_plus.
    change (bpow radix2 1) with 2%R. lra.
Qed.

Lemma upper_mant_real : forall t v s, 0 <= s ->
  (IZR ((2 * significand t v + 1) * 2 ^ s) * bpow radix2 (exponent t v - 1 - s) = mplus t v)%R.
Proof.
  intros t v s Hs. unfold mplus, ulp_of.
  set (f := significand t v). set (e := exponent t v).
  replace (bpow radix2 e) with (bpow radix2 (e - 1 - s) * bpow radix2 (1 + s))%R
    by (rewrite <- bpow_plus; f_equal; lia).
  rewrite mult_IZR, plus_IZR, mult_IZR.
  change (IZR (2 ^ s)) with (IZR (radix2 ^ s)). rewrite IZR_Zpower by lia.
  rewrite bpow_plus. change (bpow radix2 1) with 2%R. lra.
Qed.

(** * Scaling *)

(** Everything before the digit generator. *)
Lemma grisu_scaled : forall t v, finite t v -> 0 < significand t v ->
  exists s mk cf ce,
    let pf := (2 * significand t v + 1) * 2 ^ s in
    let mf := lower_mant t (significand t v) s in
    let pe := exponent t v - 1 - s in
    let E := pe + ce + width t in
    let P := mulr (width t) pf cf in
    let M := mulr (width t) mf cf in
    width t - precision t - 1 <= s < width t /\
    2 ^ (width t - 1) <= pf < 2 ^ width t /\ 0 < mf < pf /\
    2 ^ (width t - 1) <= cf < 2 ^ width t /\
    - table_max t <= mk <= table_max t - 1 /\
    grisu_alpha (fmt_of t) <= E <= grisu_gamma (fmt_of t) /\
    (Rabs (IZR cf * bpow radix2 ce - pow10 mk) <= / 2 * bpow radix2 ce)%R /\
    (bpow radix2 (ce + width t - 1) <= pow10 mk)%R /\
    0 < P < 2 ^ width t /\ 0 <= M /\
    forall buf base, grisu2 (fmt_of t) v buf base =
      (w_m' <- diy_inc (fmt_of t) (mk_diy M E) ;;
       w_p' <- diy_dec (fmt_of t) (mk_diy P E) ;;
       digit_gen (fmt_of t) w_p' w_m' buf base (- mk)).
Proof.
  intros t v Hfin Hf.
  destruct (boundaries_ok t v Hf) as (s & S1 & S2 & S3).
  pose proof (finite_exponent t v Hfin) as He1. pose proof (exponent_ge t v) as He2.
  pose proof (significand_range t v) as Hr.
  set (f := significand t v) in *. set (e := exponent t v) in *.
  assert (Hww : 24 <= precision t /\ precision t + 8 <= width t <= 64 /\ -1074 <= min_exp t < 0 /\ max_exp t <= 1024)
    by (destruct t; cbn; lia).
  assert (Hs2 : s <= width t - 2).
  { destruct (Z.le_gt_cases s (width t - 2)) as [|G]; [assumption|].
    assert (2 ^ (width t - 1) <= 2 ^ s) by (apply Z.pow_le_mono_r; lia).
    assert (2 ^ width t = 2 * 2 ^ (width t - 1)).
    { replace (width t) with (1 + (width t - 1)) at 1 by lia. rewrite Z.pow_add_r by lia. reflexivity. }
    assert (3 * 2 ^ (width t - 1) <= (2 * f + 1) * 2 ^ s) by (apply Z.mul_le_mono_nonneg; lia). lia. }
  destruct (scaling_ok_spec t (e - 1 - s)) as (mk & cf & ce & C1 & C2 & C3 & C4).
  { unfold pe_min, pe_max. lia. }
  destruct (cached_power_ok t mk) as (cf' & ce' & D1 & D2 & D3 & D4 & D5); [lia|].
  rewrite C3 in D1. injection D1 as <- <-.
  exists s, mk, cf, ce. cbv zeta.
  set (pf := (2 * f + 1) * 2 ^ s) in *.
  assert (Hmf : 0 < lower_mant t f s < pf).
  { unfold lower_mant, pf. assert (H2s : 2 ^ s = 2 * 2 ^ (s - 1)).
    { replace s with (1 + (s - 1)) at 1 by lia. rewrite Z.pow_add_r by lia. reflexivity. }
    assert (0 < 2 ^ (s - 1)) by (apply Z.pow_pos_nonneg; lia).
    set (X := 2 ^ (s - 1)) in *. rewrite H2s. clear - Hf H.
    destruct (f =? 2 ^ (precision t - 1)); split; nia. }
  destruct (diy_mul_f t (mk_diy pf (e - 1 - s)) (mk_diy cf ce)) as (P1 & P2); cbn [m_f] in *; [lia|lia|].
  destruct (diy_mul_f t (mk_diy (lower_mant t f s) (e - 1 - s)) (mk_diy cf ce)) as (M1 & M2); cbn [m_f] in *; [lia|lia|].
  split; [lia|]. split; [assumption|]. split; [assumption|]. split; [assumption|].
  split; [lia|]. split; [assumption|]. split; [assumption|]. split; [assumption|].
  split.
  { split; [|lia]. pose proof (mulr_bounds (width t) pf cf ltac:(lia)) as [B1 _].
    assert (2 ^ (width t - 1) * 2 ^ (width t - 1) <= pf * cf) by (apply Z.mul_le_mono_nonneg; lia).
    assert (2 <= 2 ^ (width t - 1)) by (change 2 with (2 ^ 1) at 1; apply Z.pow_le_mono_r; lia).
    assert (0 < 2 ^ width t) by lia. clear - B1 H H0 H1.
    set (X := 2 ^ (width t - 1)) in *. nia. }
  split; [lia|].
  intros buf base. unfold grisu2. rewrite S3. cbn [bind m_e]. rewrite C1. cbn [bind]. rewrite C3. cbn [bind].
  assert (EE : forall f', diy_mul (fmt_of t) (mk_diy f' (e - 1 - s)) (mk_diy cf ce)
           = mk_diy (m_f (diy_mul (fmt_of t) (mk_diy f' (e - 1 - s)) (mk_diy cf ce))) (e - 1 - s + ce + width t)).
  { intros f'. pose proof (diy_mul_e t (mk_diy f' (e - 1 - s)) (mk_diy cf ce)) as X. cbn [m_e] in X.
    rewrite <- X by lia. destruct (diy_mul _ _ _); reflexivity. }
  rewrite (EE pf), P1. rewrite (EE (lower_mant t f s)), M1. reflexivity.
Qed.

(** Integer facts about the scaled interval. *)
Lemma interval_ints : forall t f s cf, 0 < f < 2 ^ precision t ->
  width t - precision t - 1 <= s < width t ->
  let pf := (2 * f + 1) * 2 ^ s in
  let mf := lower_mant t f s in
  let P := mulr (width t) pf cf in
  let M := mulr (width t) mf cf in
  2 ^ (width t - 1) <= pf < 2 ^ width t ->
  2 ^ (width t - 1) <= cf < 2 ^ width t ->
  90 <= P - 1 - (M + 1) < 2 ^ (s + 1) /\
  2 ^ (width t - 2) <= P /\
  P - 1 <= 10 ^ (max_sig t - 1) * (P - 1 - (M + 1)).
Proof.
  intros t f s cf Hf Hs pf mf P M Hpf Hcf.
  assert (Hww : 24 <= precision t /\ precision t + 8 <= width t <= 64) by (destruct t; cbn; lia).
  assert (Hs1 : 2 ^ s = 2 * 2 ^ (s - 1)).
  { replace s with (1 + (s - 1)) at 1 by lia. rewrite Z.pow_add_r by lia. reflexivity. }
  assert (Hs2 : 2 ^ (s + 1) = 4 * 2 ^ (s - 1)).
  { replace (s + 1) with (2 + (s - 1)) at 1 by lia. rewrite Z.pow_add_r by lia. reflexivity. }
  assert (Hs3 : 2 ^ (width t - precision t - 2) <= 2 ^ (s - 1)) by (apply Z.pow_le_mono_r; lia).
  set (X := 2 ^ (s - 1)) in *.
  assert (Ep : 2 ^ precision t = 2 * 2 ^ (precision t - 1)) by (destruct t; reflexivity).
  assert (HX : 0 < X) by (unfold X; apply Z.pow_pos_nonneg; lia).
  set (D := pf - mf).
  assert (HD : 3 * X <= D <= 4 * X /\ pf <= 2 ^ precision t * D).
  { unfold D, pf, mf, lower_mant. fold X. rewrite Hs1.
    destruct (Z.eqb_spec f (2 ^ (precision t - 1))) as [E|E].
    - rewrite E. set (h := 2 ^ (precision t - 1)) in *. rewrite Ep. split; [lia|].
      replace (2 * h * ((2 * h + 1) * (2 * X) - (4 * h - 1) * X)) with (6 * h * X) by ring.
      assert (1 * X <= h * X) by (apply Z.mul_le_mono_nonneg_r; lia). lia.
    - split; [lia|].
      replace ((2 * f + 1) * (2 * X) - (2 * f - 1) * (2 * X)) with (4 * X) by ring.
      assert (f * X <= (2 ^ precision t - 1) * X) by (apply Z.mul_le_mono_nonneg_r; lia). lia. }
  destruct HD as [HD1 HD2].
  pose proof (mulr_bounds (width t) pf cf ltac:(lia)) as BP. fold P in BP.
  pose proof (mulr_bounds (width t) mf cf ltac:(lia)) as BM. fold M in BM.
  set (W1 := 2 ^ (width t - 1)) in *.
  assert (EW : 2 ^ width t = 2 * W1).
  { unfold W1. replace (width t) with (1 + (width t - 1)) at 1 by lia. rewrite Z.pow_add_r by lia. reflexivity. }
  assert (EW2 : W1 = 2 * 2 ^ (width t - 2)).
  { unfold W1. replace (width t - 1) with (1 + (width t - 2)) at 1 by lia. rewrite Z.pow_add_r by lia. reflexivity. }
  assert (EG : pf * cf - mf * cf = D * cf) by (unfold D; ring).
  assert (HG1 : 3 * X * W1 <= D * cf).
  { apply Z.mul_le_mono_nonneg; lia. }
  assert (HG2 : D * cf <= 4 * X * (2 * W1 - 1)).
  { apply Z.mul_le_mono_nonneg; lia. }
  assert (HA : pf * cf <= 2 ^ precision t * (D * cf)).
  { rewrite Z.mul_assoc. apply Z.mul_le_mono_nonneg_r; lia. }
  assert (HPP : W1 * W1 <= pf * cf) by (apply Z.mul_le_mono_nonneg; lia).
  assert (HXW : 64 * W1 <= X * W1).
  { apply Z.mul_le_mono_nonneg_r; [lia|]. etransitivity; [|exact Hs3].
    change 64 with (2 ^ 6). apply Z.pow_le_mono_r; lia. }
  set (A := pf * cf) in *. set (B := mf * cf) in *. set (G := D * cf) in *.
  rewrite EW in *.
  split; [split|split].
  - assert (G - 2 * W1 < (P - M) * (2 * W1)) by lia.
    assert (190 * W1 < (P - M) * (2 * W1)) by lia.
    assert (95 * (2 * W1) < (P - M) * (2 * W1)) as Q by lia.
    apply Z.mul_lt_mono_pos_r in Q; lia.
  - assert ((P - M) * (2 * W1) < (4 * X + 1) * (2 * W1)) as Q by lia.
    rewrite Hs2. apply Z.mul_lt_mono_pos_r in Q; lia.
  - assert ((W1 - 1) * W1 < (P * 2) * W1) as Q by lia.
    apply Z.mul_lt_mono_pos_r in Q; lia.
  - assert (L1 : (P - 1) * (2 * W1) <= A) by lia.
    assert (L2 : G - 6 * W1 <= (P - 1 - (M + 1)) * (2 * W1)) by lia.
    assert (L3 : 2 ^ precision t * G <= 10 ^ (max_sig t - 1) * (G - 6 * W1)).
    { assert (3 * 2 ^ (width t - precision t - 2) * W1 <= G).
      { etransitivity; [|exact HG1]. apply Z.mul_le_mono_nonneg_r; lia. }
      unfold W1 in H |- *. clearbody G. clear - H. destruct t; powc; lia. }
    assert (L4 : 10 ^ (max_sig t - 1) * (G - 6 * W1) <= 10 ^ (max_sig t - 1) * ((P - 1 - (M + 1)) * (2 * W1))).
    { apply Z.mul_le_mono_nonneg_l; [|exact L2]. apply Z.pow_nonneg. lia. }
    assert (L5 : (P - 1) * (2 * W1) <= 10 ^ (max_sig t - 1) * (P - 1 - (M + 1)) * (2 * W1)) by lia.
    apply Z.mul_le_mono_pos_r in L5; lia.
Qed.

(** Few digits. *)
Lemma cut_digits : forall t Pm delta sh ds j,
  0 <= sh -> 0 < delta -> cut Pm delta sh ds j -> Forall digit ds -> hd 0 ds <> 0 ->
  0 < Pm < 2 ^ width t -> width t - sh <= (match t with Float => 16 | Double => 32 end) -> sh <= width t ->
  Pm <= 10 ^ (max_sig t - 1) * delta ->
  zlen ds <= max_sig t.
Proof.
  intros t Pm delta sh ds j Hsh Hdl HC Hds Hhd HPm Hws Hsw HPd.
  destruct ds as [|d ds]; [cbn in Hhd; congruence|]. cbn [hd] in Hhd.
  pose proof (dval_lower d ds Hds Hhd) as L. rewrite zlen_cons.
  assert (Hp : 0 < 2 ^ sh) by (apply Z.pow_pos_nonneg; lia).
  destruct (Z.le_gt_cases (1 + zlen ds) (max_sig t)) as [|G]; [assumption|exfalso].
  pose proof (pow10_pos (zlen ds) (zlen_nonneg ds)) as L10.
  destruct HC as [(Hj & C2 & C3)|(Hj & C1 & r & C2 & C3 & C4 & C5)].
  - assert (Pm / 2 ^ sh < 2 ^ (width t - sh)).
    { apply Z.div_lt_upper_bound; [lia|]. rewrite <- Z.pow_add_r by lia.
      replace (sh + (width t - sh)) with (width t) by lia. lia. }
    assert (2 ^ (width t - sh) <= 2 ^ (match t with Float => 16 | Double => 32 end))
      by (apply Z.pow_le_mono_r; lia).
    assert (10 ^ max_sig t <= 10 ^ zlen ds) by (apply Z.pow_le_mono_r; lia).
    assert (2 ^ (match t with Float => 16 | Double => 32 end) < 10 ^ max_sig t) by (destruct t; reflexivity).
    assert (dval (d :: ds) * 1 <= dval (d :: ds) * 10 ^ j)
      by (apply Z.mul_le_mono_nonneg_l; [lia|pose proof (pow10_pos j Hj); lia]).
    lia.
  - pose proof (Z.mod_pos_bound (10 ^ (- j - 1) * Pm) (2 ^ sh) Hp) as [_ Mb].
    assert (E10 : 10 ^ (- j) = 10 * 10 ^ (- j - 1)).
    { replace (- j) with (1 + (- j - 1)) at 1 by lia. rewrite Z.pow_add_r by lia. reflexivity. }
    pose proof (pow10_pos (- j - 1) ltac:(lia)) as T10.
    set (T := 10 ^ (- j - 1)) in *.
    (* 10^(n-1) * T * delta < 10^(n-1) * 2^sh <= 10 * T * Pm *)
    assert (Q1 : 10 ^ zlen ds * (T * delta) < 10 ^ zlen ds * 2 ^ sh) by (apply Z.mul_lt_mono_pos_l; lia).
    assert (Q2 : 10 ^ zlen ds * 2 ^ sh <= dval (d :: ds) * 2 ^ sh) by (apply Z.mul_le_mono_nonneg_r; lia).
    assert (Q3 : 10 ^ max_sig t <= 10 ^ zlen ds) by (apply Z.pow_le_mono_r; lia).
    assert (Q4 : 10 ^ max_sig t * (T * delta) <= 10 ^ zlen ds * (T * delta)).
    { apply Z.mul_le_mono_nonneg_r; [|assumption]. apply Z.mul_nonneg_nonneg; lia. }
    assert (Q5 : 10 ^ max_sig t = 10 * 10 ^ (max_sig t - 1)) by (destruct t; reflexivity).
    assert (Q6 : T * Pm <= T * (10 ^ (max_sig t - 1) * delta)) by (apply Z.mul_le_mono_nonneg_l; lia).
    rewrite E10 in C2. rewrite Q5 in Q4. lia.
Qed.

Lemma cut_range : forall Pm delta sh ds j, 0 <= sh -> cut Pm delta sh ds j ->
  (forall u c, (0 < u)%R -> (u * IZR (2 ^ sh) = c)%R ->
    (IZR (Pm - delta) * u <= IZR (dval ds) * pow10 j * c <= IZR Pm * u)%R).
Proof.
  intros Pm delta sh ds j Hsh HC u c Hu Hc.
  assert (Hp : 0 < 2 ^ sh) by (apply Z.pow_pos_nonneg; lia).
  destruct HC as [(Hj & C2 & C3)|(Hj & C1 & r & C2 & C3 & C4 & C5)].
  - pose proof (Z.div_mod Pm (2 ^ sh) ltac:(lia)) as D.
    pose proof (Z.mod_pos_bound Pm (2 ^ sh) Hp) as M.
    rewrite <- C2 in D. rewrite (bpow_IZR radix10 j Hj). change (radix10 ^ j) with (10 ^ j).
    rewrite <- mult_IZR, <- Hc.
    set (z := dval ds * 10 ^ j) in *.
    assert (Pm - delta <= z * 2 ^ sh <= Pm) as [H1 H2] by lia.
    apply IZR_le in H1, H2. rewrite mult_IZR in H1, H2.
    split; apply Rmult_le_reg_r with (/ u)%R; try (apply Rinv_0_lt_compat; assumption);
    rewrite !Rmult_assoc; rewrite ?(Rmult_comm u (_ * / u)), ?Rmult_assoc;
    rewrite ?(Rmult_comm (/ u) u), ?Rinv_r by lra; lra.
  - assert (Hpos : (0 < pow10 (- j))%R) by apply bpow_gt_0.
    apply (f_equal IZR) in C2. rewrite plus_IZR, !mult_IZR in C2.
    change (10 ^ (- j)) with (radix10 ^ (- j)) in C2. rewrite IZR_Zpower in C2 by lia.
    destruct C3 as [C3 _]. apply IZR_le in C3. apply IZR_le in C4. rewrite mult_IZR in C4.
    change (10 ^ (- j)) with (radix10 ^ (- j)) in C4. rewrite IZR_Zpower in C4 by lia.
    rewrite minus_IZR.
    set (T := pow10 (- j)) in *.
    assert (EJ : (pow10 j * T = 1)%R) by (unfold T; rewrite <- bpow_plus; replace (j + - j) with 0 by lia; reflexivity).
    assert (HpJ : (0 < pow10 j)%R) by apply bpow_gt_0.
    rewrite <- Hc. set (J := pow10 j) in *. set (SH := IZR (2 ^ sh)) in *.
    set (N := IZR (dval ds)) in *.
    replace (N * J * (u * SH))%R with ((N * SH) * J * u)%R by ring.
    replace (N * SH)%R with (T * IZR Pm - IZR r)%R by lra.
    replace ((T * IZR Pm - IZR r) * J * u)%R with ((J * T) * IZR Pm * u - IZR r * J * u)%R by ring.
    rewrite EJ. assert (0 <= IZR r * J * u)%R by (apply Rmult_le_pos; [apply Rmult_le_pos|]; lra).
    assert (IZR r * J * u <= IZR delta * u)%R.
    { apply Rmult_le_compat_r; [lra|].
      apply Rle_trans with (T * IZR delta * J)%R; [apply Rmult_le_compat_r; lra|].
      replace (T * IZR delta * J)%R with (J * T * IZR delta)%R by ring. rewrite EJ. lra. }
    lra.
Qed.

(** * Grisu2 as a whole *)

Definition kmin (t : ftype) : Z := match t with Float => -49 | Double => -342 end.
Definition kmax (t : ftype) : Z := match t with Float => 38 | Double => 308 end.

Lemma pow10_lt_inv : forall a b, (pow10 a < pow10 b)%R -> a < b.
Proof. intros a b H. now apply lt_bpow in H. Qed.

(** comparisons of concrete powers *)
Lemma pow2_vs_pow10_tiny : forall t, (pow10 (kmin t) <= bpow radix2 (min_exp t - 1))%R.
Proof.
  destruct t.
  - change (kmin Float) with (-49). change (min_exp Float - 1) with (-150).
    apply Rmult_le_reg_r with (pow10 49 * bpow radix2 150)%R.
    { apply Rmult_lt_0_compat; apply bpow_gt_0. }
    rewrite <- Rmult_assoc, <- bpow_plus. change (pow10 (-49 + 49)) with 1%R.
    replace (bpow radix2 (-150) * (pow10 49 * bpow radix2 150))%R with (bpow radix2 (-150) * bpow radix2 150 * pow10 49)%R by ring.
    rewrite <- bpow_plus. change (bpow radix2 (-150 + 150)) with 1%R. rewrite !Rmult_1_l.
    rewrite !bpow_IZR by lia. apply IZR_le. apply Z.leb_le. vm_compute. reflexivity.
  - change (kmin Double) with (-342). change (min_exp Double - 1) with (-1075).
    apply Rmult_le_reg_r with (pow10 342 * bpow radix2 1075)%R.
    { apply Rmult_lt_0_compat; apply bpow_gt_0. }
    rewrite <- Rmult_assoc, <- bpow_plus. change (pow10 (-342 + 342)) with 1%R.
    replace (bpow radix2 (-1075) * (pow10 342 * bpow radix2 1075))%R with (bpow radix2 (-1075) * bpow radix2 1075 * pow10 342)%R by ring.
    rewrite <- bpow_plus. change (bpow radix2 (-1075 + 1075)) with 1%R. rewrite !Rmult_1_l.
    rewrite !bpow_IZR by lia. apply IZR_le. apply Z.leb_le. vm_compute. reflexivity.
Qed.

Lemma pow2_vs_pow10_huge : forall t, (bpow radix2 (max_exp t) <= pow10 (kmax t + 1))%R.
Proof.
  intros t. rewrite !bpow_IZR by (destruct t; cbn; lia). apply IZR_le. apply Z.leb_le.
  destruct t; vm_compute; reflexivity.
Qed.

Lemma mplus_lt : forall t v, finite t v -> (mplus t v < bpow radix2 (max_exp t))%R.
Proof.
  intros t v H. unfold mplus, ulp_of. pose proof (finite_exponent t v H) as He.
  pose proof (significand_range t v) as [_ Hr].
  assert (Hr' : (IZR (significand t v) <= bpow radix2 (precision t) - 1)%R).
  { rewrite bpow_IZR by (destruct t; cbn; lia). rewrite <- minus_IZR. apply IZR_le.
    change (radix2 ^ precision t) with (2 ^ precision t). lia. }
  assert (Hb : (bpow radix2 (exponent t v) <= bpow radix2 (max_exp t - precision t))%R) by now apply bpow_le.
  pose proof (bpow_gt_0 radix2 (exponent t v)) as B0.
  replace (max_exp t) with (precision t + (max_exp t - precision t)) by lia.
  rewrite bpow_plus.
  apply Rlt_le_trans with (bpow radix2 (precision t) * bpow radix2 (exponent t v))%R.
  - apply Rmult_lt_compat_r; lra.
  - apply Rmult_le_compat_l; [apply bpow_ge_0|assumption].
Qed.

Lemma grisu2_ok : forall t v, finite t v -> 0 < significand t v ->
  exists ds K lo hi,
    let x := (IZR (dval ds) * pow10 K)%R in
    Forall digit ds /\ hd 0 ds <> 0 /\ last_nonzero ds /\ zlen ds <= max_sig t /\
    kmin t <= K <= kmax t /\
    (mminus t v < lo < mminus t v + margin t v)%R /\
    (mplus t v - margin t v < hi < mplus t v)%R /\
    (lo <= x <= hi)%R /\
    (2 ^ (width t / 2) <= significand t v -> forall y, ~ (lo <= IZR y * pow10 (K + 1) <= hi)%R) /\
    forall pre rest, (length ds <= length rest)%nat ->
      grisu2 (fmt_of t) v (pre ++ rest) (zlen pre)
      = Ok (pre ++ dchars ds ++ skipn (length ds) rest, zlen ds, K).
Proof.
  intros t v Hfin Hf.
  destruct (grisu_scaled t v Hfin Hf) as (s & mk & cf & ce & G).
  cbv zeta in G.
  pose proof (significand_range t v) as Hr.
  pose proof (interval_ints t (significand t v) s cf) as I. cbv zeta in I.
  set (pf := (2 * significand t v + 1) * 2 ^ s) in *.
  set (mf := lower_mant t (significand t v) s) in *.
  set (pe := exponent t v - 1 - s) in *.
  set (E := pe + ce + width t) in *.
  set (P := mulr (width t) pf cf) in *. set (M := mulr (width t) mf cf) in *.
  destruct G as (G1 & G2 & G3 & G4 & G5 & G6 & G7 & G8 & G9 & G10 & G11).
  destruct I as (I1 & I2 & I3); try assumption; try lia.
  assert (Hww : 24 <= precision t /\ precision t + 8 <= width t <= 64 /\ table_max t <= 343) by (destruct t; cbn; lia).
  set (sh := - E).
  assert (Hsh : 16 <= sh /\ sh <= width t - 4 /\ width t / 2 <= sh <= width t / 2 + 3).
  { unfold sh. clear - G6. unfold grisu_alpha, grisu_gamma in G6. rewrite fw_width in G6.
    destruct t; cbn [width] in *; change (32 / 2) with 16 in *; change (64 / 2) with 32 in *; lia. }
  assert (Hwsh : width t - sh <= match t with Float => 16 | Double => 32 end /\ sh <= width t).
  { clear - Hsh. destruct t; cbn [width] in *; change (32 / 2) with 16 in *; change (64 / 2) with 32 in *; lia. }
  assert (Hshp : 2 ^ sh <= 2 ^ (width t - 4)) by (apply Z.pow_le_mono_r; lia).
  assert (H4 : 2 ^ (width t - 2) = 4 * 2 ^ (width t - 4)).
  { replace (width t - 2) with (2 + (width t - 4)) by lia. rewrite Z.pow_add_r by lia. reflexivity. }
  assert (0 < 2 ^ (width t - 4)) by (apply Z.pow_pos_nonneg; lia).
  destruct (digit_gen_ok t (P - 1) (M + 1) E) as (ds & j & D1 & D2 & D3 & D4 & D5 & D6); try assumption; fold sh; try lia.
  fold sh in D5.
  set (K := - mk + j).
  (* the real unit *)
  set (U := (bpow radix2 E * pow10 (- mk))%R).
  assert (HU : (0 < U)%R) by (apply Rmult_lt_0_compat; apply bpow_gt_0).
  assert (HUs : (U * IZR (2 ^ sh) = pow10 (- mk))%R).
  { unfold U. change (IZR (2 ^ sh)) with (IZR (radix2 ^ sh)). rewrite IZR_Zpower by lia.
    replace (bpow radix2 E * pow10 (- mk) * bpow radix2 sh)%R with (bpow radix2 E * bpow radix2 sh * pow10 (- mk))%R by ring.
    rewrite <- bpow_plus. replace (E + sh) with 0 by (unfold sh; lia). change (bpow radix2 0) with 1%R. ring. }
  assert (Hmk : (pow10 mk * pow10 (- mk) = 1)%R).
  { rewrite <- bpow_plus. replace (mk + - mk) with 0 by lia. reflexivity. }
  assert (HUle : (U <= bpow radix2 (exponent t v - s))%R).
  { unfold U. apply Rmult_le_reg_r with (pow10 mk); [apply bpow_gt_0|].
    rewrite Rmult_assoc, (Rmult_comm (pow10 (- mk))), Hmk, Rmult_1_r.
    replace E with (exponent t v - s + (ce + width t - 1)) by (unfold E, pe; lia).
    rewrite bpow_plus. apply Rmult_le_compat_l; [apply bpow_ge_0|assumption]. }
  assert (Hmargin : (2 * U <= margin t v)%R).
  { unfold margin, ulp_of. rewrite <- bpow_plus.
    apply Rle_trans with (2 * bpow radix2 (exponent t v - s))%R; [lra|].
    change 2%R with (bpow radix2 1) at 1. rewrite <- bpow_plus. apply bpow_le. lia. }
  (* error of the two products *)
  assert (HP : (Rabs (IZR P * U - mplus t v) < U)%R).
  { pose proof (mulr_error (width t) pf cf ce mk ltac:(lia) ltac:(lia) G7) as Q. fold P in Q.
    replace (IZR P * U - mplus t v)%R with
      ((IZR P * bpow radix2 (ce + width t) - IZR pf * pow10 mk) * (bpow radix2 pe * pow10 (- mk)))%R.
    - rewrite Rabs_mult, (Rabs_pos_eq (bpow radix2 pe * pow10 (- mk))).
      2:{ apply Rmult_le_pos; apply bpow_ge_0. }
      replace U with (bpow radix2 (ce + width t) * (bpow radix2 pe * pow10 (- mk)))%R.
      + apply Rmult_lt_compat_r; [|assumption]. apply Rmult_lt_0_compat; apply bpow_gt_0.
      + unfold U, E. rewrite <- Rmult_assoc, <- bpow_plus. do 2 f_equal. lia.
    - rewrite <- (upper_mant_real t v s) by lia. fold pf pe. unfold U, E.
      replace (pe + ce + width t) with (pe + (ce + width t)) by lia. rewrite (bpow_plus _ pe (ce + width t)).
      transitivity (IZR P * (bpow radix2 pe * bpow radix2 (ce + width t) * pow10 (- mk)) - IZR pf * bpow radix2 pe * (pow10 mk * pow10 (- mk)))%R; [ring|].
      rewrite Hmk. ring. }
  assert (HM : (Rabs (IZR M * U - mminus t v) < U)%R).
  { pose proof (mulr_error (width t) mf cf ce mk ltac:(lia) ltac:(lia) G7) as Q. fold M in Q.
    replace (IZR M * U - mminus t v)%R with
      ((IZR M * bpow radix2 (ce + width t) - IZR mf * pow10 mk) * (bpow radix2 pe * pow10 (- mk)))%R.
    - rewrite Rabs_mult, (Rabs_pos_eq (bpow radix2 pe * pow10 (- mk))).
      2:{ apply Rmult_le_pos; apply bpow_ge_0. }
      replace U with (bpow radix2 (ce + width t) * (bpow radix2 pe * pow10 (- mk)))%R.
      + apply Rmult_lt_compat_r; [|assumption]. apply Rmult_lt_0_compat; apply bpow_gt_0.
      + unfold U, E. rewrite <- Rmult_assoc, <- bpow_plus. do 2 f_equal. lia.
    - rewrite <- (lower_mant_real t v s) by lia. fold mf pe. unfold U, E.
      replace (pe + ce + width t) with (pe + (ce + width t)) by lia. rewrite (bpow_plus _ pe (ce + width t)).
      transitivity (IZR M * (bpow radix2 pe * bpow radix2 (ce + width t) * pow10 (- mk)) - IZR mf * bpow radix2 pe * (pow10 mk * pow10 (- mk)))%R; [ring|].
      rewrite Hmk. ring. }
  apply Rabs_def2 in HP as [HP1 HP2]. apply Rabs_def2 in HM as [HM1 HM2].
  set (lo := (IZR (M + 1) * U)%R). set (hi := (IZR (P - 1) * U)%R).
  assert (Elo : lo = (IZR M * U + U)%R) by (unfold lo; rewrite plus_IZR; ring).
  assert (Ehi : hi = (IZR P * U - U)%R) by (unfold hi; rewrite minus_IZR; ring).
  assert (Hx : (lo <= IZR (dval ds) * pow10 K <= hi)%R).
  { assert (Hsh0 : 0 <= sh) by lia. pose proof (cut_range _ _ _ _ _ Hsh0 D5 U (pow10 (- mk)) HU HUs) as Q.
    unfold K. rewrite Z.add_comm, bpow_plus, <- Rmult_assoc.
    replace (P - 1 - (P - 1 - (M + 1))) with (M + 1) in Q by lia. exact Q. }
  exists ds, K, lo, hi. cbv zeta.
  split; [assumption|]. split; [assumption|]. split; [assumption|].
  split. { apply (cut_digits t (P - 1) (P - 1 - (M + 1)) sh ds j); try assumption; try lia. }
  split.
  { split.
    - (* lower bound of K *)
      destruct D5 as [(Hj & _)|(Hj & C1 & r & _ & _ & _ & C5)].
      + unfold K. destruct t; cbn [table_max kmin] in *; lia.
      + set (delta := P - 1 - (M + 1)) in *.
        assert (Hp : 0 < 2 ^ sh) by (apply Z.pow_pos_nonneg; lia).
        pose proof (Z.mod_pos_bound (10 ^ (- j - 1) * (P - 1)) (2 ^ sh) Hp) as [_ Mb].
        assert (Q : 10 ^ (- j - 1) * delta < 2 ^ sh) by lia.
        apply IZR_lt in Q. rewrite mult_IZR in Q.
        change (10 ^ (- j - 1)) with (radix10 ^ (- j - 1)) in Q. rewrite IZR_Zpower in Q by lia.
        assert (Q2 : (pow10 (- j - 1) * IZR delta * U < pow10 (- mk))%R).
        { rewrite <- HUs. rewrite (Rmult_comm U). apply Rmult_lt_compat_r; assumption. }
        assert (Ed : (IZR delta * U = hi - lo)%R).
        { unfold delta, hi, lo. rewrite minus_IZR. ring. }
        rewrite Rmult_assoc, Ed in Q2.
        assert (Q3 : (hi - lo < pow10 (K + 1))%R).
        { apply Rmult_lt_reg_l with (pow10 (- j - 1)); [apply bpow_gt_0|].
          rewrite <- bpow_plus. replace (- j - 1 + (K + 1)) with (- mk) by (unfold K; lia). exact Q2. }
        assert (Q4 : (bpow radix2 (min_exp t - 1) <= hi - lo)%R).
        { assert (Hu : (bpow radix2 (min_exp t) <= ulp_of t v)%R) by (apply bpow_le, exponent_ge).
          replace (min_exp t - 1) with (-1 + min_exp t) by lia. rewrite bpow_plus.
          change (bpow radix2 (-1)) with (/ 2)%R.
          assert (Hm : (margin t v <= / 16 * ulp_of t v)%R).
          { unfold margin. apply Rmult_le_compat_r; [apply bpow_ge_0|].
            change (/ 16)%R with (bpow radix2 (-4)). apply bpow_le. lia. }
          assert (Hd : (3 / 4 * ulp_of t v <= mplus t v - mminus t v)%R).
          { unfold mplus, mminus. assert (0 < ulp_of t v)%R by apply bpow_gt_0.
            destruct (significand t v =? 2 ^ (precision t - 1)); lra. }
          assert (0 < ulp_of t v)%R by apply bpow_gt_0.
          lra. }
        pose proof (pow2_vs_pow10_tiny t) as Q5.
        assert (kmin t < K + 1) by (apply pow10_lt_inv; lra). lia.
    - (* upper bound *)
      pose proof (mplus_lt t v Hfin). pose proof (pow2_vs_pow10_huge t).
      assert (1 <= IZR (dval ds))%R.
      { apply IZR_le. destruct ds as [|d ds]; [cbn in D2; congruence|].
        pose proof (dval_lower d ds D1 D2). pose proof (pow10_pos (zlen ds) (zlen_nonneg ds)). lia. }
      assert (1 * pow10 K <= IZR (dval ds) * pow10 K)%R by (apply Rmult_le_compat_r; [apply bpow_ge_0|lra]).
      assert (K < kmax t + 1) by (apply pow10_lt_inv; lra). lia. }
  split; [split; lra|]. split; [split; lra|]. split; [exact Hx|].
  split.
  { (* no multiple of the next power *)
    intros Hbig y [Y1 Y2].
    assert (Hdelta : P - 1 - (M + 1) < 2 ^ sh).
    { apply Z.lt_le_trans with (2 ^ (s + 1)); [lia|]. apply Z.pow_le_mono_r; [lia|].
      destruct (Z.le_gt_cases (s + 1) sh) as [|Gs]; [assumption|exfalso].
      assert (Hpp : 2 ^ (width t / 2) * 2 ^ (width t / 2) = 2 ^ width t) by (destruct t; reflexivity).
      assert (2 ^ (width t / 2) <= 2 ^ s) by (apply Z.pow_le_mono_r; lia).
      assert (0 < 2 ^ (width t / 2)) by (destruct t; reflexivity).
      assert (2 ^ (width t / 2) * 2 ^ (width t / 2) <= (2 * significand t v + 1) * 2 ^ s) by (apply Z.mul_le_mono_nonneg; lia).
      unfold pf in G2. lia. }
    destruct (cut_no_multiple (P - 1) (P - 1 - (M + 1)) sh ds j y) as [N1 N2]; try assumption; try lia.
    replace (P - 1 - (P - 1 - (M + 1))) with (M + 1) in * by lia.
    assert (HUi : (U = pow10 (- mk) * bpow radix2 E)%R) by (unfold U; ring).
    assert (HE2 : (bpow radix2 E * IZR (2 ^ sh) = 1)%R).
    { change (IZR (2 ^ sh)) with (IZR (radix2 ^ sh)). rewrite IZR_Zpower by lia. rewrite <- bpow_plus.
      replace (E + sh) with 0 by (unfold sh; lia). reflexivity. }
    unfold lo in Y1. unfold hi in Y2.
    replace (K + 1) with (- mk + (j + 1)) in Y1, Y2 by (unfold K; lia).
    rewrite bpow_plus in Y1, Y2.
    assert (Hpm : (0 < pow10 (- mk))%R) by apply bpow_gt_0.
    assert (HpE : (0 < bpow radix2 E)%R) by apply bpow_gt_0.
    assert (HS : (0 < IZR (2 ^ sh))%R) by (apply IZR_lt; apply Z.pow_pos_nonneg; lia).
    (* strip the common factor *)
    assert (Z1 : (IZR (M + 1) <= IZR y * pow10 (j + 1) * IZR (2 ^ sh))%R).
    { apply Rmult_le_reg_r with U; [assumption|].
      replace (IZR y * pow10 (j + 1) * IZR (2 ^ sh) * U)%R
        with (IZR y * pow10 (j + 1) * pow10 (- mk) * (bpow radix2 E * IZR (2 ^ sh)))%R by (rewrite HUi; ring).
      rewrite HE2. lra. }
    assert (Z2 : (IZR y * pow10 (j + 1) * IZR (2 ^ sh) <= IZR (P - 1))%R).
    { apply Rmult_le_reg_r with U; [assumption|].
      replace (IZR y * pow10 (j + 1) * IZR (2 ^ sh) * U)%R
        with (IZR y * pow10 (j + 1) * pow10 (- mk) * (bpow radix2 E * IZR (2 ^ sh)))%R by (rewrite HUi; ring).
      rewrite HE2. lra. }
    destruct (Z.le_gt_cases 0 j) as [Hj|Hj].
    - apply (N1 Hdelta Hj).
      rewrite (bpow_IZR radix10) in Z1, Z2 by lia. change (radix10 ^ (j + 1)) with (10 ^ (j + 1)) in *.
      rewrite <- !mult_IZR in Z1, Z2. apply le_IZR in Z1, Z2. split; assumption.
    - apply (N2 Hj).
      assert (HT : (pow10 (- j - 1) * pow10 (j + 1) = 1)%R).
      { rewrite <- bpow_plus. replace (- j - 1 + (j + 1)) with 0 by lia. reflexivity. }
      assert (HT0 : (0 < pow10 (- j - 1))%R) by apply bpow_gt_0.
      apply (Rmult_le_compat_l (pow10 (- j - 1))) in Z1, Z2; try lra.
      replace (pow10 (- j - 1) * (IZR y * pow10 (j + 1) * IZR (2 ^ sh)))%R
        with (IZR y * (pow10 (- j - 1) * pow10 (j + 1)) * IZR (2 ^ sh))%R in Z1, Z2 by ring.
      rewrite HT, Rmult_1_r in Z1, Z2.
      rewrite (bpow_IZR radix10) in Z1, Z2 by lia. change (radix10 ^ (- j - 1)) with (10 ^ (- j - 1)) in *.
      rewrite <- !mult_IZR in Z1, Z2. apply le_IZR in Z1, Z2. split; assumption. }
  intros pre rest Hl. rewrite G11.
  unfold diy_inc, diy_dec. cbn [m_f m_e]. rewrite fw_width.
  destruct (Z.ltb_spec M (2 ^ width t - 1)) as [_|?]; [|lia]. cbn [bind].
  destruct (Z.ltb_spec 1 P) as [_|?]; [|lia]. cbn [bind].
  rewrite D6 by lia. reflexivity.
Qed.
