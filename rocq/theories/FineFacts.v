(** A quantitative safety margin of float output: the printed number keeps a relative distance of
    2^-52 from the ends of the rounding interval.  Used for C89. *)
From Coq Require Import Reals Lra Lia ZArith List.
From Flocq Require Import Core.
From Verif Require Import Machine MachineFacts BitOps Format DiyFp KComp Chars Grisu Ftoa Spec Api Instances
  DiyFacts BoundFacts TableFacts DvalFacts DigitGenFacts GrisuFacts PrettifyFacts ShownFacts FtoaFacts RoundFacts CmpFacts WrittenFacts PrintProps PrintProps2 PrintProps3 CutFacts Cut.
Import ListNotations.
Open Scope Z_scope.

(** * The table of float powers *)

(** within 63/128 of a unit of [10^k] *)
Definition nearer_pow10 (f e k : Z) : bool :=
  let a := Z.max 0 (- e) in
  let b := Z.max 0 (- k) in
  128 * Z.abs (f * 2 ^ (e + a) * 10 ^ b - 10 ^ (k + b) * 2 ^ a) <=? 63 * (2 ^ (e + a) * 10 ^ b).

Lemma nearer_pow10_R : forall f e k, nearer_pow10 f e k = true ->
  (Rabs (IZR f * bpow radix2 e - pow10 k) <= 63 / 128 * bpow radix2 e)%R.
Proof.
  intros f e k H. unfold nearer_pow10 in H. apply Z.leb_le in H.
  set (a := Z.max 0 (- e)) in *. set (b := Z.max 0 (- k)) in *.
  assert (Ha : 0 <= e + a /\ 0 <= a) by (unfold a; lia).
  assert (Hb : 0 <= k + b /\ 0 <= b) by (unfold b; lia).
  apply IZR_le in H. rewrite !mult_IZR, abs_IZR, minus_IZR, !mult_IZR in H.
  change (2 ^ (e + a)) with (radix2 ^ (e + a)) in H. change (2 ^ a) with (radix2 ^ a) in H.
  change (10 ^ b) with (radix10 ^ b) in H. change (10 ^ (k + b)) with (radix10 ^ (k + b)) in H.
  rewrite !IZR_Zpower in H by lia.
  rewrite !bpow_plus in H.
  assert (Pa := bpow_gt_0 radix2 a). assert (Pb := bpow_gt_0 radix10 b).
  apply Rmult_le_reg_r with (bpow radix2 a * bpow radix10 b)%R; [now apply Rmult_lt_0_compat|].
  rewrite <- (Rabs_pos_eq (bpow radix2 a * bpow radix10 b)) at 1 by (apply Rlt_le; now apply Rmult_lt_0_compat).
  rewrite <- Rabs_mult.
  replace ((IZR f * bpow radix2 e - pow10 k) * (bpow radix2 a * pow10 b))%R
    with (IZR f * (bpow radix2 e * bpow radix2 a) * pow10 b - pow10 k * pow10 b * bpow radix2 a)%R by ring.
  lra.
Qed.

(** all but the 14th *)
Definition fine_ok (k : Z) : bool :=
  match cached_power single k with
  | Ok d => nearer_pow10 (m_f d) (m_e d) k || (k =? 14) && (m_f d =? 3051757812) && (m_e d =? 15)
  | Fault _ => false
  end.
Lemma fine_ok_all : forallb fine_ok (zrange (-50) 50) = true.
Proof. vm_compute. reflexivity. Qed.

(** * One product *)

Lemma mulr_fine : forall w x cf ce k, 8 <= w -> 0 <= x < 2 ^ w ->
  (Rabs (IZR cf * bpow radix2 ce - pow10 k) <= 63 / 128 * bpow radix2 ce)%R ->
  (Rabs (IZR (mulr w x cf) * bpow radix2 (ce + w) - IZR x * pow10 k) <= (1 - / 128) * bpow radix2 (ce + w))%R.
Proof.
  intros w x cf ce k Hw Hx Hc.
  pose proof (mulr_bounds w x cf ltac:(lia)) as [B1 B2].
  apply IZR_lt in B1. apply IZR_le in B2.
  rewrite minus_IZR, !mult_IZR in B1. rewrite plus_IZR, !mult_IZR in B2.
  assert (Ew : bpow radix2 w = IZR (2 ^ w)) by (symmetry; apply (IZR_Zpower radix2); lia).
  assert (Ew1 : IZR (2 ^ (w - 1)) = (/ 2 * IZR (2 ^ w))%R).
  { replace (2 ^ w) with (2 * 2 ^ (w - 1)). rewrite mult_IZR; lra.
    replace w with (1 + (w - 1)) at 2 by lia. rewrite Z.pow_add_r by lia. reflexivity. }
  rewrite bpow_plus, Ew. rewrite Ew1 in *.
  destruct Hx as [Hx1 Hx2]. apply IZR_le in Hx1. apply IZR_lt in Hx2.
  set (W := IZR (2 ^ w)) in *. set (X := IZR x) in *. set (C := IZR cf) in *.
  set (Q := IZR (mulr w x cf)) in *. set (b := bpow radix2 ce) in *.
  assert (Hb : (0 < b)%R) by apply bpow_gt_0.
  apply Rabs_le_inv in Hc. apply Rabs_le. split.
  - assert ((X * C - / 2 * W) * b < Q * W * b)%R by (apply Rmult_lt_compat_r; lra).
    assert (X * (- (63 / 128 * b)) <= X * (C * b - pow10 k))%R by (apply Rmult_le_compat_l; lra).
    assert (X * (63 / 128 * b) < W * (63 / 128 * b))%R by (apply Rmult_lt_compat_r; lra). lra.
  - assert (Q * W * b <= (X * C + / 2 * W) * b)%R by (apply Rmult_le_compat_r; lra).
    assert (X * (C * b - pow10 k) <= X * (63 / 128 * b))%R by (apply Rmult_le_compat_l; lra).
    assert (X * (63 / 128 * b) < W * (63 / 128 * b))%R by (apply Rmult_lt_compat_r; lra). lra.
Qed.

(** the 14th power is half a unit off; that matters only for factors next to 2^32 *)
Definition odd_one_ok (j : Z) : bool :=
  let x := 2 ^ 32 - 128 * j in
  2 ^ 20 * Z.abs (2 * mulr 32 x 3051757812 * 2 ^ 32 - x * 6103515625) <=? (2 ^ 20 - 1) * (2 * 2 ^ 32).
Lemma odd_one_ok_all : forallb odd_one_ok (zrange 1 64) = true.
Proof. vm_compute. reflexivity. Qed.

Lemma mulr_odd_one : forall x, 0 <= x < 2 ^ 32 -> (x mod 128 = 0 \/ x <= 2 ^ 32 - 2 ^ 13) ->
  2 ^ 20 * Z.abs (2 * mulr 32 x 3051757812 * 2 ^ 32 - x * 6103515625) <= (2 ^ 20 - 1) * (2 * 2 ^ 32).
Proof.
  intros x Hx Hm. destruct (Z.le_gt_cases x (2 ^ 32 - 2 ^ 13)) as [L|L].
  - pose proof (mulr_bounds 32 x 3051757812 ltac:(lia)) as [B1 B2]. change (2 ^ (32 - 1)) with 2147483648 in *.
    change (2 ^ 32) with 4294967296 in *. change (2 ^ 13) with 8192 in *. change (2 ^ 20) with 1048576 in *. lia.
  - destruct Hm as [Hm|Hm]; [|lia]. pose proof (Z.div_mod x 128 ltac:(lia)) as D. rewrite Hm in D. change (2 ^ 32) with 4294967296 in *. change (2 ^ 13) with 8192 in *.
    assert (J : 1 <= 33554432 - x / 128 <= 64) by lia.
    pose proof (zrange_forall _ _ _ odd_one_ok_all _ J) as C. unfold odd_one_ok in C. apply Z.leb_le in C.
    replace (2 ^ 32 - 128 * (33554432 - x / 128)) with x in C by (change (2 ^ 32) with 4294967296; lia). exact C.
Qed.

Lemma mulr_float : forall x k cf ce, -50 <= k <= 50 -> cached_power single k = Ok (mk_diy cf ce) -> 0 <= x < 2 ^ 32 -> (x mod 128 = 0 \/ x <= 2 ^ 32 - 2 ^ 13) ->
  (Rabs (IZR (mulr 32 x cf) * bpow radix2 (ce + 32) - IZR x * pow10 k) <= (1 - bpow radix2 (-20)) * bpow radix2 (ce + 32))%R.
Proof.
  intros x k cf ce Hk Hc Hx Hm. pose proof (zrange_forall _ _ _ fine_ok_all k Hk) as F. unfold fine_ok in F. rewrite Hc in F. cbn [m_f m_e] in F.
  pose proof (bpow_gt_0 radix2 (ce + 32)) as B.
  apply orb_prop in F as [F|F].
  - apply nearer_pow10_R in F. eapply Rle_trans; [apply (mulr_fine 32 x cf ce k); [lia|exact Hx|exact F]|].
    apply Rmult_le_compat_r; [lra|]. assert (bpow radix2 (-20) <= bpow radix2 (-7))%R by (apply bpow_le; lia).
    change (bpow radix2 (-7)) with (/ 128)%R in H. lra.
  - apply andb_prop in F as [F F3]. apply andb_prop in F as [F1 F2]. apply Z.eqb_eq in F1, F2, F3. subst k cf ce.
    pose proof (mulr_odd_one x Hx Hm) as O. apply IZR_le in O. rewrite !mult_IZR, abs_IZR, minus_IZR, minus_IZR, !mult_IZR in O.
    change (bpow radix2 (-20)) with (/ 1048576)%R. change (bpow radix2 (15 + 32)) with (IZR (2 ^ 47)).
    change (pow10 14) with (IZR 100000000000000).
    set (Q := IZR (mulr 32 x 3051757812)) in *. set (X := IZR x) in *.
    change (IZR (2 ^ 32)) with 4294967296%R in O. change (IZR (2 ^ 20)) with 1048576%R in O. change (IZR (2 ^ 47)) with 140737488355328%R.
    set (z := (2 * Q * 4294967296 - X * 6103515625)%R) in *.
    replace (Q * 140737488355328 - X * 100000000000000)%R with (z * 16384)%R by (unfold z; ring).
    rewrite Rabs_mult, (Rabs_pos_eq 16384) by lra. lra.
Qed.

(** * The scaled interval, with the table entry *)
Lemma grisu_scaled_c : forall t v, finite t v -> 0 < significand t v ->
  exists s mk cf ce,
    let pf := (2 * significand t v + 1) * 2 ^ s in
    let mf := lower_mant t (significand t v) s in
    let pe := exponent t v - 1 - s in
    let E := pe + ce + width t in
    let P := mulr (width t) pf cf in
    let M := mulr (width t) mf cf in
    width t - precision t - 1 <= s < width t /\
    2 ^ (width t - 1) <= pf < 2 ^ width t /\ 0 < mf < pf /\
    2 ^ (width t - 1) <= cf < 2 ^ width t /\
    - table_max t <= mk <= table_max t - 1 /\
    grisu_alpha (fmt_of t) <= E <= grisu_gamma (fmt_of t) /\
    (Rabs (IZR cf * bpow radix2 ce - pow10 mk) <= / 2 * bpow radix2 ce)%R /\
    cached_power (fmt_of t) mk = Ok (mk_diy cf ce) /\
    0 < P < 2 ^ width t /\ 0 <= M /\
    forall buf base, grisu2 (fmt_of t) v buf base =
      (w_m' <- diy_inc (fmt_of t) (mk_diy M E) ;;
       w_p' <- diy_dec (fmt_of t) (mk_diy P E) ;;
       digit_gen (fmt_of t) w_p' w_m' buf base (- mk)).
Proof.
  intros t v Hfin Hf.
  destruct (boundaries_ok t v Hf) as (s & S1 & S2 & S3).
  pose proof (finite_exponent t v Hfin) as He1. pose proof (exponent_ge t v) as He2.
  pose proof (significand_range t v) as Hr.
  set (f := significand t v) in *. set (e := exponent t v) in *.
  assert (Hww : 24 <= precision t /\ precision t + 8 <= width t <= 64 /\ -1074 <= min_exp t < 0 /\ max_exp t <= 1024)
    by (destruct t; cbn; lia).
  assert (Hs2 : s <= width t - 2).
  { destruct (Z.le_gt_cases s (width t - 2)) as [|G]; [assumption|].
    assert (2 ^ (width t - 1) <= 2 ^ s) by (apply Z.pow_le_mono_r; lia).
    assert (2 ^ width t = 2 * 2 ^ (width t - 1)).
    { replace (width t) with (1 + (width t - 1)) at 1 by lia. rewrite Z.pow_add_r by lia. reflexivity. }
    assert (3 * 2 ^ (width t - 1) <= (2 * f + 1) * 2 ^ s) by (apply Z.mul_le_mono_nonneg; lia). lia. }
  destruct (scaling_ok_spec t (e - 1 - s)) as (mk & cf & ce & C1 & C2 & C3 & C4).
  { unfold pe_min, pe_max. lia. }
  destruct (cached_power_ok t mk) as (cf' & ce' & D1 & D2 & D3 & D4 & D5); [lia|].
  rewrite C3 in D1. injection D1 as <- <-.
  exists s, mk, cf, ce. cbv zeta.
  set (pf := (2 * f + 1) * 2 ^ s) in *.
  assert (Hmf : 0 < lower_mant t f s < pf).
  { unfold lower_mant, pf. assert (H2s : 2 ^ s = 2 * 2 ^ (s - 1)).
    { replace s with (1 + (s - 1)) at 1 by lia. rewrite Z.pow_add_r by lia. reflexivity. }
    assert (0 < 2 ^ (s - 1)) by (apply Z.pow_pos_nonneg; lia).
    set (X := 2 ^ (s - 1)) in *. rewrite H2s. clear - Hf H.
    destruct (f =? 2 ^ (precision t - 1)); split; nia. }
  destruct (diy_mul_f t (mk_diy pf (e - 1 - s)) (mk_diy cf ce)) as (P1 & P2); cbn [m_f] in *; [lia|lia|].
  destruct (diy_mul_f t (mk_diy (lower_mant t f s) (e - 1 - s)) (mk_diy cf ce)) as (M1 & M2); cbn [m_f] in *; [lia|lia|].
  split; [lia|]. split; [assumption|]. split; [assumption|]. split; [assumption|].
  split; [lia|]. split; [assumption|]. split; [assumption|]. split; [assumption|].
  split.
  { split; [|lia]. pose proof (mulr_bounds (width t) pf cf ltac:(lia)) as [B1 _].
    assert (2 ^ (width t - 1) * 2 ^ (width t - 1) <= pf * cf) by (apply Z.mul_le_mono_nonneg; lia).
    assert (2 <= 2 ^ (width t - 1)) by (change 2 with (2 ^ 1) at 1; apply Z.pow_le_mono_r; lia).
    assert (0 < 2 ^ width t) by lia. clear - B1 H H0 H1.
    set (X := 2 ^ (width t - 1)) in *. nia. }
  split; [lia|].
  intros buf base. unfold grisu2. rewrite S3. cbn [bind m_e]. rewrite C1. cbn [bind]. rewrite C3. cbn [bind].
  assert (EE : forall f', diy_mul (fmt_of t) (mk_diy f' (e - 1 - s)) (mk_diy cf ce)
           = mk_diy (m_f (diy_mul (fmt_of t) (mk_diy f' (e - 1 - s)) (mk_diy cf ce))) (e - 1 - s + ce + width t)).
  { intros f'. pose proof (diy_mul_e t (mk_diy f' (e - 1 - s)) (mk_diy cf ce)) as X. cbn [m_e] in X.
    rewrite <- X by lia. destruct (diy_mul _ _ _); reflexivity. }
  rewrite (EE pf), P1. rewrite (EE (lower_mant t f s)), M1. reflexivity.
Qed.

Lemma grisu2_fine : forall v, finite Float v -> 0 < significand Float v ->
  exists ds K, zlen ds <= 40 /\
    (mminus Float v * (1 + bpow radix2 (-52)) <= IZR (dval ds) * pow10 K <= mplus Float v * (1 - bpow radix2 (-52)))%R /\
    forall pre rest, (length ds <= length rest)%nat ->
      grisu2 (fmt_of Float) v (pre ++ rest) (zlen pre)
      = Ok (pre ++ dchars ds ++ skipn (length ds) rest, zlen ds, K).
Proof.
  intros v Hfin Hf.
  destruct (grisu_scaled_c Float v Hfin Hf) as (s & mk & cf & ce & G).
  cbv zeta in G.
  pose proof (significand_range Float v) as Hr.
  pose proof (interval_ints Float (significand Float v) s cf) as I. cbv zeta in I.
  set (pf := (2 * significand Float v + 1) * 2 ^ s) in *.
  set (mf := lower_mant Float (significand Float v) s) in *.
  set (pe := exponent Float v - 1 - s) in *.
  set (E := pe + ce + width Float) in *.
  set (P := mulr (width Float) pf cf) in *. set (M := mulr (width Float) mf cf) in *.
  destruct G as (G1 & G2 & G3 & G4 & G5 & G6 & G7 & G8 & G9 & G10 & G11).
  destruct I as (I1 & I2 & I3); try assumption; try lia.
  set (sh := - E).
  assert (Hsh : 16 <= sh /\ sh <= 32 - 4 /\ 16 <= sh <= 19).
  { unfold sh. clear - G6. unfold grisu_alpha, grisu_gamma in G6. rewrite fw_width in G6. cbn [width] in *. change (32 / 2) with 16 in *. lia. }
  assert (Hshp : 2 ^ sh <= 2 ^ (32 - 4)) by (apply Z.pow_le_mono_r; lia).
  change (2 ^ (32 - 4)) with 268435456 in Hshp. change (2 ^ (width Float - 2)) with 1073741824 in I2.
  destruct (digit_gen_ok Float (P - 1) (M + 1) E) as (ds & j & D1 & D2 & D3 & D4 & D5 & D6); try assumption; fold sh; try lia.
  fold sh in D5.
  assert (DG : zlen ds <= max_sig Float).
  { apply (cut_digits Float (P - 1) (P - 1 - (M + 1)) sh ds j); try assumption; try lia. - cbn [width] in *. lia. - cbn [width] in *. lia. }
  exists ds, (- mk + j). split; [cbn [max_sig] in DG; lia|].
  set (U := (bpow radix2 E * pow10 (- mk))%R).
  assert (HU : (0 < U)%R) by (apply Rmult_lt_0_compat; apply bpow_gt_0).
  assert (HUs : (U * IZR (2 ^ sh) = pow10 (- mk))%R).
  { unfold U. change (IZR (2 ^ sh)) with (IZR (radix2 ^ sh)). rewrite IZR_Zpower by lia.
    replace (bpow radix2 E * pow10 (- mk) * bpow radix2 sh)%R with (bpow radix2 E * bpow radix2 sh * pow10 (- mk))%R by ring.
    rewrite <- bpow_plus. replace (E + sh) with 0 by (unfold sh; lia). change (bpow radix2 0) with 1%R. ring. }
  assert (Hmk : (pow10 mk * pow10 (- mk) = 1)%R).
  { rewrite <- bpow_plus. replace (mk + - mk) with 0 by lia. reflexivity. }
  assert (S7 : forall y, (y * 2 ^ s) mod 128 = 0).
  { intros y. replace s with (s - 7 + 7) by lia. rewrite Z.pow_add_r by (cbn [width precision] in G1; lia). change (2 ^ 7) with 128. rewrite Z.mul_assoc. apply Z.mod_mul. lia. }
  (* a unit is at least 2^pe *)
  assert (HUge : (bpow radix2 pe <= U)%R).
  { unfold U. apply Rmult_le_reg_r with (pow10 mk); [apply bpow_gt_0|].
    rewrite Rmult_assoc, (Rmult_comm (pow10 (- mk))), Hmk, Rmult_1_r.
    unfold E. replace (pe + ce + width Float) with (pe + (ce + width Float)) by lia. rewrite bpow_plus.
    apply Rmult_le_compat_l; [apply bpow_ge_0|]. apply Rabs_le_inv in G7. destruct G7 as [G7 _].
    assert (C : (IZR cf <= IZR (2 ^ 32 - 1))%R) by (apply IZR_le; cbn [width] in G4; lia).
    rewrite (Z.add_comm ce), bpow_plus. change (bpow radix2 (width Float)) with (IZR (2 ^ 32)). rewrite minus_IZR in C.
    pose proof (bpow_gt_0 radix2 ce). nra. }
  assert (HP : (Rabs (IZR P * U - mplus Float v) <= (1 - bpow radix2 (-20)) * U)%R).
  { assert (Q : (Rabs (IZR P * bpow radix2 (ce + 32) - IZR pf * pow10 mk) <= (1 - bpow radix2 (-20)) * bpow radix2 (ce + 32))%R).
    { apply mulr_float; [cbn [table_max] in G5; lia|exact G8|cbn [width] in G2; lia|]. left. apply S7. }
    replace (IZR P * U - mplus Float v)%R with
      ((IZR P * bpow radix2 (ce + 32) - IZR pf * pow10 mk) * (bpow radix2 pe * pow10 (- mk)))%R.
    - rewrite Rabs_mult, (Rabs_pos_eq (bpow radix2 pe * pow10 (- mk))).
      2:{ apply Rmult_le_pos; apply bpow_ge_0. }
      replace U with (bpow radix2 (ce + 32) * (bpow radix2 pe * pow10 (- mk)))%R.
      + rewrite <- (Rmult_assoc (1 - _)). apply Rmult_le_compat_r; [|assumption]. apply Rlt_le, Rmult_lt_0_compat; apply bpow_gt_0.
      + unfold U, E. rewrite <- Rmult_assoc, <- bpow_plus. do 2 f_equal. cbn [width]. lia.
    - rewrite <- (upper_mant_real Float v s) by (cbn [width precision] in G1; lia). fold pf pe. unfold U, E.
      replace (pe + ce + width Float) with (pe + (ce + 32)) by (cbn [width]; lia). rewrite (bpow_plus _ pe (ce + 32)).
      transitivity (IZR P * (bpow radix2 pe * bpow radix2 (ce + 32) * pow10 (- mk)) - IZR pf * bpow radix2 pe * (pow10 mk * pow10 (- mk)))%R; [ring|].
      rewrite Hmk. ring. }
  assert (HM : (Rabs (IZR M * U - mminus Float v) <= (1 - bpow radix2 (-20)) * U)%R).
  { assert (Q : (Rabs (IZR M * bpow radix2 (ce + 32) - IZR mf * pow10 mk) <= (1 - bpow radix2 (-20)) * bpow radix2 (ce + 32))%R).
    { apply mulr_float; [cbn [table_max] in G5; lia|exact G8|cbn [width] in G2; lia|]. unfold mf, lower_mant.
      destruct (significand Float v =? 2 ^ (precision Float - 1)) eqn:PP; [right|left; apply S7]. apply Z.eqb_eq in PP.
      cbn [width precision] in *. unfold pf in G2. rewrite PP in *. change (2 ^ (24 - 1)) with 8388608 in *. change (2 ^ 32) with 4294967296 in *. change (2 ^ 13) with 8192.
      assert (2 ^ s = 2 * 2 ^ (s - 1)) by (replace s with (1 + (s - 1)) at 1 by lia; rewrite Z.pow_add_r by lia; reflexivity).
      clear - G2 H. set (y := 2 ^ (s - 1)) in *. clearbody y. lia. }
    replace (IZR M * U - mminus Float v)%R with
      ((IZR M * bpow radix2 (ce + 32) - IZR mf * pow10 mk) * (bpow radix2 pe * pow10 (- mk)))%R.
    - rewrite Rabs_mult, (Rabs_pos_eq (bpow radix2 pe * pow10 (- mk))).
      2:{ apply Rmult_le_pos; apply bpow_ge_0. }
      replace U with (bpow radix2 (ce + 32) * (bpow radix2 pe * pow10 (- mk)))%R.
      + rewrite <- (Rmult_assoc (1 - _)). apply Rmult_le_compat_r; [|assumption]. apply Rlt_le, Rmult_lt_0_compat; apply bpow_gt_0.
      + unfold U, E. rewrite <- Rmult_assoc, <- bpow_plus. do 2 f_equal. cbn [width]. lia.
    - rewrite <- (lower_mant_real Float v s) by (cbn [width precision] in G1; lia). fold mf pe. unfold U, E.
      replace (pe + ce + width Float) with (pe + (ce + 32)) by (cbn [width]; lia). rewrite (bpow_plus _ pe (ce + 32)).
      transitivity (IZR M * (bpow radix2 pe * bpow radix2 (ce + 32) * pow10 (- mk)) - IZR mf * bpow radix2 pe * (pow10 mk * pow10 (- mk)))%R; [ring|].
      rewrite Hmk. ring. }
  split.
  { apply Rabs_le_inv in HP as [HP1 HP2]. apply Rabs_le_inv in HM as [HM1 HM2].
    assert (Hx : (IZR M * U + U <= IZR (dval ds) * pow10 (- mk + j) <= IZR P * U - U)%R).
    { assert (Hsh0 : 0 <= sh) by lia. pose proof (cut_range _ _ _ _ _ Hsh0 D5 U (pow10 (- mk)) HU HUs) as Q.
      rewrite Z.add_comm, bpow_plus, <- Rmult_assoc.
      replace (P - 1 - (P - 1 - (M + 1))) with (M + 1) in Q by lia. rewrite plus_IZR, minus_IZR in Q. lra. }
    assert (L : (mplus Float v <= bpow radix2 32 * U)%R).
    { rewrite <- (upper_mant_real Float v s) by (cbn [width precision] in G1; lia). fold pf pe.
      apply Rmult_le_compat; [apply IZR_le; lia|apply bpow_ge_0| |exact HUge]. rewrite bpow_IZR by lia. apply IZR_le. change (radix2 ^ 32) with (2 ^ width Float). lia. }
    assert (L2 : (mminus Float v <= bpow radix2 32 * U)%R).
    { rewrite <- (lower_mant_real Float v s) by (cbn [width precision] in G1; lia). fold mf pe.
      apply Rmult_le_compat; [apply IZR_le; lia|apply bpow_ge_0| |exact HUge]. rewrite bpow_IZR by lia. apply IZR_le. change (radix2 ^ 32) with (2 ^ width Float). lia. }
    assert (B : (bpow radix2 (-52) * bpow radix2 32 = bpow radix2 (-20))%R) by (rewrite <- bpow_plus; reflexivity).
    pose proof (bpow_gt_0 radix2 (-52)) as B5. set (b5 := bpow radix2 (-52)) in *. set (b3 := bpow radix2 32) in *. set (b2 := bpow radix2 (-20)) in *.
    assert (mplus Float v * b5 <= b2 * U)%R by (rewrite <- B; nra).
    assert (mminus Float v * b5 <= b2 * U)%R by (rewrite <- B; nra).
    lra. }
  intros pre rest Hl. rewrite G11.
  unfold diy_inc, diy_dec. cbn [m_f m_e]. rewrite fw_width.
  destruct (Z.ltb_spec M (2 ^ width Float - 1)) as [_|?]; [|lia]. cbn [bind].
  destruct (Z.ltb_spec 1 P) as [_|?]; [|lia]. cbn [bind].
  rewrite D6 by (cbn [table_max] in G5; lia). reflexivity.
Qed.
