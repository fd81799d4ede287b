(** C110: a float has at most as many digits as the same number has as a double. *)
From Coq Require Import Reals Lra Lia ZArith List String Ascii.
From Flocq Require Import Core.
From Verif Require Import Machine MachineFacts BitOps StaticPow Fraction Format DiyFp KComp Chars Grisu Ftoa Krosh Atof Spec ParseSpec Api ParseApi Instances
  DiyFacts BoundFacts TableFacts GrisuFacts ShownFacts FtoaFacts RoundFacts WrittenFacts PrintProps PrintProps2 PrintProps3 DownFacts DvalFacts CmpFacts ArithProps ScanFacts LoopFacts ParseFacts GapFacts KroshNum ShortFacts FracFacts LongFacts ParseProps Refuted RoundTrip FineFacts CrossType.
Import ListNotations.
Open Scope Z_scope.

(** * Small multiples of 2^-149 are far from decimal numbers of eight digits *)

(** [(K, (a, b, (c, e)))]: neighbouring fractions a/b < c/e with 10^K / 2^149 so far between them that all fractions as near to it have
    a numerator of more than eight digits or a denominator of more than sixteen bits *)
Definition certificates : list (Z * (Z * Z * (Z * Z))) := [
  (40, (96572, 6891608209, (274265, 19572204422)));
  (41, (30902, 220524041, (436507, 3115018043)));
  (42, (996622, 711213225, (1340423, 956557817)));
  (43, (1993244, 142242645, (9691981, 691642876)));
  (44, (3986488, 28448529, (48459905, 345821438)));
  (45, (80351809, 57340967, (40486929, 28892438)));
  (46, (39242831, 2800462, (202434645, 14446219)));
  (47, (1084438397, 7738811, (444112121, 3169290)));
  (48, (13953168817, 9957314, (444112121, 316929)));
  (49, (11288496091, 805574, (4441121210, 316929)));
  (50, (13694749762, 97729, (15358231169, 109600)));
  (51, (198380422296, 141569, (15358231169, 10960)));
  (52, (2106670072312, 150337, (15358231169, 1096)));
  (53, (4228698375793, 30177, (76791155845, 548)));
  (54, (8227023284051, 5871, (383955779225, 274)));
  (55, (15302179230427, 1092, (1919778896125, 137)));
  (56, (3783505853677, 27, (19197788961250, 137)))].
Definition certified (x : Z * (Z * Z * (Z * Z))) : bool :=
  let '(K, (a, b, (c, e))) := x in
  (0 <=? a) && (0 <? b) && (0 <? c) && (0 <=? e) &&
  (a * 2 ^ 202 <? b * 10 ^ K * (2 ^ 53 - 1)) && (e * 10 ^ K * (2 ^ 53 + 1) <? c * 2 ^ 202) && (c * b - a * e =? 1) && ((2 ^ 16 <=? b + e) || (10 ^ 8 <=? a + c)).
Lemma all_certified : forallb certified certificates = true.
Proof. vm_compute. reflexivity. Qed.
Lemma certificate_for : forall K, 40 <= K <= 56 -> exists y, In (K, y) certificates.
Proof.
  assert (H : forallb (fun K => existsb (fun x => fst x =? K) certificates) (zrange 40 56) = true) by (vm_compute; reflexivity).
  intros K HK. pose proof (zrange_forall _ _ _ H K HK) as E. apply existsb_exists in E as ([K' y] & I & E). apply Z.eqb_eq in E. cbn [fst] in E. subst. eauto.
Qed.

Lemma no_short_integer : forall K m d, 40 <= K <= 56 -> 0 < m < 2 ^ 16 -> 0 < d < 10 ^ 8 ->
  m * 10 ^ K * (2 ^ 53 - 1) <= d * 2 ^ 202 <= m * 10 ^ K * (2 ^ 53 + 1) -> False.
Proof.
  intros K m d HK Hm Hd [L U]. destruct (certificate_for K HK) as ([[a b] [c e]] & I).
  pose proof (proj1 (forallb_forall _ _) all_certified _ I) as C. unfold certified in C.
  repeat (apply andb_prop in C as [C ?]). apply Z.leb_le in C.
  apply orb_prop in H. assert (H' : 2 ^ 16 <= b + e \/ 10 ^ 8 <= a + c) by (destruct H as [H|H]; apply Z.leb_le in H; auto). clear H.
  apply Z.eqb_eq in H0. apply Z.ltb_lt in H1, H2, H4, H5. apply Z.leb_le in H3.
  set (Q := 2 ^ 202) in *. set (T := 10 ^ K) in *. assert (Q0 : 0 < Q) by (unfold Q; lia).
  assert (A : a * m < d * b).
  { apply Z.mul_lt_mono_pos_r with Q; [exact Q0|]. assert (m * (a * Q) < m * (b * T * (2 ^ 53 - 1))) by (apply Z.mul_lt_mono_pos_l; lia).
    assert (b * (m * T * (2 ^ 53 - 1)) <= b * (d * Q)) by (apply Z.mul_le_mono_nonneg_l; lia). lia. }
  assert (B : d * e < c * m).
  { apply Z.mul_lt_mono_pos_r with Q; [exact Q0|]. assert (m * (e * T * (2 ^ 53 + 1)) < m * (c * Q)) by (apply Z.mul_lt_mono_pos_l; lia).
    assert (e * (d * Q) <= e * (m * T * (2 ^ 53 + 1))) by (apply Z.mul_le_mono_nonneg_l; lia). lia. }
  assert (Em : m = b * (c * m - d * e) + e * (d * b - a * m)) by (transitivity (m * (c * b - a * e)); [rewrite H0; ring|ring]).
  assert (Ed : d = a * (c * m - d * e) + c * (d * b - a * m)) by (transitivity (d * (c * b - a * e)); [rewrite H0; ring|ring]).
  destruct H' as [H'|H'].
  - assert (b * 1 <= b * (c * m - d * e)) by (apply Z.mul_le_mono_nonneg_l; lia). assert (e * 1 <= e * (d * b - a * m)) by (apply Z.mul_le_mono_nonneg_l; lia). lia.
  - assert (a * 1 <= a * (c * m - d * e)) by (apply Z.mul_le_mono_nonneg_l; lia). assert (c * 1 <= c * (d * b - a * m)) by (apply Z.mul_le_mono_nonneg_l; lia). lia.
Qed.

Lemma no_short_denormal : forall m d k, 0 < m < 2 ^ 16 -> 0 < d < 10 ^ 8 ->
  (Rabs (IZR d * pow10 k - IZR m * bpow radix2 (-149)) <= bpow radix2 (-53) * (IZR m * bpow radix2 (-149)))%R -> False.
Proof.
  intros m d k Hm Hd H. apply Rabs_le_inv in H.
  assert (B53 : (bpow radix2 (-53) * 9007199254740992 = 1)%R) by (change 9007199254740992%R with (bpow radix2 53); rewrite <- bpow_plus; reflexivity).
  pose proof (bpow_gt_0 radix2 (-53)) as P53. pose proof (bpow_gt_0 radix2 (-149)) as P149. pose proof (bpow_gt_0 radix10 k) as PK.
  assert (M1 : (1 <= IZR m)%R) by (apply IZR_le; lia). assert (M2 : (IZR m <= 65535)%R) by (apply IZR_le; lia).
  assert (D1 : (1 <= IZR d)%R) by (apply IZR_le; lia). assert (D2 : (IZR d <= 100000000)%R) by (apply IZR_le; lia).
  set (b := bpow radix2 (-53)) in *. set (u := bpow radix2 (-149)) in *.
  assert (B1 : (b <= / 2)%R) by lra.
  assert (MU : (0 < IZR m * u)%R) by (apply Rmult_lt_0_compat; lra).
  assert (X1 : (/ 2 * u <= IZR d * pow10 k)%R) by nra.
  assert (X2 : (IZR d * pow10 k <= 2 * (65535 * u))%R) by nra.
  assert (K1 : -56 <= k).
  { apply Z.le_ngt. intros C. assert (pow10 k <= pow10 (-57))%R by (apply bpow_le; lia).
    assert (H150 : (u = 2 * bpow radix2 (-150))%R) by (unfold u; change 2%R with (bpow radix2 1); rewrite <- bpow_plus; reflexivity).
    change (IZR (10 ^ 8)) with 100000000%R.
    assert (X3 : (IZR d * pow10 k <= 100000000 * pow10 (-57))%R) by (apply Rmult_le_compat; lra).
    assert (Y : (1 * bpow radix2 (-150) <= IZR (10 ^ 8) * pow10 (-57))%R) by (change (IZR (10 ^ 8)) with 100000000%R; lra).
    assert (Y' : (IZR (10 ^ 8) * pow10 (-57) < 1 * bpow radix2 (-150))%R) by (apply dec_lt_bin; vm_compute; reflexivity). lra. }
  assert (K2 : k <= -40).
  { apply Z.le_ngt. intros C. assert (pow10 (-39) <= pow10 k)%R by (apply bpow_le; lia).
    assert (Y' : (IZR (2 * 65535) * bpow radix2 (-149) < 1 * pow10 (-39))%R) by (apply bin_lt_dec; vm_compute; reflexivity). fold u in Y'. change (IZR (2 * 65535)) with 131070%R in Y'. assert (1 * pow10 k <= IZR d * pow10 k)%R by (apply Rmult_le_compat_r; lra). lra. }
  apply (no_short_integer (- k) m d); [lia|exact Hm|exact Hd|].
  assert (ET : (IZR (10 ^ (- k)) * pow10 k = 1)%R).
  { change (10 ^ (- k)) with (radix10 ^ (- k)). rewrite IZR_Zpower by lia. rewrite <- bpow_plus. replace (- k + k) with 0 by lia. reflexivity. }
  assert (EU : (IZR (2 ^ 149) * u = 1)%R).
  { change (IZR (2 ^ 149)) with (bpow radix2 149). unfold u. rewrite <- bpow_plus. reflexivity. }
  assert (E202 : IZR (2 ^ 202) = (IZR (2 ^ 149) * 9007199254740992)%R) by (rewrite <- mult_IZR; reflexivity).
  assert (T0 : (0 < IZR (10 ^ (- k)))%R) by (apply IZR_lt; apply Z.pow_pos_nonneg; lia).
  assert (Q0 : (0 < IZR (2 ^ 149))%R) by (apply IZR_lt; reflexivity).
  set (T := 10 ^ (- k)) in *. set (Q := 2 ^ 149) in *. clearbody T Q.
  assert (V1 : (IZR d * pow10 k * (IZR T * (IZR Q * 9007199254740992)) = IZR d * (IZR Q * 9007199254740992))%R).
  { transitivity (IZR d * (IZR T * pow10 k) * (IZR Q * 9007199254740992))%R; [ring|]. rewrite ET. ring. }
  assert (V2 : (IZR m * u * (IZR T * (IZR Q * 9007199254740992)) = IZR m * IZR T * 9007199254740992)%R).
  { transitivity (IZR m * IZR T * 9007199254740992 * (IZR Q * u))%R; [ring|]. rewrite EU. ring. }
  assert (V3 : (b * (IZR m * u) * (IZR T * (IZR Q * 9007199254740992)) = IZR m * IZR T)%R).
  { transitivity (IZR m * IZR T * (b * 9007199254740992) * (IZR Q * u))%R; [ring|]. rewrite EU, B53. ring. }
  assert (Z0 : (0 <= IZR T * (IZR Q * 9007199254740992))%R) by (apply Rmult_le_pos; [lra|apply Rmult_le_pos; lra]).
  split; apply le_IZR; rewrite !mult_IZR, E202.
  - change (IZR (2 ^ 53 - 1)) with 9007199254740991%R.
    assert (IZR m * u - b * (IZR m * u) <= IZR d * pow10 k)%R by lra.
    apply Rmult_le_compat_r with (r := (IZR T * (IZR Q * 9007199254740992))%R) in H0; [|exact Z0].
    rewrite Rmult_minus_distr_r, V1, V2, V3 in H0. lra.
  - change (IZR (2 ^ 53 + 1)) with 9007199254740993%R.
    assert (IZR d * pow10 k <= IZR m * u + b * (IZR m * u))%R by lra.
    apply Rmult_le_compat_r with (r := (IZR T * (IZR Q * 9007199254740992))%R) in H0; [|exact Z0].
    rewrite Rmult_plus_distr_r, V1, V2, V3 in H0. lra.
Qed.

(** C110: If the same number is printed as a float and as a double, the float's text has at most as many significant digits:
    if the double's has at most [p] then so has the float's. *)
Theorem C110_float_shorter : forall v w m n D k E l p, nonzero Float v -> nonzero Double w -> real_of Double w = real_of Float v ->
  well_formed m -> prints Float v (written m) -> well_formed n -> prints Double w (written n) ->
  abs_value m = (IZR D * pow10 k)%R -> D mod 10 <> 0 -> abs_value n = (IZR E * pow10 l)%R ->
  E < 10 ^ p -> D < 10 ^ p.
Proof.
  intros v w m n D k E l p Nv Nw EQ Wm Pm Wn Pn Vm HD Vn HE. pose proof (proj1 Nv) as Fv.
  assert (M : magnitude Double w = magnitude Float v) by (rewrite <- !abs_real; now rewrite EQ).
  pose proof (nonzero_above Float v Nv) as MB. cbn [min_exp] in MB.
  pose proof (near_itself w n Nw ltac:(rewrite M; exact MB) Wn Pn) as N. rewrite M, Vn in N.
  assert (S : 0 < significand Float v) by now apply nonzero_significand.
  pose proof (magnitude_pos Float v S) as MP.
  destruct (printed Float v m Nv Wm Pm) as (ds & K & lo & hi & A1 & A2 & A3 & A4 & A5 & A6 & A7 & A8 & A9 & A10 & Hn & HK & Em).
  assert (Hd10 : dval ds mod 10 <> 0) by (rewrite dval_mod10; [exact A3|now apply ne_of_hd|assumption]).
  assert (DE : D = dval ds).
  { rewrite Em in Vm. rewrite shown_value in Vm by assumption. destruct (decimal_unique _ _ _ _ Hd10 HD Vm) as [e _]. now symmetry. }
  subst D. clear HD. pose proof (dval_size ds A1 A2) as [B1 B2].
  destruct (Z.lt_ge_cases (dval ds) (10 ^ p)) as [G|G]; [exact G|exfalso].
  cbn [max_sig] in A4.
  assert (P8 : p < zlen ds).
  { apply (Z.pow_lt_mono_r_iff 10); [lia|apply zlen_nonneg|]. lia. }
  assert (b0 : (bpow radix2 (-53) <= / 1125899906842624)%R).
  { replace (/ 1125899906842624)%R with (bpow radix2 (-50)) by reflexivity. apply bpow_le. lia. }
  pose proof (bpow_gt_0 radix2 (-53)) as b1.
  assert (E0 : 0 < E).
  { apply Z.nle_gt. intros C. apply IZR_le in C. pose proof (bpow_gt_0 radix10 l) as PL. apply Rabs_le_inv in N. nra. }
  assert (p0 : 0 <= p) by (destruct (Z.le_gt_cases 0 p) as [|C]; [assumption|rewrite Z.pow_neg_r in HE by exact C; lia]).
  destruct (Z.lt_ge_cases (significand Float v) (2 ^ 16)) as [Sm|Sm].
  - apply (no_short_denormal (significand Float v) E l).
    + lia.
    + split; [exact E0|]. apply Z.lt_le_trans with (1 := HE). apply Z.pow_le_mono_r; lia.
    + assert (EX : exponent Float v = -149).
      { unfold significand, exponent in *. destruct (Z.eqb_spec (exp_field Float v) 0) as [Z0|Z0]; [rewrite Z0; reflexivity|].
        pose proof (frac_field_range Float v) as FR. cbn [precision] in Sm, FR. lia. }
      unfold magnitude in N. rewrite EX in N. exact N.
  - apply (C11_near_shortest Float v m (dval ds) k (zlen ds)) with (d := E) (j := l); try assumption.
    + split; [exact Nv|exact Sm].
    + split; assumption.
    + split; [exact E0|]. apply Z.lt_le_trans with (1 := HE). apply Z.pow_le_mono_r; lia.
    + assert (U : (0 < ulp_of Float v)%R) by apply bpow_gt_0.
      assert (AU : (magnitude Float v <= 16777216 * ulp_of Float v)%R).
      { unfold magnitude. fold (ulp_of Float v). pose proof (significand_range Float v) as [_ SR]. change (2 ^ precision Float) with 16777216 in SR.
        assert (IZR (significand Float v) <= 16777216)%R by (apply IZR_le; lia). nra. }
      set (b := bpow radix2 (-53)) in *. set (a := magnitude Float v) in *.
      assert (Q : (b * a <= / 64 * ulp_of Float v)%R).
      { apply Rle_trans with (b * (16777216 * ulp_of Float v))%R; [apply Rmult_le_compat_l; lra|]. rewrite <- Rmult_assoc. apply Rmult_le_compat_r; lra. }
      apply Rabs_le_inv in N. unfold midpoint_below, midpoint_above, gap_below, safety. fold a. destruct (_ && _); lra.
Qed.
