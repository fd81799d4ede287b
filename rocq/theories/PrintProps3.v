(** Properties of ftoa and to_string, third part: integers, shortness, order. *)
From Coq Require Import String Ascii Reals Lra List.
From Flocq Require Import Core.
From Verif Require Import Machine MachineFacts Format DiyFp Grisu Ftoa Spec Instances Api
  BoundFacts TableFacts DvalFacts DigitGenFacts GrisuFacts PrettifyFacts ShownFacts FtoaFacts RoundFacts CmpFacts WrittenFacts PrintProps.
Open Scope Z_scope.

(** * C10 *)

Lemma margin_le : forall t v, (0 < margin t v <= / 64 * ulp_of t v)%R.
Proof.
  intros t v. unfold margin. split; [apply Rmult_lt_0_compat; apply bpow_gt_0|].
  apply Rmult_le_compat_r; [apply bpow_ge_0|]. change (/ 64)%R with (bpow radix2 (-6)). apply bpow_le. destruct t; cbn; lia.
Qed.

Lemma ulp_pos : forall t v, (0 < ulp_of t v)%R.
Proof. intros; apply bpow_gt_0. Qed.

Lemma big_magnitude_full : forall t v, (1 <= magnitude t v)%R -> 2 ^ (precision t - 1) <= significand t v.
Proof.
  intros t v H. destruct (significand_full t v) as [F|F]; [assumption|].
  exfalso. unfold magnitude in H. rewrite F in H.
  pose proof (significand_range t v) as [_ R]. apply IZR_lt in R.
  assert (Q : (IZR (significand t v) * bpow radix2 (min_exp t) < 1)%R); [|lra].
  apply Rlt_le_trans with (IZR (2 ^ precision t) * bpow radix2 (min_exp t))%R.
  - apply Rmult_lt_compat_r; [apply bpow_gt_0|assumption].
  - change (2 ^ precision t) with (radix2 ^ precision t). rewrite <- bpow_IZR by (destruct t; cbn; lia). rewrite <- bpow_plus.
    change 1%R with (bpow radix2 0). apply bpow_le. destruct t; cbn; lia.
Qed.

(** exponent of an integer of at most [precision] bits *)
Lemma integer_exponent : forall t v N, 1 <= N <= 2 ^ precision t -> magnitude t v = IZR N ->
  2 ^ (precision t - 1) <= significand t v /\
  (exponent t v <= 0 \/ exponent t v = 1 /\ significand t v = 2 ^ (precision t - 1)).
Proof.
  intros t v N HN E.
  assert (F : 2 ^ (precision t - 1) <= significand t v).
  { apply big_magnitude_full. rewrite E. now apply IZR_le. }
  split; [assumption|].
  destruct (Z.le_gt_cases (exponent t v) 0) as [|G]; [now left|right].
  unfold magnitude in E. rewrite bpow_IZR in E by lia. rewrite <- mult_IZR in E. apply eq_IZR in E.
  change (radix2 ^ exponent t v) with (2 ^ exponent t v) in E.
  assert (P2 : 2 ^ precision t = 2 ^ (precision t - 1) * 2) by (destruct t; reflexivity).
  assert (0 < 2 ^ (precision t - 1)) by (destruct t; reflexivity).
  assert (E1 : exponent t v = 1).
  { destruct (Z.eq_dec (exponent t v) 1) as [|D]; [assumption|exfalso].
    assert (2 ^ 2 <= 2 ^ exponent t v) by (apply Z.pow_le_mono_r; lia). change (2 ^ 2) with 4 in *.
    assert (2 ^ (precision t - 1) * 4 <= significand t v * 2 ^ exponent t v) by (apply Z.mul_le_mono_nonneg; lia). lia. }
  split; [assumption|]. rewrite E1 in E. change (2 ^ 1) with 2 in E. lia.
Qed.

(** the whole interval around such an integer contains no other integer *)
Lemma integer_interval : forall t v N, 1 <= N <= 2 ^ precision t -> magnitude t v = IZR N ->
  (IZR N - 1 < mminus t v)%R /\ (mplus t v <= IZR N + 1)%R /\
  (mminus t v + margin t v < IZR N < mplus t v - margin t v)%R.
Proof.
  intros t v N HN E. destruct (integer_exponent t v N HN E) as [F G].
  pose proof (margin_le t v). pose proof (ulp_pos t v) as U.
  assert (Mp : mplus t v = (IZR N + / 2 * ulp_of t v)%R) by (rewrite <- midpoint_above_mplus; unfold midpoint_above; now rewrite E).
  assert (Mm : mminus t v = (IZR N - (if significand t v =? 2 ^ (precision t - 1) then / 4 else / 2) * ulp_of t v)%R).
  { unfold mminus. rewrite <- E. unfold magnitude, ulp_of. ring. }
  destruct G as [G|[G1 G2]].
  - assert (ulp_of t v <= 1)%R by (change 1%R with (bpow radix2 0); now apply bpow_le).
    rewrite Mp, Mm. destruct (_ =? _); repeat split; lra.
  - assert (ulp_of t v = 2)%R by (unfold ulp_of; rewrite G1; reflexivity).
    rewrite Mp, Mm, G2, Z.eqb_refl. repeat split; lra.
Qed.

Theorem C10_integers : forall t v N, finite t v -> real_of t v = IZR N -> 0 < Z.abs N <= 2 ^ precision t ->
  exists ds, Forall digit ds /\ hd 0 ds <> 0 /\ dval ds = Z.abs N /\
    prints t v (if N <? 0 then code "-" :: dchars ds else dchars ds).
Proof.
  intros t v N Hf HR HN.
  assert (HM : magnitude t v = IZR (Z.abs N) /\ (sign_field t v =? 1) = (N <? 0)).
  { pose proof (magnitude_nonneg t v) as M0. unfold real_of in HR. rewrite abs_IZR, <- HR.
    destruct (sign_field t v =? 1) eqn:S.
    - rewrite Rabs_Ropp, Rabs_pos_eq by assumption. split; [reflexivity|]. symmetry. apply Z.ltb_lt.
      apply lt_IZR. destruct (Z.lt_trichotomy N 0) as [L|[L|L]]; [now apply IZR_lt|lia|].
      apply IZR_lt in L. lra.
    - rewrite Rabs_pos_eq by assumption. split; [reflexivity|]. symmetry. apply Z.ltb_ge.
      apply le_IZR. lra. }
  destruct HM as [HM HS].
  assert (Hnz : nonzero t v).
  { split; [assumption|]. intros (_ & Z1 & Z2).
    assert (magnitude t v = 0%R). { unfold magnitude, significand. rewrite Z1, Z2. cbn. ring. }
    rewrite HM in H. apply eq_IZR in H. lia. }
  destruct (ftoa_finite t v Hnz) as (ds & K & lo & hi & A1 & A2 & A3 & A4 & A5 & A6 & A7 & A8 & A9 & A10 & A11).
  assert (HK : -500 <= K <= 500) by (clear - A5; destruct t; cbn [kmin kmax] in A5; lia).
  assert (Hn : zlen ds <= 17) by (clear - A4; destruct t; cbn [max_sig] in A4; lia).
  destruct (integer_interval t v (Z.abs N) ltac:(lia) HM) as (I1 & I2 & I3).
  assert (HB : 2 ^ (width t / 2) <= significand t v).
  { destruct (integer_exponent t v (Z.abs N) ltac:(lia) HM) as [F _]. clear - F.
    destruct t; cbn [width precision] in *; change (32 / 2) with 16; change (64 / 2) with 32; cbn in *; lia. }
  specialize (A9 HB).
  assert (K0 : 0 <= K).
  { destruct (Z.le_gt_cases 0 K) as [|L]; [assumption|exfalso].
    apply (A9 (Z.abs N * 10 ^ (- K - 1))).
    rewrite mult_IZR. change (10 ^ (- K - 1)) with (radix10 ^ (- K - 1)). rewrite <- bpow_IZR by lia.
    rewrite Rmult_assoc, <- bpow_plus. replace (- K - 1 + (K + 1)) with 0 by lia. change (pow10 0) with 1%R. lra. }
  assert (EN : dval ds * 10 ^ K = Z.abs N).
  { rewrite bpow_IZR, <- mult_IZR in A8 by assumption. change (radix10 ^ K) with (10 ^ K) in A8.
    assert (Z.abs N - 1 < dval ds * 10 ^ K < Z.abs N + 1); [|lia].
    split; apply lt_IZR; [rewrite minus_IZR|rewrite plus_IZR]; lra. }
  exists (ds ++ repeat 0 (Z.to_nat K)).
  split; [apply Forall_app; split; [assumption|apply digits_zeros]|].
  split; [destruct ds; [cbn in A2; congruence|exact A2]|].
  split; [rewrite dval_app, dval_zeros, zlen_repeat, Z2Nat.id by lia; lia|].
  pose proof (dval_size ds A1 A2) as [B _]. pose proof (ds_nonempty ds A2) as L1.
  assert (Hsmall : zlen ds + K <= 16).
  { assert (10 ^ (zlen ds - 1) * 10 ^ K <= Z.abs N).
    { rewrite <- EN. apply Z.mul_le_mono_nonneg_r; [apply Z.lt_le_incl, pow10_pos; assumption|assumption]. }
    rewrite <- Z.pow_add_r in H by lia.
    assert (2 ^ precision t < 10 ^ 16) by (destruct t; reflexivity).
    assert (zlen ds - 1 + K < 16); [|lia].
    apply (Z.pow_lt_mono_r_iff 10); lia. }
  assert (Ew : written (shown (sign_of t v) ds K) = if N <? 0 then code "-" :: dchars (ds ++ repeat 0 (Z.to_nat K)) else dchars (ds ++ repeat 0 (Z.to_nat K))).
  { unfold shown. cbv zeta.
    destruct (Z.ltb_spec 16 (Z.max (zlen ds + K) (- K))); [lia|].
    destruct (Z.leb_spec 0 K); [|lia].
    unfold written, mantissa_text, exponent_text. cbn [n_sign n_int n_frac n_exp]. rewrite !app_nil_r.
    unfold sign_of. rewrite HS. destruct (N <? 0); reflexivity. }
  rewrite <- Ew. exact A10.
Qed.

(** * C11 *)

(** The printed number [D * 10^k] has [n] digits and no number with fewer digits lies
    in the rounding interval after removing a margin at both ends. *)
Definition safety (t : ftype) : R := match t with Float => / 64 | Double => / 512 end.

Lemma margin_eq : forall t v, margin t v = (safety t * ulp_of t v)%R.
Proof. intros. unfold margin, safety. f_equal. destruct t; cbn; lra. Qed.

Definition smallest_normal (t : ftype) (v : Z) : Prop := exp_field t v = 1 /\ frac_field t v = 0.

(** The significand has at least as many bits as half the word: every normal number and
    the larger denormal numbers. *)
Definition enough_bits (t : ftype) (v : Z) : Prop := nonzero t v /\ 2 ^ (width t / 2) <= significand t v.

Lemma normal_nonzero : forall t v, normal t v -> nonzero t v.
Proof. intros t v Hv. split; [apply Hv|]. intros (_ & Z1 & _). now apply (proj2 Hv). Qed.

Lemma normal_enough : forall t v, normal t v -> enough_bits t v.
Proof. intros t v Hv. split; [now apply normal_nonzero|now apply normal_big]. Qed.

Lemma smallest_is_normal : forall t v, finite t v -> smallest_normal t v -> normal t v.
Proof. intros t v Hf [E _]. split; [assumption|lia]. Qed.

Lemma mminus_midpoint : forall t v, nonzero t v -> ~ smallest_normal t v -> mminus t v = midpoint_below t v.
Proof.
  intros t v Hf Hs. unfold mminus, midpoint_below, gap_below, magnitude.
  assert (L : significand t v = 2 ^ (precision t - 1) -> min_exp t < exponent t v).
  { unfold smallest_normal, significand, exponent in *. pose proof (exp_field_range t v). pose proof (frac_field_range t v).
    destruct (Z.eqb_spec (exp_field t v) 0); [lia|]. intros E.
    assert (exp_field t v <> 1); [|lia]. intros C. apply Hs. split; [assumption|lia]. }
  destruct (Z.eqb_spec (significand t v) (2 ^ (precision t - 1))) as [E|E]; cbn [andb].
  - destruct (Z.ltb_spec (min_exp t) (exponent t v)); [|specialize (L E); lia]. unfold ulp_of. lra.
  - unfold ulp_of. lra.
Qed.

(** The smallest normal number: no number with few digits in its rounding interval. *)
Definition few (t : ftype) : Z := match t with Float => 7 | Double => 16 end.
Definition few_exp (t : ftype) : Z := match t with Float => -44 | Double => -323 end.

Lemma smallest_interval : forall t v, smallest_normal t v ->
  midpoint_below t v = (IZR (2 ^ precision t - 1) * bpow radix2 (min_exp t - 1))%R /\
  midpoint_above t v = (IZR (2 ^ precision t + 1) * bpow radix2 (min_exp t - 1))%R.
Proof.
  intros t v [E F].
  assert (S : significand t v = 2 ^ (precision t - 1)) by (unfold significand; rewrite E, F; reflexivity).
  assert (X : exponent t v = min_exp t) by (unfold exponent; rewrite E; lia).
  unfold midpoint_below, midpoint_above, gap_below, magnitude, ulp_of. rewrite S, X, Z.ltb_irrefl, andb_false_r.
  replace (2 ^ precision t) with (2 * 2 ^ (precision t - 1)) by (destruct t; reflexivity).
  rewrite minus_IZR, plus_IZR, mult_IZR.
  replace (bpow radix2 (min_exp t)) with (2 * bpow radix2 (min_exp t - 1))%R.
  - split; lra.
  - change 2%R with (bpow radix2 1). rewrite <- bpow_plus. f_equal. lia.
Qed.

Lemma smallest_no_short : forall t v d j, smallest_normal t v -> 0 < d < 10 ^ few t ->
  ~ (midpoint_below t v <= IZR d * pow10 j <= midpoint_above t v)%R.
Proof.
  intros t v d j Hs Hd [Y1 Y2]. destruct (smallest_interval t v Hs) as [E1 E2]. rewrite E1 in Y1. rewrite E2 in Y2. clear E1 E2.
  set (A := 10 ^ (- few_exp t)). set (B := 2 ^ (1 - min_exp t)).
  assert (HA : (pow10 (few_exp t) * IZR A = 1)%R).
  { unfold A. change (10 ^ (- few_exp t)) with (radix10 ^ (- few_exp t)). rewrite <- bpow_IZR by (destruct t; cbn; lia).
    rewrite <- bpow_plus. replace (few_exp t + - few_exp t) with 0 by lia. reflexivity. }
  assert (HB : (bpow radix2 (min_exp t - 1) * IZR B = 1)%R).
  { unfold B. change (2 ^ (1 - min_exp t)) with (radix2 ^ (1 - min_exp t)). rewrite <- bpow_IZR by (destruct t; cbn; lia).
    rewrite <- bpow_plus. replace (min_exp t - 1 + (1 - min_exp t)) with 0 by lia. reflexivity. }
  assert (PA : (0 < IZR A)%R) by (apply IZR_lt, pow10_pos; destruct t; cbn; lia).
  assert (PB : (0 < IZR B)%R) by (apply IZR_lt, Z.pow_pos_nonneg; [lia|destruct t; cbn; lia]).
  set (u := bpow radix2 (min_exp t - 1)) in *.
  destruct (Z.le_gt_cases (few_exp t) j) as [Hj|Hj].
  - set (z := d * 10 ^ (j - few_exp t)).
    assert (Ez : (IZR d * pow10 j = IZR z * pow10 (few_exp t))%R).
    { unfold z. rewrite mult_IZR. change (10 ^ (j - few_exp t)) with (radix10 ^ (j - few_exp t)).
      rewrite <- bpow_IZR by lia. rewrite Rmult_assoc, <- bpow_plus. do 2 f_equal. lia. }
    rewrite Ez in *.
    apply (Rmult_le_compat_r (IZR A * IZR B)) in Y1, Y2; try (apply Rmult_le_pos; lra).
    replace (IZR (2 ^ precision t - 1) * u * (IZR A * IZR B))%R with (IZR (2 ^ precision t - 1) * IZR A * (u * IZR B))%R in Y1 by ring.
    replace (IZR (2 ^ precision t + 1) * u * (IZR A * IZR B))%R with (IZR (2 ^ precision t + 1) * IZR A * (u * IZR B))%R in Y2 by ring.
    replace (IZR z * pow10 (few_exp t) * (IZR A * IZR B))%R with (IZR z * IZR B * (pow10 (few_exp t) * IZR A))%R in Y1, Y2 by ring.
    rewrite HB, HA, !Rmult_1_r in Y1, Y2. rewrite <- !mult_IZR in Y1, Y2. apply le_IZR in Y1, Y2.
    set (z0 := (2 ^ precision t - 1) * A / B).
    assert (K1 : z0 * B < (2 ^ precision t - 1) * A) by (apply Z.ltb_lt; unfold z0, A, B; destruct t; vm_compute; reflexivity).
    assert (K2 : (2 ^ precision t + 1) * A < (z0 + 1) * B) by (apply Z.ltb_lt; unfold z0, A, B; destruct t; vm_compute; reflexivity).
    assert (0 < B) by now apply lt_IZR.
    destruct (Z.le_gt_cases z z0) as [G|G].
    + assert (z * B <= z0 * B) by (apply Z.mul_le_mono_nonneg_r; lia). lia.
    + assert ((z0 + 1) * B <= z * B) by (apply Z.mul_le_mono_nonneg_r; lia). lia.
  - assert (Q : (IZR d * pow10 j <= IZR (10 ^ few t) * pow10 (few_exp t - 1))%R).
    { apply Rmult_le_compat; [apply IZR_le; lia|apply bpow_ge_0|apply IZR_le; lia|apply bpow_le; lia]. }
    assert (Q2 : (IZR (2 ^ precision t - 1) * u <= IZR (10 ^ few t) * pow10 (few_exp t - 1))%R) by lra.
    apply (Rmult_le_compat_r (IZR A * IZR B * 10)) in Q2; [|apply Rmult_le_pos; [apply Rmult_le_pos|]; lra].
    replace (few_exp t - 1) with (-1 + few_exp t) in Q2 by lia. rewrite bpow_plus in Q2. change (pow10 (-1)) with (/ 10)%R in Q2.
    replace (IZR (2 ^ precision t - 1) * u * (IZR A * IZR B * 10))%R with (IZR (2 ^ precision t - 1) * IZR A * 10 * (u * IZR B))%R in Q2 by ring.
    replace (IZR (10 ^ few t) * (/ 10 * pow10 (few_exp t)) * (IZR A * IZR B * 10))%R with (IZR (10 ^ few t) * IZR B * (pow10 (few_exp t) * IZR A))%R in Q2 by field.
    rewrite HA, HB, !Rmult_1_r in Q2. rewrite <- !mult_IZR in Q2. apply le_IZR in Q2.
    revert Q2. apply Zlt_not_le. apply Z.ltb_lt. unfold A, B. destruct t; vm_compute; reflexivity.
Qed.

(** What is printed for the smallest normal numbers. *)
Lemma smallest_printed : forall t v m, normal t v -> smallest_normal t v -> well_formed m -> prints t v (written m) ->
  exists D k, abs_value m = (IZR D * pow10 k)%R /\ D mod 10 <> 0 /\ 10 ^ few t <= D < 10 ^ (few t + 1).
Proof.
  intros t v m Hv Hs W P.
  assert (Hv' : v = 2 ^ (precision t - 1) \/ v = 2 ^ (precision t - 1) + 2 ^ (width t - 1)).
  { destruct (pattern_split t v (proj1 (proj1 Hv))) as [E B]. destruct Hs as [E1 E2]. rewrite E1, E2 in E.
    assert (sign_field t v = 0 \/ sign_field t v = 1) as [S|S] by lia; rewrite S in E; [left|right]; lia. }
  set (ds := match t with Float => [1;7;5;4;9;4;4] | Double => [2;2;5;0;7;3;8;5;8;5;0;7;2;0;1;6] end).
  set (hd := match t with Float => 1 | Double => 2 end).
  set (m0 s := {| n_sign := s; n_int := [hd]; n_frac := Some ds;
                n_exp := Some {| x_upper := false; x_sign := Minus; x_digits := match t with Float => [3;8] | Double => [3;0;8] end |} |}).
  assert (W0 : forall s, well_formed (m0 s)).
  { intros s. unfold well_formed, m0, ds, hd. cbn [n_int frac_digits n_frac n_exp x_digits].
    destruct t; repeat split; try discriminate; repeat constructor; unfold digit; lia. }
  assert (P0 : written m = written (m0 NoSign) \/ written m = written (m0 Minus)).
  { destruct (prints_something t v (proj1 (proj1 Hv))) as (s & Q & _).
    rewrite (prints_unique _ _ _ _ P Q). clear - Q Hv'.
    specialize (Q (repeat 0 40)). rewrite repeat_length in Q.
    assert (L : max_buffer_size (fmt_of t) <= Z.of_nat 40) by (destruct t; cbn; lia). specialize (Q L).
    apply (f_equal (fun r => match r with Ok (b, n) => firstn (Z.to_nat n) b | Fault _ => [] end)) in Q.
    rewrite Nat2Z.id, firstn_app, Nat.sub_diag, firstn_all in Q. cbn [firstn] in Q. rewrite app_nil_r in Q.
    rewrite <- Q. destruct Hv' as [-> | ->]; [left|right]; destruct t; vm_compute; reflexivity. }
  assert (E : exists s, m = m0 s).
  { destruct P0 as [P0|P0]; apply written_inj in P0; try apply W0; try assumption; subst m; eauto. }
  destruct E as [s ->].
  exists (match t with Float => 11754944 | Double => 22250738585072016 end), (few_exp t - 1).
  split; [|split; [destruct t; discriminate|split; [apply Z.leb_le|apply Z.ltb_lt]; destruct t; reflexivity]].
  unfold abs_value, coefficient, scale, exponent_value, m0, ds, hd. cbn [n_int n_frac frac_digits n_exp].
  destruct t; reflexivity.
Qed.

Theorem C11_near_shortest : forall t v m D k n, enough_bits t v ->
  well_formed m -> prints t v (written m) ->
  abs_value m = (IZR D * pow10 k)%R -> D mod 10 <> 0 -> 10 ^ (n - 1) <= D < 10 ^ n ->
  forall d j, 0 < d < 10 ^ (n - 1) ->
  ~ (midpoint_below t v + safety t * ulp_of t v <= IZR d * pow10 j
       <= midpoint_above t v - safety t * ulp_of t v)%R.
Proof.
  intros t v m D k n Hv W P Ev HD HDn d j Hd [Y1 Y2].
  assert (smallest_normal t v \/ ~ smallest_normal t v) as [Hsn|Hsn].
  { unfold smallest_normal. destruct (Z.eq_dec (exp_field t v) 1), (Z.eq_dec (frac_field t v) 0); tauto. }
  { destruct (smallest_printed t v m (smallest_is_normal t v (proj1 (proj1 Hv)) Hsn) Hsn W P) as (D' & k' & E' & M' & B').
    rewrite Ev in E'. destruct (decimal_unique _ _ _ _ HD M' E') as [-> ->].
    assert (n = few t + 1).
    { apply (number_size_unique D'); [pose proof (pow10_pos (few t)); destruct t; cbn [few] in *; lia|assumption|].
      replace (few t + 1 - 1) with (few t) by lia. assumption. }
    subst n. replace (few t + 1 - 1) with (few t) in Hd by lia.
    apply (smallest_no_short t v d j Hsn Hd).
    pose proof (ulp_pos t v). assert (0 < safety t)%R by (destruct t; unfold safety; lra).
    assert (0 < safety t * ulp_of t v)%R by now apply Rmult_lt_0_compat. lra. }
  pose proof (proj1 Hv) as Hnz.
  destruct (printed t v m Hnz W P) as (ds & K & lo & hi & A1 & A2 & A3 & A4 & A5 & A6 & A7 & A8 & A9 & A10 & Hn & HK & Em).
  specialize (A9 (proj2 Hv)).
  rewrite Em in Ev. rewrite shown_value in Ev by assumption.
  assert (Hd10 : dval ds mod 10 <> 0) by (rewrite dval_mod10; [exact A3|now apply ne_of_hd|assumption]).
  destruct (decimal_unique _ _ _ _ Hd10 HD Ev) as [<- <-].
  pose proof (dval_size ds A1 A2) as B. pose proof (dval_pos ds A1 A2) as B0.
  rewrite (number_size_unique (dval ds) n (zlen ds) ltac:(lia) HDn B) in *. clear n HDn.
  rewrite <- (mminus_midpoint t v Hnz Hsn) in Y1. rewrite midpoint_above_mplus in Y2. rewrite <- margin_eq in Y1, Y2.
  set (y := (IZR d * pow10 j)%R) in *.
  assert (Iy : (lo <= y <= hi)%R) by lra.
  pose proof (ds_nonempty ds A2) as L1.
  destruct (Z.lt_ge_cases K j) as [Hj|Hj].
  - (* a multiple of 10^(K+1) *)
    apply (A9 (d * 10 ^ (j - (K + 1)))). rewrite mult_IZR. change (10 ^ (j - (K + 1))) with (radix10 ^ (j - (K + 1))).
    rewrite <- bpow_IZR by lia. rewrite Rmult_assoc, <- bpow_plus. replace (j - (K + 1) + (K + 1)) with j by lia. exact Iy.
  - (* below the power of ten that starts the printed number *)
    destruct (Z.eq_dec (zlen ds) 1) as [E1|E1].
    { rewrite E1 in Hd. change (10 ^ (1 - 1)) with 1 in Hd. lia. }
    assert (Hz : (y <= pow10 (zlen ds - 1 + K) <= IZR (dval ds) * pow10 K)%R).
    { rewrite bpow_plus. split.
      - unfold y. apply Rmult_le_compat; [apply IZR_le; lia|apply bpow_ge_0| |now apply bpow_le].
        rewrite bpow_IZR by lia. apply IZR_le. change (radix10 ^ (zlen ds - 1)) with (10 ^ (zlen ds - 1)). lia.
      - apply Rmult_le_compat_r; [apply bpow_ge_0|]. rewrite bpow_IZR by lia. apply IZR_le. apply B. }
    apply (A9 (10 ^ (zlen ds - 2))).
    change (10 ^ (zlen ds - 2)) with (radix10 ^ (zlen ds - 2)). rewrite <- bpow_IZR by lia.
    rewrite <- bpow_plus. replace (zlen ds - 2 + (K + 1)) with (zlen ds - 1 + K) by lia. lra.
Qed.

(** * C12 *)

Definition safe_digits (t : ftype) : Z := match t with Float => 6 | Double => 15 end.

(** A decimal [d * 10^j] whose digits are a number below the significand of [v] and that
    lies well inside the rounding interval of [v] is what ftoa prints. *)
Theorem C12_decimals_survive : forall t v m d j, enough_bits t v ->
  well_formed m -> prints t v (written m) ->
  0 < d < significand t v - 1 ->
  (midpoint_below t v + safety t * ulp_of t v <= IZR d * pow10 j
     <= midpoint_above t v - safety t * ulp_of t v)%R ->
  abs_value m = (IZR d * pow10 j)%R.
Proof.
  intros t v m d j Hv W P Hd [Y1 Y2].
  assert (smallest_normal t v \/ ~ smallest_normal t v) as [Hsn|Hsn].
  { unfold smallest_normal. destruct (Z.eq_dec (exp_field t v) 1), (Z.eq_dec (frac_field t v) 0); tauto. }
  { exfalso. apply (smallest_no_short t v d j Hsn).
    - assert (significand t v <= 10 ^ few t); [|lia].
      unfold significand. rewrite (proj1 Hsn), (proj2 Hsn). apply Z.leb_le. destruct t; reflexivity.
    - pose proof (ulp_pos t v). assert (0 < safety t)%R by (destruct t; unfold safety; lra).
      assert (0 < safety t * ulp_of t v)%R by now apply Rmult_lt_0_compat. lra. }
  pose proof (proj1 Hv) as Hnz.
  destruct (printed t v m Hnz W P) as (ds & K & lo & hi & A1 & A2 & A3 & A4 & A5 & A6 & A7 & A8 & A9 & A10 & Hn & HK & Em).
  specialize (A9 (proj2 Hv)).
  rewrite Em, shown_value by assumption.
  assert (Up : mplus t v = (magnitude t v + / 2 * ulp_of t v)%R) by (rewrite <- midpoint_above_mplus; reflexivity).
  rewrite <- (mminus_midpoint t v Hnz Hsn) in Y1. rewrite midpoint_above_mplus in Y2. rewrite <- margin_eq in Y1, Y2.
  set (y := (IZR d * pow10 j)%R) in *.
  assert (Iy : (lo <= y <= hi)%R) by lra.
  assert (Hj : j <= K).
  { destruct (Z.lt_ge_cases K j) as [Hj|Hj]; [exfalso|lia].
    apply (A9 (d * 10 ^ (j - (K + 1)))). rewrite mult_IZR. change (10 ^ (j - (K + 1))) with (radix10 ^ (j - (K + 1))).
    rewrite <- bpow_IZR by lia. rewrite Rmult_assoc, <- bpow_plus. replace (j - (K + 1) + (K + 1)) with j by lia. exact Iy. }
  (* the interval is shorter than 10^j *)
  pose proof (ulp_pos t v) as U. pose proof (margin_le t v) as Mg.
  assert (Mm : (magnitude t v - / 2 * ulp_of t v <= mminus t v)%R).
  { unfold mminus, magnitude. unfold ulp_of in *. destruct (_ =? _); lra. }
  assert (Hlen : (ulp_of t v < pow10 j)%R).
  { assert (Q2 : (magnitude t v <= y + ulp_of t v)%R) by lra.
    assert (Q3 : ((IZR (significand t v) - 1) * ulp_of t v <= IZR d * pow10 j)%R) by (unfold magnitude in Q2; fold (ulp_of t v) in Q2; fold y; lra).
    assert (Q4 : (IZR d < IZR (significand t v) - 1)%R) by (rewrite <- minus_IZR; apply IZR_lt; lia).
    assert (Q5 : (0 < IZR d)%R) by (apply IZR_lt; lia).
    apply Rmult_lt_reg_l with (IZR (significand t v) - 1)%R; [lra|].
    apply Rle_lt_trans with (1 := Q3). apply Rmult_lt_compat_r; [apply bpow_gt_0|assumption]. }
  assert (Hxy : (Rabs (IZR (dval ds) * pow10 K - y) < pow10 j)%R).
  { apply Rle_lt_trans with (ulp_of t v); [|assumption]. apply Rabs_le. lra. }
  replace K with (K - j + j) in Hxy |- * by lia. rewrite bpow_plus, <- Rmult_assoc in Hxy |- *.
  rewrite (bpow_IZR radix10 (K - j)) in Hxy |- * by lia. rewrite <- mult_IZR in Hxy |- *.
  unfold y in Hxy |- *. rewrite <- Rmult_minus_distr_r, <- minus_IZR, Rabs_mult, (Rabs_pos_eq (pow10 j)) in Hxy by apply bpow_ge_0.
  rewrite <- (Rmult_1_l (pow10 j)) in Hxy at 2. apply Rmult_lt_reg_r in Hxy; [|apply bpow_gt_0].
  rewrite <- abs_IZR in Hxy. apply lt_IZR in Hxy.
  do 2 f_equal. lia.
Qed.

Theorem C12_short_decimals_survive : forall t v m d j, normal t v ->
  well_formed m -> prints t v (written m) ->
  0 < d < 10 ^ safe_digits t ->
  (midpoint_below t v + safety t * ulp_of t v <= IZR d * pow10 j
     <= midpoint_above t v - safety t * ulp_of t v)%R ->
  abs_value m = (IZR d * pow10 j)%R.
Proof.
  intros t v m d j Hv W P Hd Y. apply (C12_decimals_survive t v m d j (normal_enough t v Hv) W P); [|assumption].
  assert (10 ^ safe_digits t < 2 ^ (precision t - 1)) by (destruct t; reflexivity).
  pose proof (frac_field_range t v). unfold significand.
  destruct (Z.eqb_spec (exp_field t v) 0); [exfalso; now apply (proj2 Hv)|lia].
Qed.

(** * C13: false *)

Lemma prints_eval : forall t v s, pattern t v ->
  match ftoa (fmt_of t) v (repeat 0 40) with Ok (b, n) => firstn (Z.to_nat n) b | Fault _ => [] end = s ->
  prints t v s.
Proof.
  intros t v s Hp E. destruct (prints_something t v Hp) as (s' & Q & _).
  assert (s = s') as ->; [|assumption]. rewrite <- E.
  rewrite (Q (repeat 0 40)) by (rewrite repeat_length; destruct t; cbn; lia).
  rewrite Nat2Z.id, firstn_app, Nat.sub_diag, firstn_all. cbn [firstn]. apply app_nil_r.
Qed.

(** There is a normal double printed with 17 digits although a number with 16 digits
    rounds to it: 2.3159372877385319e-7 and 2.315937287738532e-7. *)
Theorem C13_refuted_not_always_shortest :
  exists v m D k n, normal Double v /\ well_formed m /\ prints Double v (written m) /\
    abs_value m = (IZR D * pow10 k)%R /\ D mod 10 <> 0 /\ 10 ^ (n - 1) <= D < 10 ^ n /\
    exists d j, 0 < d < 10 ^ (n - 1) /\ rnd Double (IZR d * pow10 j) = real_of Double v.
Proof.
  set (m := {| n_sign := NoSign; n_int := [2]; n_frac := Some [3;1;5;9;3;7;2;8;7;7;3;8;5;3;1;9];
               n_exp := Some {| x_upper := false; x_sign := Minus; x_digits := [0;7] |} |}).
  exists 4507845391442361085, m, 23159372877385319, (-23), 17.
  split; [repeat split; try (vm_compute; congruence)|].
  split. { unfold well_formed, m. cbn [n_int frac_digits n_frac n_exp x_digits]. repeat split; try discriminate; repeat constructor; unfold digit; lia. }
  split. { apply prints_eval; [split; [discriminate|reflexivity]|]. vm_compute. reflexivity. }
  split; [reflexivity|]. split; [vm_compute; discriminate|]. split; [split; [apply Z.leb_le|apply Z.ltb_lt]; vm_compute; reflexivity|].
  exists 2315937287738532, (-22). split; [split; apply Z.ltb_lt; vm_compute; reflexivity|].
  set (v := 4507845391442361085).
  replace (real_of Double v) with (magnitude Double v) by reflexivity.
  apply rounds_strictly_rnd. vm_compute. reflexivity.
Qed.

(** * C14 *)

Theorem C14_order_preserving : forall t v w m1 m2, nonzero t v -> nonzero t w ->
  well_formed m1 -> well_formed m2 -> prints t v (written m1) -> prints t w (written m2) ->
  (real_of t v < real_of t w)%R -> (value m1 < value m2)%R.
Proof.
  intros t v w m1 m2 Hv Hw W1 W2 P1 P2 L.
  destruct (C01_reads_back t v m1 Hv W1 P1) as (_ & R1 & _).
  destruct (C01_reads_back t w m2 Hw W2 P2) as (_ & R2 & _).
  destruct (Rlt_or_le (value m1) (value m2)) as [|G]; [assumption|exfalso].
  apply (rnd_mono t) in G. unfold rnd in G. rewrite R1, R2 in G. lra.
Qed.

Theorem C14_injective : forall t v w s, nonzero t v -> nonzero t w ->
  prints t v s -> prints t w s -> v = w.
Proof.
  intros t v w s Hv Hw P1 P2. apply (real_of_inj t); try assumption.
  destruct (C04_grammar t v Hv) as (m & Q & W & _).
  rewrite (prints_unique t v _ _ P1 Q) in P2.
  destruct (C01_reads_back t v m Hv W Q) as (_ & R1 & _).
  destruct (C01_reads_back t w m Hw W P2) as (_ & R2 & _).
  rewrite <- (R1 (fun _ => true)), <- (R2 (fun _ => true)). reflexivity.
Qed.

(** * C15 *)

Lemma c_strlen_ok : forall s rest, ~ In 0 s -> c_strlen (s ++ 0 :: rest) = Ok (Z.of_nat (length s)).
Proof.
  induction s as [|c s IH]; intros rest H; [reflexivity|].
  cbn [app c_strlen length]. destruct (Z.eqb_spec c Chars.ch_nul) as [E|E]; [exfalso; apply H; left; exact E|].
  rewrite IH by (intros C; apply H; now right). cbn [bind]. f_equal. lia.
Qed.

Theorem C15_to_string : forall t v, pattern t v ->
  exists s, prints t v s /\ to_basic_string (fmt_of t) v = Ok s.
Proof.
  intros t v H. destruct (prints_something t v H) as (s & P & N & _). exists s. split; [assumption|].
  unfold to_basic_string. rewrite P by (rewrite repeat_length; lia). cbn [bind].
  rewrite c_strlen_ok by assumption. cbn [bind]. rewrite Nat2Z.id, firstn_app, Nat.sub_diag, firstn_all. cbn [firstn].
  now rewrite app_nil_r.
Qed.
