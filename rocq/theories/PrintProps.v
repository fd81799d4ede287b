(** Properties of ftoa and to_string. *)
From Coq Require Import String Ascii Reals Lra List.
From Flocq Require Import Core.
From Verif Require Import Machine MachineFacts Format Grisu Ftoa Spec Instances Api
  BoundFacts TableFacts DvalFacts DigitGenFacts GrisuFacts PrettifyFacts ShownFacts FtoaFacts RoundFacts WrittenFacts.
Open Scope Z_scope.

(** * Plumbing *)

Lemma printed : forall t v m, nonzero t v -> well_formed m -> prints t v (written m) ->
  exists ds K lo hi,
    let x := (IZR (dval ds) * pow10 K)%R in
    Forall digit ds /\ hd 0 ds <> 0 /\ last_nonzero ds /\ zlen ds <= max_sig t /\
    kmin t <= K <= kmax t /\
    (mminus t v < lo < mminus t v + margin t v)%R /\
    (mplus t v - margin t v < hi < mplus t v)%R /\
    (lo <= x <= hi)%R /\
    (2 ^ (width t / 2) <= significand t v -> forall y, ~ (lo <= IZR y * pow10 (K + 1) <= hi)%R) /\
    zlen (written m) <= match t with Float => 19 | Double => 24 end /\
    zlen ds <= 17 /\ -500 <= K <= 500 /\ m = shown (sign_of t v) ds K.
Proof.
  intros t v m H W P. destruct (ftoa_finite t v H) as (ds & K & lo & hi & A1 & A2 & A3 & A4 & A5 & A6 & A7 & A8 & A9 & A10 & A11).
  exists ds, K, lo, hi. cbv zeta.
  assert (HK : -500 <= K <= 500) by (clear - A5; destruct t; cbn [kmin kmax] in A5; lia).
  assert (Hn : zlen ds <= 17) by (clear - A4; destruct t; cbn [max_sig] in A4; lia).
  pose proof (prints_unique _ _ _ _ P A10) as E.
  do 9 (split; [assumption|]). split; [rewrite E; assumption|]. split; [assumption|]. split; [assumption|].
  apply written_inj; try assumption. now apply shown_wf.
Qed.

Lemma normal_big : forall t v, normal t v -> 2 ^ (width t / 2) <= significand t v.
Proof.
  intros t v [_ H]. unfold significand. destruct (Z.eqb_spec (exp_field t v) 0); [contradiction|].
  pose proof (frac_field_range t v). destruct t; cbn [width precision] in *; change (32 / 2) with 16; change (64 / 2) with 32; cbn in *; lia.
Qed.

Lemma dval_pos : forall ds, Forall digit ds -> hd 0 ds <> 0 -> 1 <= dval ds.
Proof.
  intros [|d ds] H1 H2; [cbn in H2; congruence|].
  pose proof (dval_lower d ds H1 H2). pose proof (pow10_pos (zlen ds) (zlen_nonneg ds)). lia.
Qed.

Lemma dval_mod10 : forall ds, ds <> [] -> Forall digit ds -> dval ds mod 10 = last ds 0.
Proof.
  intros ds N H. destruct (exists_last N) as (a & d & ->).
  rewrite dval_snoc, last_last. apply Forall_app in H as [_ H]. inversion_clear H as [|? ? D _].
  unfold digit in D. symmetry. apply Z.mod_unique with (dval a); lia.
Qed.

Lemma ne_of_hd : forall ds : list Z, hd 0 ds <> 0 -> ds <> [].
Proof. intros [|] H; [cbn in H; congruence|discriminate]. Qed.

Lemma dval_size : forall ds, Forall digit ds -> hd 0 ds <> 0 -> 10 ^ (zlen ds - 1) <= dval ds < 10 ^ zlen ds.
Proof.
  intros ds H N. split; [|now apply dval_bounds].
  destruct ds as [|d ds]; [cbn in N; congruence|]. rewrite zlen_cons.
  replace (1 + zlen ds - 1) with (zlen ds) by lia. now apply dval_lower.
Qed.

(** A decimal without trailing zero has one representation. *)
Lemma decimal_unique : forall D1 k1 D2 k2, D1 mod 10 <> 0 -> D2 mod 10 <> 0 ->
  (IZR D1 * pow10 k1 = IZR D2 * pow10 k2)%R -> D1 = D2 /\ k1 = k2.
Proof.
  assert (A : forall D1 k1 D2 k2, k1 <= k2 -> D1 mod 10 <> 0 ->
    (IZR D1 * pow10 k1 = IZR D2 * pow10 k2)%R -> D1 = D2 /\ k1 = k2).
  { intros D1 k1 D2 k2 L N E.
    replace k2 with (k2 - k1 + k1) in E by lia. rewrite bpow_plus, <- Rmult_assoc in E.
    apply Rmult_eq_reg_r in E; [|apply Rgt_not_eq, bpow_gt_0].
    rewrite bpow_IZR in E by lia. rewrite <- mult_IZR in E. apply eq_IZR in E.
    change (radix10 ^ (k2 - k1)) with (10 ^ (k2 - k1)) in E.
    destruct (Z.eq_dec k1 k2) as [->|Q].
    - rewrite Z.sub_diag, Z.mul_1_r in E. now split.
    - exfalso. apply N. rewrite E. replace (k2 - k1) with (1 + (k2 - k1 - 1)) by lia.
      rewrite Z.pow_add_r by lia. change (10 ^ 1) with 10.
      replace (D2 * (10 * 10 ^ (k2 - k1 - 1))) with (D2 * 10 ^ (k2 - k1 - 1) * 10) by ring. apply Z.mod_mul. lia. }
  intros D1 k1 D2 k2 N1 N2 E. destruct (Z.le_ge_cases k1 k2) as [L|L].
  - now apply A.
  - destruct (A D2 k2 D1 k1 L N2 (eq_sym E)). now split.
Qed.

Lemma number_size_unique : forall D n1 n2, 0 < D -> 10 ^ (n1 - 1) <= D < 10 ^ n1 -> 10 ^ (n2 - 1) <= D < 10 ^ n2 -> n1 = n2.
Proof.
  assert (A : forall D n1 n2, 0 < D -> n1 < n2 -> D < 10 ^ n1 -> 10 ^ (n2 - 1) <= D -> False).
  { intros D n1 n2 P L H1 H2. assert (10 ^ n1 <= 10 ^ (n2 - 1)) by (apply Z.pow_le_mono_r; lia). lia. }
  intros D n1 n2 P [H1 H2] [H3 H4]. destruct (Z.lt_trichotomy n1 n2) as [L|[E|L]]; [|assumption|].
  - exfalso. now apply (A D n1 n2).
  - exfalso. now apply (A D n2 n1).
Qed.

(** * C01 *)

(** [rule] is any tie-breaking rule: the printed number is no tie. *)
Theorem C01_reads_back : forall t v m, nonzero t v -> well_formed m -> prints t v (written m) ->
  (midpoint_below t v < abs_value m < midpoint_above t v)%R /\
  (forall rule, round radix2 (FLT_exp (min_exp t) (precision t)) (Znearest rule) (value m) = real_of t v) /\
  correctly_rounded t (is_minus (n_sign m)) (value m) v.
Proof.
  intros t v m H W P.
  destruct (printed t v m H W P) as (ds & K & lo & hi & A1 & A2 & A3 & A4 & A5 & A6 & A7 & A8 & A9 & A10 & A11 & A12 & Em).
  assert (V : abs_value m = (IZR (dval ds) * pow10 K)%R) by (rewrite Em; now apply shown_value).
  assert (S : n_sign m = sign_of t v) by (rewrite Em; apply shown_sign).
  pose proof (midpoint_below_mminus t v) as B. pose proof (midpoint_above_mplus t v) as U.
  assert (I : (midpoint_below t v < abs_value m < midpoint_above t v)%R) by (rewrite V, U; lra).
  pose proof (nonzero_significand t v H) as Hs.
  assert (R : forall rule, round radix2 (FLT_exp (min_exp t) (precision t)) (Znearest rule) (value m) = real_of t v).
  { assert (Q : forall rule, round radix2 (fexp t) (Znearest rule) (abs_value m) = magnitude t v).
    { intros rule. destruct I as [I1 I2]. apply Rle_antisym.
      - apply round_N_le_midp; [apply fexp_valid|apply format_mag|].
        rewrite succ_mag by assumption. unfold midpoint_above in I2. lra.
      - apply round_N_ge_midp; [apply fexp_valid|apply format_mag|].
        rewrite pred_mag by assumption. unfold midpoint_below in I1. lra. }
    intros rule. unfold value, real_of. rewrite S. unfold sign_of.
    destruct (sign_field t v =? 1); cbn [is_minus]; [|apply Q].
    rewrite round_N_opp. f_equal. apply Q. }
  split; [assumption|]. split; [assumption|].
  left. pose proof (R (fun z => negb (Z.even z))) as RE. unfold rnd. rewrite RE.
  split.
  { unfold real_of. pose proof (magnitude_lt_max t v (proj1 H)). pose proof (magnitude_nonneg t v).
    destruct (_ =? 1); [rewrite Rabs_Ropp|]; rewrite Rabs_pos_eq by assumption; assumption. }
  split; [apply H|]. split; [reflexivity|].
  rewrite S. unfold negative, sign_of.
  destruct (Z.eqb_spec (sign_field t v) 1); cbn [is_minus]; split; congruence.
Qed.

(** * C02, C03 *)

Lemma dchars_no_nul : forall ds, Forall digit ds -> ~ In 0 (dchars ds).
Proof.
  intros ds H I. apply in_map_iff in I as (d & E & I). rewrite Forall_forall in H. specialize (H d I).
  unfold digit in H. change (code "0") with 48 in E. lia.
Qed.

Lemma text_no_nul : forall s, ~ In 0 (sign_text s).
Proof. destruct s; cbn; intuition discriminate. Qed.

Lemma written_no_nul : forall m, well_formed m -> ~ In 0 (written m).
Proof.
  intros m (W1 & W2 & _ & W3). unfold written, mantissa_text, exponent_text, frac_digits in *. rewrite !in_app_iff.
  intros [[I|[I|I]]|I].
  - now apply text_no_nul in I.
  - now apply dchars_no_nul in I.
  - destruct (n_frac m); [|contradiction]. apply in_app_iff in I as [I|I]; [cbn in I; destruct I; [discriminate|contradiction]|].
    now apply dchars_no_nul in I.
  - destruct (n_exp m) as [x|]; [|contradiction]. rewrite !in_app_iff in I. destruct I as [I|[I|I]].
    + destruct (x_upper x); cbn in I; destruct I; (discriminate || contradiction).
    + now apply text_no_nul in I.
    + destruct W3 as [W3 _]. now apply dchars_no_nul in I.
Qed.

Lemma prints_something : forall t v, pattern t v ->
  exists s, prints t v s /\ ~ In 0 s /\ zlen s <= match t with Float => 19 | Double => 24 end.
Proof.
  intros t v H. destruct (classify t v H) as [C|[C|[C|C]]].
  - exists (text "nan"). split; [now apply ftoa_nan|]. split; [cbn; intuition discriminate|destruct t; cbn; lia].
  - exists (if sign_field t v =? 1 then text "-inf" else text "inf"). split; [now apply ftoa_inf|].
    destruct (_ =? 1); (split; [cbn; intuition discriminate|destruct t; cbn; lia]).
  - exists (text "0"). split; [now apply ftoa_zero|]. split; [cbn; intuition discriminate|destruct t; cbn; lia].
  - destruct (ftoa_finite t v C) as (ds & K & lo & hi & A1 & A2 & A3 & A4 & A5 & A6 & A7 & A8 & A9 & A10 & A11).
    assert (HK : -500 <= K <= 500) by (clear - A5; destruct t; cbn [kmin kmax] in A5; lia).
    assert (Hn : zlen ds <= 17) by (clear - A4; destruct t; cbn [max_sig] in A4; lia).
    exists (written (shown (sign_of t v) ds K)). split; [assumption|]. split; [|assumption].
    apply written_no_nul. now apply shown_wf.
Qed.

Theorem C02_no_fault : forall t v buf, pattern t v ->
  max_buffer_size (fmt_of t) <= Z.of_nat (length buf) ->
  exists buf' n, ftoa (fmt_of t) v buf = Ok (buf', n) /\ length buf' = length buf.
Proof.
  intros t v buf H L. destruct (prints_something t v H) as (s & P & _ & B).
  exists (s ++ 0 :: skipn (S (length s)) buf), (Z.of_nat (length s)). split; [now apply P|].
  rewrite app_length. cbn [length]. rewrite skipn_length.
  assert (length s < length buf)%nat; [|lia].
  unfold zlen in B. destruct t; [change (max_buffer_size (fmt_of Float)) with 24 in L|change (max_buffer_size (fmt_of Double)) with 34 in L]; lia.
Qed.

Theorem C03_frame : forall t v, pattern t v ->
  exists s, ~ In 0 s /\
  forall buf, max_buffer_size (fmt_of t) <= Z.of_nat (length buf) ->
    ftoa (fmt_of t) v buf = Ok (s ++ 0 :: skipn (length s + 1) buf, Z.of_nat (length s)).
Proof.
  intros t v H. destruct (prints_something t v H) as (s & P & N & _). exists s. split; [assumption|].
  intros buf L. rewrite (P buf L). do 4 f_equal. f_equal. lia.
Qed.

(** * C04, C09 *)

Theorem C04_grammar : forall t v, nonzero t v ->
  exists m, prints t v (written m) /\ well_formed m /\
    n_sign m <> Plus /\ n_int m <> [] /\ n_frac m <> Some [] /\
    match n_exp m with
    | None => True
    | Some x => x_upper x = false /\ x_sign x <> Plus /\ (length (x_digits x) = 2 \/ length (x_digits x) = 3)%nat
    end.
Proof.
  intros t v C. destruct (ftoa_finite t v C) as (ds & K & lo & hi & A1 & A2 & A3 & A4 & A5 & A6 & A7 & A8 & A9 & A10 & A11).
  assert (HK : -500 <= K <= 500) by (clear - A5; destruct t; cbn [kmin kmax] in A5; lia).
  assert (Hn : zlen ds <= 17) by (clear - A4; destruct t; cbn [max_sig] in A4; lia).
  exists (shown (sign_of t v) ds K). split; [assumption|]. split; [now apply shown_wf|].
  rewrite shown_sign. split; [unfold sign_of; destruct (_ =? 1); discriminate|].
  pose proof (ds_nonempty ds A2) as N.
  destruct (shown_cases (sign_of t v) ds K A1 A2 A3 Hn HK) as
    [(H & d & ds' & E & H1 & H2 & H3)|(H & H3 & [(H0 & H1 & H2)|[(H0 & a & b & E & La & Lb & H1 & H2)|(H0 & H00 & H1 & H2)]])];
    rewrite H1, H2, H3.
  - split; [discriminate|]. split.
    + rewrite E. rewrite zlen_cons. destruct (Z.ltb_spec 1 (1 + zlen ds')) as [L|L]; [|discriminate].
      destruct ds'; [cbn in L; lia|discriminate].
    + cbn [x_upper x_sign x_digits]. split; [reflexivity|]. split; [destruct (_ <? 0); discriminate|].
      destruct (exp_digits_ok (Z.abs (zlen ds + K - 1))) as (_ & _ & Q); [lia|]. tauto.
  - split; [|split; [discriminate|trivial]]. destruct ds; [cbn in N; lia|discriminate].
  - split; [|split; [|trivial]].
    + intros C'. rewrite C' in La. cbn in La. lia.
    + intros C'. injection C' as C'. rewrite C' in Lb. cbn in Lb. lia.
  - split; [discriminate|]. split; [|trivial]. intros C'. injection C' as C'. apply app_eq_nil in C' as [_ C'].
    rewrite C' in N. cbn in N. lia.
Qed.

(** Leading zeros: only the single zero of [0.ddd]; trailing zeros: only in an integer. *)
Theorem C09_no_redundant_digits : forall t v m, nonzero t v -> well_formed m -> prints t v (written m) ->
  (n_int m = [0] \/ hd 0 (n_int m) <> 0) /\
  (forall f, n_frac m = Some f -> last f 0 <> 0) /\
  (forall x, n_exp m = Some x ->
     hd 0 (n_int m) <> 0 /\ (length (x_digits x) = 2%nat \/ length (x_digits x) = 3%nat /\ hd 0 (x_digits x) <> 0)).
Proof.
  intros t v m C W P.
  destruct (printed t v m C W P) as (ds & K & lo & hi & A1 & A2 & A3 & A4 & A5 & A6 & A7 & A8 & A9 & A10 & Hn & HK & Em).
  pose proof (ds_nonempty ds A2) as N. unfold last_nonzero in A3.
  pose proof (shown_cases (sign_of t v) ds K A1 A2 A3 Hn HK) as SC. rewrite <- Em in SC.
  destruct SC as
    [(H & d & ds' & E & H1 & H2 & H3)|(H & H3 & [(H0 & H1 & H2)|[(H0 & a & b & E & La & Lb & H1 & H2)|(H0 & H00 & H1 & H2)]])];
    rewrite H1, H2, H3.
  - subst ds. cbn [hd] in A2. pose proof (zlen_nonneg ds') as N0. rewrite zlen_cons in *. split; [right; exact A2|]. split.
    + intros f. destruct (Z.ltb_spec 1 (1 + zlen ds')) as [L|L]; [|discriminate]. intros Q. injection Q as <-.
      destruct ds' as [|d' ds']; [cbn in L; lia|]. exact A3.
    + intros x Q. injection Q as <-. cbn [x_digits hd]. split; [assumption|].
      destruct (exp_digits_ok (Z.abs (1 + zlen ds' + K - 1))) as (_ & _ & Q); [lia|exact Q].
  - split; [right; destruct ds; [cbn in N; lia|exact A2]|]. split; discriminate.
  - split; [|split; [|discriminate]].
    + right. destruct a as [|a0 a]; [cbn in La; lia|]. rewrite E in A2. exact A2.
    + intros f Q. injection Q as <-. rewrite E in A3. rewrite last_app_nonempty in A3; [assumption|].
      intros C'. rewrite C' in Lb. cbn in Lb. lia.
  - split; [left; reflexivity|]. split; [|discriminate].
    intros f Q. injection Q as <-. rewrite last_app_nonempty; [assumption|]. now apply ne_of_hd.
Qed.

(** * C05 *)

Theorem C05_special_values : forall t v, pattern t v ->
  (nan t v -> prints t v (text "nan")) /\
  (v = infinity_of t false -> prints t v (text "inf")) /\
  (v = infinity_of t true -> prints t v (text "-inf")) /\
  (v = zero_of t false -> prints t v (text "0")) /\
  (v = zero_of t true -> prints t v (text "0")).
Proof.
  intros t v H. split; [apply ftoa_nan|].
  split; [|split; [|split]]; intros ->.
  - replace (text "inf") with (if sign_field t (infinity_of t false) =? 1 then text "-inf" else text "inf") by (destruct t; reflexivity).
    apply ftoa_inf. split; [assumption|]. destruct t; split; reflexivity.
  - replace (text "-inf") with (if sign_field t (infinity_of t true) =? 1 then text "-inf" else text "inf") by (destruct t; reflexivity).
    apply ftoa_inf. split; [assumption|]. destruct t; split; reflexivity.
  - apply ftoa_zero. split; [assumption|]. destruct t; split; reflexivity.
  - apply ftoa_zero. split; [assumption|]. destruct t; split; reflexivity.
Qed.

(** * C06 *)

Theorem C06_sign_printed : forall t v s, pattern t v -> prints t v s ->
  hd 0 s = code "-" <-> negative t v /\ ~ zero t v /\ ~ nan t v.
Proof.
  intros t v s H P. destruct (classify t v H) as [C|[C|[C|C]]].
  - rewrite (prints_unique t v s (text "nan") P (ftoa_nan t v C)). split; [discriminate|tauto].
  - rewrite (prints_unique t v s _ P (ftoa_inf t v C)). unfold negative.
    assert (~ zero t v) by (intros (_ & Q & _); destruct C as (_ & C & _); rewrite C in Q; destruct t; discriminate).
    assert (~ nan t v) by (intros (_ & _ & Q); destruct C as (_ & _ & C); tauto).
    destruct (Z.eqb_spec (sign_field t v) 1); split; intros; try tauto; discriminate.
  - rewrite (prints_unique t v s (text "0") P (ftoa_zero t v C)). split; [discriminate|tauto].
  - destruct (ftoa_finite t v C) as (ds & K & lo & hi & A1 & A2 & A3 & A4 & A5 & A6 & A7 & A8 & A9 & A10 & A11).
    assert (HK : -500 <= K <= 500) by (clear - A5; destruct t; cbn [kmin kmax] in A5; lia).
    assert (Hn : zlen ds <= 17) by (clear - A4; destruct t; cbn [max_sig] in A4; lia).
    rewrite (prints_unique t v s _ P A10).
    assert (~ nan t v) by (intros (_ & Q & _); apply (proj2 (proj1 C)); assumption).
    pose proof (proj2 C). unfold negative.
    rewrite written_body, shown_sign. unfold sign_of.
    destruct (Z.eqb_spec (sign_field t v) 1); cbn [sign_text].
    + split; [tauto|reflexivity].
    + split; [|tauto]. cbn [app]. intros Q. exfalso.
      destruct (shown_wf NoSign ds K A1 A2 A3 Hn HK) as (W1 & W2 & W3 & _).
      unfold body in Q.
      pose proof (shown_cases NoSign ds K A1 A2 A3 Hn HK) as SC.
      assert (NI : n_int (shown NoSign ds K) <> []).
      { pose proof (ds_nonempty ds A2).
        destruct SC as
    [(H' & d & ds' & E & Hi & Hf & Hx)|(H' & Hx & [(H0' & Hi & Hf)|[(H0' & a & b & E & La & Lb & Hi & Hf)|(H0' & H00 & Hi & Hf)]])];
          rewrite Hi; try discriminate; intros C'.
        - apply app_eq_nil in C' as [C' _]. rewrite C' in A2. cbn in A2. congruence.
        - rewrite C' in La. cbn in La. lia. }
      destruct (n_int (shown NoSign ds K)) as [|d l]; [congruence|]. cbn [dchars map app hd] in Q.
      inversion_clear W1 as [|? ? D _]. unfold digit in D. change (code "0") with 48 in Q. change (code "-") with 45 in Q. lia.
Qed.
