(** Numbers of any length: how far the scaled integer is from the value. *)
From Coq Require Import Reals Lra Lia ZArith List String Ascii.
From Flocq Require Import Core.
From Verif Require Import Machine MachineFacts BitOps StaticPow Fraction Format DiyFp KComp Krosh Atof Spec ParseSpec Instances
  DiyFacts BoundFacts TableFacts GrisuFacts FtoaFacts RoundFacts DownFacts DvalFacts CmpFacts ArithProps ScanFacts LoopFacts ParseFacts GapFacts KroshNum ShortFacts FracFacts.
Open Scope Z_scope.

(** the prefix of the digits read before the fraction was taken *)
Lemma zeros_split : forall D P z, Forall digit D -> dval D = P * 10 ^ z -> 0 <= z <= zlen D ->
  exists A B, D = A ++ B /\ zlen B = z /\ dval B = 0 /\ dval A = P.
Proof.
  intros D P z HD E Hz. unfold zlen in Hz.
  exists (firstn (List.length D - Z.to_nat z) D), (skipn (List.length D - Z.to_nat z) D).
  set (A := firstn _ D). set (B := skipn _ D). assert (ED : D = A ++ B) by (symmetry; apply firstn_skipn).
  assert (LB : zlen B = z). { unfold zlen, B. rewrite skipn_length. lia. }
  split; [exact ED|]. split; [exact LB|].
  rewrite ED, dval_app, LB in E. rewrite ED in HD. apply Forall_app in HD as [HA HB].
  pose proof (dval_bounds B HB) as B1. rewrite LB in B1. pose proof (pow10_pos z ltac:(lia)).
  assert (dval B = (P - dval A) * 10 ^ z) by lia.
  assert (P - dval A = 0) by nia. split; nia.
Qed.

Lemma same_split : forall N P t R t' R', 0 < P -> 0 <= t -> 0 <= t' ->
  N = P * 10 ^ t + R -> 0 <= R < 10 ^ t -> N = P * 10 ^ t' + R' -> 0 <= R' < 10 ^ t' -> t = t' /\ R = R'.
Proof.
  assert (X : forall N P t R t' R', 0 < P -> 0 <= t -> 0 <= t' ->
    N = P * 10 ^ t + R -> 0 <= R < 10 ^ t -> N = P * 10 ^ t' + R' -> 0 <= R' < 10 ^ t' -> t < t' -> False).
  { intros N P t R t' R' HP Ht Ht' E1 B1 E2 B2 L. assert (10 ^ (t + 1) <= 10 ^ t') by (apply Z.pow_le_mono_r; lia).
    rewrite pow10_succ in H by lia. pose proof (pow10_pos t Ht). nia. }
  intros N P t R t' R' HP Ht Ht' E1 B1 E2 B2.
  assert (t = t').
  { destruct (Z.lt_trichotomy t t') as [L|[L|L]]; [exfalso; exact (X N P t R t' R' HP Ht Ht' E1 B1 E2 B2 L)|assumption|exfalso; exact (X N P t' R' t R HP Ht' Ht E2 B2 E1 B1 L)]. }
  subst t'. split; [reflexivity|lia].
Qed.

(** what is known about a parsed number of any length *)
Lemma long_scan : forall t n c rest st, well_formed n -> ends_number c -> parsed t n (written n ++ c :: rest) st -> coefficient n <> 0 ->
  let P := dval (pd_digits st) in let frac := pd_frac st in
  exists rho, abs_value n = ((IZR P + rho) * pow10 (power_of n st))%R /\ (0 <= rho < 1)%R /\
    0 < P < 10 ^ exact_digits t /\ 0 <= frac <= 127 /\
    ((frac = 0 /\ rho = 0%R) \/
     (10 ^ (exact_digits t - 1) <= P /\ (- (108 / 1000) <= IZR frac / 128 - rho <= 1 / 10000)%R)).
Proof.
  intros t n c rest st W Hc Hp CN P frac. pose proof W as (W1 & W2 & _).
  pose proof (scan_value _ _ _ _ _ _ Hp) as (t0 & R0 & T1 & T2 & T3 & T4 & T5).
  destruct Hp as (_ & _ & _ & _ & _ & D1 & D2 & D3 & D4 & H).
  unfold coefficient in CN. rewrite frac_odig in CN.
  fold P in T2, T4, T5.
  assert (PP : 0 < P). { pose proof (dval_bounds _ D1). fold P in H0. destruct (Z.eq_dec P 0) as [Z0|]; [|lia]. destruct (T5 Z0). congruence. }
  assert (VR : abs_value n = ((IZR P + IZR R0 / pow10 t0) * pow10 (power_of n st))%R).
  { unfold abs_value, coefficient, scale, power_of. rewrite frac_odig, T2. fold (zlen (odig (n_frac n))).
    rewrite plus_IZR, mult_IZR, pow10_IZR by lia.
    replace (exponent_value n - zlen (odig (n_frac n))) with (pd_pow_gain st - pd_fraction_count st + exponent_value n - t0) by lia.
    set (k := pd_pow_gain st - pd_fraction_count st + exponent_value n). unfold Z.sub. rewrite bpow_plus, bpow_opp.
    pose proof (bpow_gt_0 radix10 t0). field. lra. }
  pose proof (bpow_gt_0 radix10 t0) as P0.
  assert (RB : (0 <= IZR R0 / pow10 t0 < 1)%R).
  { assert (0 <= IZR R0)%R by (apply IZR_le; lia). assert (IZR R0 < pow10 t0)%R by (rewrite <- pow10_IZR by lia; apply IZR_lt; lia).
    split; [apply Rmult_le_pos; [assumption|left; now apply Rinv_0_lt_compat]|].
    apply Rmult_lt_reg_r with (pow10 t0); [assumption|]. unfold Rdiv. rewrite Rmult_assoc, Rinv_l by lra. lra. }
  exists (IZR R0 / pow10 t0)%R. split; [exact VR|]. split; [exact RB|].
  pose proof (dval_bounds _ D1) as BP. fold P in BP.
  assert (KP : 0 < exact_digits t) by (destruct t; cbn; lia).
  assert (Pup : 0 < P < 10 ^ exact_digits t).
  { split; [assumption|]. apply Z.lt_le_trans with (1 := proj2 BP). apply Z.pow_le_mono_r; [lia|]. rewrite exact_digits_eq in H.
    destruct H as [(E & _)|[(E & H & _)|(E & _)]]; [rewrite E, zlen_nil; lia|lia|lia]. }
  split; [exact Pup|].
  assert (Short : forall z, dval (n_int n ++ odig (n_frac n)) = P * 10 ^ z -> 0 <= z -> (IZR R0 / pow10 t0 = 0)%R).
  { intros z E Z0. assert (R0 = 0); [|subst; unfold Rdiv; ring].
    destruct (same_split _ P t0 R0 z 0 PP T1 Z0 T2 T3 (eq_trans E (eq_sym (Z.add_0_r _)))) as [_ Q]; [|exact Q].
    pose proof (pow10_pos z Z0). lia. }
  rewrite exact_digits_eq in H.
  destruct H as [(E & H1 & _)|[(E & H1 & H2 & H3 & H4 & H5 & H6 & H7 & H8)|(E & H1 & tt & R & H2 & H3 & H4 & H5 & H6)]].
  - congruence.
  - unfold frac. rewrite H8. split; [lia|]. left. split; [reflexivity|]. apply (Short (pd_zeros st)); [exact H4|lia].
  - destruct H6 as [(G1 & G2 & G3 & G4 & G5)|(G1 & G2 & G3)].
    + unfold frac. rewrite G5. split; [lia|]. left. split; [reflexivity|]. apply (Short tt); [fold P in H3; lia|lia].
    + destruct G3 as (L1 & d & L2 & z1 & T & F1 & F2 & F3 & F4 & F5 & F6 & F7). fold P in F3. fold frac in F7.
      destruct (C25_fraction T F6) as [F8 F9]. rewrite <- F7 in F8, F9. split; [exact F8|]. right.
      split.
      { destruct (pd_digits st) as [|x l] eqn:Ed; [rewrite zlen_nil in E; lia|]. cbn [hd] in H1. rewrite zlen_cons in E.
        replace (exact_digits t - 1) with (zlen l) by lia. now apply dval_lower. }
      assert (DD : Forall digit (n_int n ++ odig (n_frac n))).
      { apply Forall_app. rewrite <- frac_odig. auto. }
      assert (DL1 : Forall digit L1) by (rewrite F1 in DD; apply Forall_app in DD; tauto).
      destruct (zeros_split L1 P z1 DL1 F3 F4) as (A & B & S1 & S2 & S3 & S4). subst L1 z1. rewrite <- app_assoc in F1.
      destruct (first_after_mantissa n c rest Hc) as (c' & r' & E' & N' & _).
      assert (Es : written n ++ c :: rest = mant (n_sign n) (n_int n) (n_frac n) ++ c' :: r').
      { unfold written. now rewrite <- app_assoc, E', mant_text. }
      pose proof (frac_text _ _ _ _ _ _ A B d L2 T Es N' W1 ltac:(rewrite <- frac_odig; exact W2) F1 S3 F5) as FT. cbv zeta in FT.
      set (RL := B ++ d :: L2) in *.
      assert (DRL : Forall digit RL) by (rewrite F1 in DD; apply Forall_app in DD; tauto).
      pose proof (dval_bounds RL DRL) as BRL.
      assert (EN : dval (n_int n ++ odig (n_frac n)) = P * 10 ^ zlen RL + dval RL) by (rewrite F1, dval_app, S4; reflexivity).
      destruct (same_split _ P t0 R0 (zlen RL) (dval RL) PP T1 (zlen_nonneg RL) T2 T3 EN BRL) as [Q1 Q2].
      rewrite <- Q1, <- Q2 in FT. rewrite Z.pow_add_r in FT by lia.
      destruct FT as [FT1 FT2]. destruct F9 as [F9 F10].
      apply IZR_le in FT1, F9, F10. apply IZR_lt in FT2.
      rewrite ?minus_IZR, ?mult_IZR in *. rewrite ?pow10_IZR in * by lia.
      change (pow10 4) with 10000%R in *. change (pow10 3) with 1000%R in *.
      set (a := (IZR R0 / pow10 t0)%R) in *.
      assert (Ea : IZR R0 = (a * pow10 t0)%R) by (unfold a; field; lra). rewrite Ea in FT1, FT2.
      assert (K1 : (0 <= a * 10000 - IZR T)%R).
      { apply Rmult_le_reg_r with (pow10 t0); [assumption|]. lra. }
      assert (K2 : (a * 10000 - IZR T < 1000)%R).
      { apply Rmult_lt_reg_r with (pow10 t0); [assumption|]. lra. }
      split; lra.
Qed.

(** * Every number text is converted without a fault *)

Lemma downsample_total : forall t f e, 2 ^ (width t - 1) <= f < 2 ^ width t ->
  exists r, downsample (fmt_of t) (mk_diy f e) = Ok r.
Proof.
  intros t f e Hf. pose proof (width_facts t) as W.
  destruct (Z.le_gt_cases (max_exp t) e) as [H1|H1].
  - unfold downsample, is_normalized. cbn [m_f m_e].
    pose proof (pow2_pos (width t - 1) ltac:(lia)) as PW.
    destruct (Z.eqb_spec f 0) as [?|_]; [lia|]. cbn [negb assert_ bind].
    unfold msb_value. rewrite fw_width, raised_bit_c_pow, land_single, negb_involutive by lia.
    rewrite testbit_top by (replace (width t - 1 + 1) with (width t) by lia; lia).
    destruct (Z.leb_spec (2 ^ (width t - 1)) f); [|lia]. cbn [assert_ bind].
    rewrite fmaxe_eq. cbv zeta. destruct (Z.leb_spec (max_exp t) e); [|lia]. eauto.
  - destruct (Z.le_gt_cases (min_exp t + 1) (e + width t)) as [H2|H2].
    + rewrite downsample_eval by lia. eauto.
    + unfold downsample, is_normalized. cbn [m_f m_e].
      pose proof (pow2_pos (width t - 1) ltac:(lia)) as PW.
      destruct (Z.eqb_spec f 0) as [?|_]; [lia|]. cbn [negb assert_ bind].
      unfold msb_value. rewrite fw_width, raised_bit_c_pow, land_single, negb_involutive by lia.
      rewrite testbit_top by (replace (width t - 1 + 1) with (width t) by lia; lia).
      destruct (Z.leb_spec (2 ^ (width t - 1)) f); [|lia]. cbn [assert_ bind].
      rewrite fmine_eq, fmaxe_eq, fdig_precision. cbv zeta. destruct (Z.leb_spec (max_exp t) e); [lia|].
      destruct (Z.ltb_spec (e + width t) (min_exp t + 1)); [|lia]. eauto.
Qed.

Lemma kr_finish_total : forall t neg se g e, 0 < g < 2 ^ width t -> -10000 <= e <= 10000 ->
  exists v st acc, kr_finish (fmt_of t) neg se (mk_diy g e)
    = Ok {| kr_value := v; kr_str_end := se; kr_status := st; kr_is_accurate := acc |}.
Proof.
  intros t neg se g e Hg He. unfold kr_finish.
  destruct (normalize_ok t g e Hg) as (n & N1 & N2 & N3); [lia|]. rewrite N3. cbn [bind].
  destruct (downsample_total t _ (e - n) N2) as (r & ->). cbn [bind]. eauto.
Qed.

Lemma kr_scale_total : forall t neg se K f e, 2 ^ (width t - 1) <= f < 2 ^ width t -> -100 <= e <= 100 ->
  exists v st acc, kr_scale (fmt_of t) neg se K (mk_diy f e)
    = Ok {| kr_value := v; kr_str_end := se; kr_status := st; kr_is_accurate := acc |}.
Proof.
  intros t neg se K f e Hf He. pose proof (width_facts t) as W.
  assert (EL : fpow_lo (fmt_of t) = - table_max t /\ fpow_hi (fmt_of t) = table_max t) by (destruct t; auto).
  destruct (Z.le_gt_cases (- table_max t) K) as [H1|H1]; [destruct (Z.le_gt_cases K (table_max t)) as [H2|H2]|].
  - destruct (kr_scale_ok t neg se K f e Hf He ltac:(lia)) as (q & x & S1 & S2 & S3 & _). rewrite S1.
    pose proof (pow2_pos (width t - 2) ltac:(lia)). apply kr_finish_total; lia.
  - unfold kr_scale. destruct EL as [-> ->]. assert (0 <= table_max t) by (destruct t; cbn; lia).
    destruct (Z.eqb_spec K 0); [lia|]. destruct (Z.leb_spec (- table_max t) K); [|lia].
    destruct (Z.leb_spec K (table_max t)); [lia|]. eauto.
  - unfold kr_scale. destruct EL as [-> ->]. assert (0 <= table_max t) by (destruct t; cbn; lia).
    destruct (Z.eqb_spec K 0); [lia|]. destruct (Z.leb_spec (- table_max t) K); [lia|]. eauto.
Qed.

Lemma width_digits : forall t, 10 ^ exact_digits t < 2 ^ width t.
Proof. intros t. apply Z.ltb_lt. destruct t; vm_compute; reflexivity. Qed.

(** the mantissa of a number with a non-zero digit *)
Lemma long_mantissa : forall t n c rest st, well_formed n -> ends_number c -> parsed t n (written n ++ c :: rest) st -> coefficient n <> 0 ->
  exists f e M, kr_mantissa (fmt_of t) (dval (pd_digits st)) (pd_frac st) = Ok (mk_diy f e) /\
    2 ^ (width t - 1) <= f < 2 ^ width t /\ -100 <= e <= 100 /\
    abs_value n = (M * pow10 (power_of n st))%R /\ (1 <= M < IZR (10 ^ exact_digits t))%R /\
    (Rabs (IZR f * bpow radix2 e - M) <= (/ 2 + 108 / 1000 * IZR (2 ^ frac_shift t)) * bpow radix2 e)%R.
Proof.
  intros t n c rest st W Hc Hp CN. pose proof (width_facts t) as Ww.
  destruct (long_scan t n c rest st W Hc Hp CN) as (rho & V & Rb & Pb & Fb & FF). set (P := dval (pd_digits st)) in *. set (frac := pd_frac st) in *.
  pose proof (width_digits t) as WD.
  destruct (kr_mantissa_ok t P frac ltac:(lia) Fb) as (nn & f & e & N1 & N2 & N3 & N4 & N5 & N6).
  { destruct FF as [[F0 _]|[F0 _]]; auto. }
  exists f, e, (IZR P + rho)%R. split; [exact N3|]. split; [exact N4|]. split; [lia|]. split; [exact V|].
  split.
  { split; [pose proof (IZR_le 1 P ltac:(lia)); lra|].
    assert (IZR P + 1 <= IZR (10 ^ exact_digits t))%R by (rewrite <- plus_IZR; apply IZR_le; lia). lra. }
  rewrite N6. pose proof (bpow_gt_0 radix2 (- nn)) as Pn.
  assert (Le : (bpow radix2 (- nn) <= bpow radix2 e)%R) by (apply bpow_le; lia).
  assert (Q : (0 <= / 2 + 108 / 1000 * IZR (2 ^ frac_shift t))%R).
  { assert (0 <= IZR (2 ^ frac_shift t))%R by (apply IZR_le; destruct t; vm_compute; discriminate). lra. }
  apply Rle_trans with ((/ 2 + 108 / 1000 * IZR (2 ^ frac_shift t)) * bpow radix2 (- nn))%R; [|apply Rmult_le_compat_l; assumption].
  destruct FF as [[F0 R0]|[F0 R0]].
  - rewrite F0, R0. cbn [Z.eqb]. replace (IZR P + 0 * bpow radix2 (- nn) - (IZR P + 0))%R with 0%R by ring. rewrite Rabs_R0.
    apply Rmult_le_pos; [assumption|lra].
  - specialize (N2 F0).
    (* 2^nn <= 2^frac_shift *)
    assert (Sh : (IZR (2 ^ nn) * bpow radix2 (- nn) = 1)%R).
    { rewrite <- (bpow_IZR radix2) by lia. rewrite <- bpow_plus. replace (nn + - nn) with 0 by lia. reflexivity. }
    assert (Sh2 : (IZR (2 ^ nn) <= IZR (2 ^ frac_shift t))%R) by (apply IZR_le, Z.pow_le_mono_r; lia).
    assert (One : (1 <= IZR (2 ^ frac_shift t) * bpow radix2 (- nn))%R).
    { rewrite <- Sh. apply Rmult_le_compat_r; lra. }
    destruct (Z.eqb_spec frac 0) as [Z0|Z0].
    + rewrite Z0 in R0. replace (IZR P + 0 * bpow radix2 (- nn) - (IZR P + rho))%R with (- rho)%R by ring.
      rewrite Rabs_Ropp, Rabs_pos_eq by lra. rewrite Rmult_plus_distr_r, Rmult_assoc. lra.
    + assert (nn <= 5) by (destruct t; cbn [frac_shift] in *; lia).
      pose proof (half_even_error frac (7 - nn) ltac:(lia)) as [E1 E2].
      set (h := half_even frac (7 - nn)) in *.
      assert (X1 : (IZR (2 ^ (7 - nn)) = 128 * bpow radix2 (- nn))%R).
      { rewrite <- (bpow_IZR radix2) by lia. unfold Z.sub. rewrite bpow_plus. reflexivity. }
      assert (X2 : (IZR (2 ^ (7 - nn - 1)) = 64 * bpow radix2 (- nn))%R).
      { rewrite <- (bpow_IZR radix2) by lia. replace (7 - nn - 1) with (6 + - nn) by lia. rewrite bpow_plus. reflexivity. }
      apply IZR_le in E1, E2. rewrite opp_IZR, minus_IZR, mult_IZR, X1, X2 in E1. rewrite minus_IZR, mult_IZR, X1, X2 in E2.
      rewrite Rmult_plus_distr_r, Rmult_assoc. set (b := bpow radix2 (- nn)) in *.
      apply Rabs_le. split; lra.
Qed.

(** C28 at the level of [krosh] *)
Lemma krosh_consumes : forall t n c rest, well_formed n -> ends_number c -> within_limits n -> readable_exponent n -> coefficient n <> 0 ->
  exists v st acc, krosh (fmt_of t) (written n ++ c :: rest)
    = Ok {| kr_value := v; kr_str_end := zlen (written n); kr_status := st; kr_is_accurate := acc |}.
Proof.
  intros t n c rest W Hc L SE CN. pose proof (width_facts t) as Ww.
  destruct (krosh_numeral t n c rest W Hc L) as (st & Hp & _ & HK). specialize (HK CN SE).
  destruct (long_mantissa t n c rest st W Hc Hp CN) as (f & e & M & M1 & M2 & M3 & _).
  pose proof (pow2_pos (width t - 1) ltac:(lia)).
  rewrite (HK _ M1) by (cbn [m_f]; lia). apply kr_scale_total; assumption.
Qed.

(** * Any length, away from the rounding boundaries *)

Definition long_delta (t : ftype) : R := (/ 2 + 108 / 1000 * IZR (2 ^ frac_shift t) + 1)%R.

Lemma long_delta_facts : forall t, (0 < long_delta t)%R /\ (long_delta t <= bpow radix2 (width t - 4 - precision t))%R /\
  (long_delta t * bpow radix2 (precision t + 1 - width t) <= any_length_margin t)%R.
Proof.
  intros t. unfold long_delta, any_length_margin.
  destruct t; cbn [frac_shift width precision].
  - change (2 ^ 5) with 32. change (bpow radix2 (32 - 4 - 24)) with 16%R. change (bpow radix2 (24 + 1 - 32)) with (/ 128)%R. lra.
  - change (2 ^ 4) with 16. change (bpow radix2 (64 - 4 - 53)) with 128%R. change (bpow radix2 (53 + 1 - 64)) with (/ 1024)%R. lra.
Qed.

Lemma long_power_range : forall t M K, (1 <= M < IZR (10 ^ exact_digits t))%R ->
  (bpow radix2 (min_exp t) <= M * pow10 K)%R -> (M * pow10 K < bpow radix2 (max_exp t))%R ->
  (t = Float -> (pow10 (-42) <= M * pow10 K)%R) -> - table_max t <= K <= table_max t.
Proof.
  intros t M K HM H1 H2 H3. pose proof (bpow_gt_0 radix10 K) as PK.
  assert (KX : 0 <= exact_digits t) by (destruct t; cbn; lia). rewrite pow10_IZR in HM by assumption.
  assert (Up : (M * pow10 K < pow10 (K + exact_digits t))%R).
  { rewrite bpow_plus, Rmult_comm. apply Rmult_lt_compat_l; lra. }
  assert (Dn : (pow10 K <= M * pow10 K)%R).
  { rewrite <- (Rmult_1_l (pow10 K)) at 1. apply Rmult_le_compat_r; lra. }
  destruct t; cbn [table_max exact_digits width min_exp max_exp] in *.
  - assert (-42 < K + 9) by (apply (lt_bpow radix10); specialize (H3 eq_refl); lra).
    assert (K < 39); [|lia]. apply (lt_bpow radix10). apply Rlt_trans with (bpow radix2 128); [lra|].
    rewrite <- (Rmult_1_l (bpow radix2 128)), <- (Rmult_1_l (pow10 39)). apply bin_lt_dec. vm_compute. reflexivity.
  - pose proof (min_gt_10 Double) as A. pose proof (max_lt_10 Double) as B. cbn [min_exp max_exp] in A, B.
    assert (-324 < K + 19) by (apply (lt_bpow radix10); lra).
    assert (K < 309) by (apply (lt_bpow radix10); lra). lia.
Qed.

(** The same for every text of which the parser has read the digits, up to [se]. *)
Lemma long_core : forall t n c rest st se, well_formed n -> ends_number c -> coefficient n <> 0 ->
  parsed t n (written n ++ c :: rest) st ->
  (forall w, kr_mantissa (fmt_of t) (dval (pd_digits st)) (pd_frac st) = Ok w -> m_f w <> 0 ->
     krosh (fmt_of t) (written n ++ c :: rest) = kr_scale (fmt_of t) (is_minus (n_sign n)) se (power_of n st) w) ->
  in_range t (value n) -> ~ carries t (value n) -> ~ just_above_power t (any_length_margin t) (value n) ->
  clear_of_ties t (any_length_margin t) (value n) -> (t = Float -> (pow10 (-42) <= Rabs (value n))%R) ->
  exists v, krosh (fmt_of t) (written n ++ c :: rest)
      = Ok {| kr_value := v; kr_str_end := se; kr_status := success; kr_is_accurate := true |} /\
    correctly_rounded t (is_minus (n_sign n)) (value n) v.
Proof.
  intros t n c rest st se W Hc CN Hp HK R NC NJ CT HF. pose proof (width_facts t) as Ww.
  destruct (long_mantissa t n c rest st W Hc Hp CN) as (f & e & M & M1 & M2 & M3 & M4 & M5 & M6).
  pose proof (pow2_pos (width t - 1) ltac:(lia)) as PW. pose proof (pow2_pos (width t - 2) ltac:(lia)) as PW2.
  destruct R as [R1 R2]. rewrite rnd_value_abs in R2 by assumption. rewrite value_abs in R1 by assumption.
  rewrite carries_abs in NC by assumption. rewrite clear_abs in CT by assumption. rewrite value_abs in HF by assumption.
  assert (NJ' : ~ just_above_power t (any_length_margin t) (abs_value n)).
  { intros (k & J1 & J2). apply NJ. exists k. split; [exact J1|]. rewrite value_abs by assumption.
    rewrite Rabs_pos_eq in J2 by (now apply abs_value_nonneg). exact J2. }
  clear NJ. pose proof (abs_value_nonneg n W) as Y0. set (y := abs_value n) in *.
  pose proof (rnd_small t y Y0 R2) as Y1.
  assert (HKt : - table_max t <= power_of n st <= table_max t).
  { apply long_power_range with M; try assumption; rewrite <- M4; assumption. }
  destruct (kr_scale_ok t (is_minus (n_sign n)) se _ f e M2 M3 HKt) as (q & x & S1 & S2 & S3 & S4).
  destruct (long_delta_facts t) as (D1 & D2 & D3).
  specialize (S4 M _ M6). rewrite <- M4 in S4. fold (long_delta t) in S4.
  specialize (S4 ltac:(assert (0 <= IZR (2 ^ frac_shift t))%R by (apply IZR_le; destruct t; vm_compute; discriminate); lra)).
  set (z := (IZR q * bpow radix2 x)%R) in *.
  pose proof (bpow_gt_0 radix2 x) as Px.
  assert (Zlow : (bpow radix2 (width t - 2 + x) <= z)%R).
  { rewrite bpow_plus. unfold z. apply Rmult_le_compat_r; [lra|]. rewrite (bpow_IZR radix2) by lia. apply IZR_le. exact (proj1 S2). }
  assert (Z0 : (0 <= z)%R) by (pose proof (bpow_gt_0 radix2 (width t - 2 + x)); lra).
  destruct (transfer_clear t z x y (long_delta t) (any_length_margin t) Zlow (conj D1 D2) S4 D3 Y0 CT R2) as [TR NT].
  pose proof (Rabs_def2 _ _ S4) as [S5 S6].
  (* below a power of two: then y is just above or below it *)
  assert (Close : forall k, min_exp t <= k -> (z < bpow radix2 k)%R -> (bpow radix2 k <= y)%R -> False).
  { intros k Hk A B. apply NJ'. exists k. split; [exact Hk|]. rewrite Rabs_pos_eq by assumption. split; [exact B|].
    assert (XK : width t - 2 + x < k) by (apply (lt_bpow radix2); lra).
    assert (XB : (bpow radix2 x <= bpow radix2 k * bpow radix2 (1 - width t))%R).
    { rewrite <- bpow_plus. apply bpow_le. lia. }
    assert (XM : (long_delta t * bpow radix2 (1 - width t) <= any_length_margin t * bpow radix2 (1 - precision t))%R).
    { apply Rle_trans with (long_delta t * bpow radix2 (precision t + 1 - width t) * bpow radix2 (1 - precision t))%R.
      - rewrite Rmult_assoc, <- bpow_plus. apply Rmult_le_compat_l; [lra|]. apply bpow_le. lia.
      - apply Rmult_le_compat_r; [apply bpow_ge_0|exact D3]. }
    assert (XD : (long_delta t * bpow radix2 x <= bpow radix2 k * (any_length_margin t * bpow radix2 (1 - precision t)))%R).
    { apply Rle_trans with (bpow radix2 k * (long_delta t * bpow radix2 (1 - width t)))%R.
      - apply Rle_trans with (long_delta t * (bpow radix2 k * bpow radix2 (1 - width t)))%R; [apply Rmult_le_compat_l; lra|].
        right. ring.
      - apply Rmult_le_compat_l; [apply bpow_ge_0|exact XM]. }
    lra. }
  destruct (kr_finish_ok t (is_minus (n_sign n)) se q x) as (v & acc & V1 & V2 & V3 & V4 & V5); try lia.
  { fold z. apply Rnot_lt_le. intros A. apply (Close (min_exp t)); [lia|exact A|exact R1]. }
  { fold z. rewrite TR. exact R2. }
  { fold z. intros C. apply carries_pos in C; [|assumption]. destruct C as (k & K1 & K2 & K3).
    destruct (Rle_or_lt (bpow radix2 k) y) as [B|B].
    - apply (Close k); [lia|exact K2|exact B].
    - apply NC. exists k. split; [exact K1|]. rewrite !Rabs_pos_eq; [|apply rnd_nonneg; lra|lra].
      split; [exact B|]. rewrite <- TR. exact K3. }
  fold z in V4, V5.
  assert (acc = true) as ->. { destruct acc; [reflexivity|]. exfalso. apply NT. now apply V5. }
  exists (apply_sign (fmt_of t) (negb (is_minus (n_sign n))) v). split.
  - rewrite (HK _ M1) by (cbn [m_f]; lia). now rewrite S1.
  - unfold value. fold y. apply signed_correct; auto. rewrite V4. exact TR.
Qed.

Theorem krosh_long : forall t n c rest, well_formed n -> ends_number c -> within_limits n ->
  in_range t (value n) -> ~ carries t (value n) -> ~ just_above_power t (any_length_margin t) (value n) ->
  clear_of_ties t (any_length_margin t) (value n) -> (t = Float -> (pow10 (-42) <= Rabs (value n))%R) ->
  exists v, krosh (fmt_of t) (written n ++ c :: rest)
      = Ok {| kr_value := v; kr_str_end := zlen (written n); kr_status := success; kr_is_accurate := true |} /\
    correctly_rounded t (is_minus (n_sign n)) (value n) v.
Proof.
  intros t n c rest W Hc L R NC NJ CT HF.
  destruct (range_small_exponent t n W L R) as [SE CN].
  destruct (krosh_numeral t n c rest W Hc L) as (st & Hp & _ & HK). specialize (HK CN SE).
  exact (long_core t n c rest st _ W Hc CN Hp HK R NC NJ CT HF).
Qed.
