(** The text of a float, read as a double and narrowed: C89. *)
From Coq Require Import Reals Lra Lia ZArith List String Ascii.
From Flocq Require Import Core Relative.
From Verif Require Import Machine MachineFacts BitOps StaticPow Fraction Format DiyFp KComp Chars Grisu Ftoa Krosh Atof Spec ParseSpec Api ParseApi Instances
  DiyFacts BoundFacts TableFacts GrisuFacts ShownFacts FtoaFacts RoundFacts WrittenFacts PrintProps PrintProps2 PrintProps3 DownFacts DvalFacts CmpFacts ArithProps ScanFacts LoopFacts ParseFacts GapFacts KroshNum ShortFacts FracFacts LongFacts ParseProps Refuted RoundTrip DigitGenFacts PrettifyFacts CutFacts Cut FineFacts.
Import ListNotations.
Open Scope Z_scope.

(** * No decimal number of nine digits is next to a power of two *)

Lemma bin_le_dec : forall d j f e, (bin_part f e j <=? dec_part d j e) = true ->
  (IZR f * bpow radix2 e <= IZR d * pow10 j)%R.
Proof.
  intros d j f e H. apply Z.leb_le in H. destruct (cmp_scaled d j f e) as [C1 C2]. pose proof (scale_pos j e) as P.
  apply Rmult_le_reg_r with (1 := P). rewrite C1, C2. now apply IZR_le.
Qed.

Definition far_from_power (k : Z) : bool :=
  let K0 := k * 30103 / 100000 - 8 in
  let d := (bin_part 1 k K0 - 1) / dec_part 1 K0 k in
  (dec_part (10 ^ 9 - 1) (K0 - 1) (k - 53) <? bin_part (2 ^ 53 - 1) (k - 53) (K0 - 1)) &&
  (bin_part 1 k (K0 + 1) <=? dec_part (10 ^ 8) (K0 + 1) k) &&
  (dec_part d K0 (k - 53) <? bin_part (2 ^ 53 - 1) (k - 53) K0) &&
  (bin_part 1 k K0 <=? dec_part (d + 1) K0 k).

Lemma far_from_power_all : forallb far_from_power (zrange (-150) 128) = true.
Proof. vm_compute. reflexivity. Qed.

Lemma nine_digits_far : forall k D K, -150 <= k <= 128 -> 10 ^ 8 <= D < 10 ^ 9 ->
  (bpow radix2 k <= IZR D * pow10 K \/ IZR D * pow10 K < (1 - bpow radix2 (-53)) * bpow radix2 k)%R.
Proof.
  intros k D K Hk HD. pose proof (zrange_forall _ _ _ far_from_power_all k Hk) as F. unfold far_from_power in F. cbv zeta in F.
  set (K0 := k * 30103 / 100000 - 8) in *. set (d := (bin_part 1 k K0 - 1) / dec_part 1 K0 k) in *. clearbody K0 d.
  apply andb_prop in F as [F F4]. apply andb_prop in F as [F F3]. apply andb_prop in F as [F1 F2].
  apply dec_lt_bin in F1, F3. apply bin_le_dec in F2, F4. rewrite Rmult_1_l in F2, F4.
  assert (E : (IZR (2 ^ 53 - 1) * bpow radix2 (k - 53) = (1 - bpow radix2 (-53)) * bpow radix2 k)%R).
  { unfold Z.sub at 2. rewrite bpow_plus. rewrite minus_IZR. change (IZR (2 ^ 53)) with (bpow radix2 53).
    transitivity ((bpow radix2 53 * bpow radix2 (-53) - bpow radix2 (-53)) * bpow radix2 k)%R; [change (bpow radix2 (- (53))) with (bpow radix2 (-53)); ring|].
    rewrite <- bpow_plus. reflexivity. }
  rewrite E in F1, F3.
  destruct (Z.lt_trichotomy K K0) as [L|[->|L]].
  - right. apply Rle_lt_trans with (2 := F1). apply Rmult_le_compat; [apply IZR_le; lia|apply bpow_ge_0|apply IZR_le; lia|apply bpow_le; lia].
  - destruct (Z.le_gt_cases D d) as [C|C].
    + right. apply Rle_lt_trans with (2 := F3). apply Rmult_le_compat_r; [apply bpow_ge_0|apply IZR_le; lia].
    + left. apply Rle_trans with (1 := F4). apply Rmult_le_compat_r; [apply bpow_ge_0|apply IZR_le; lia].
  - left. apply Rle_trans with (1 := F2). apply Rmult_le_compat; [apply IZR_le; lia|apply bpow_ge_0|apply IZR_le; lia|apply bpow_le; lia].
Qed.

Lemma short_far : forall k D K, -150 <= k <= 128 -> 0 < D < 10 ^ 9 ->
  (bpow radix2 k <= IZR D * pow10 K \/ IZR D * pow10 K < (1 - bpow radix2 (-53)) * bpow radix2 k)%R.
Proof.
  intros k D K Hk HD.
  assert (G : forall n D K, 0 <= n -> 10 ^ (8 - n) <= D < 10 ^ 9 -> 0 <= 8 - n ->
    (bpow radix2 k <= IZR D * pow10 K \/ IZR D * pow10 K < (1 - bpow radix2 (-53)) * bpow radix2 k)%R).
  { clear D K HD. intros n D K H0. revert D K. pattern n. apply natlike_ind; [| |exact H0].
    - intros D K H _. apply nine_digits_far; [exact Hk|]. replace (8 - 0) with 8 in H by lia. lia.
    - intros m Hm IH D K H H8. destruct (Z.le_gt_cases (10 ^ (8 - m)) D) as [C|C]; [apply IH; lia|].
      assert (E : (IZR D * pow10 K = IZR (10 * D) * pow10 (K - 1))%R).
      { rewrite mult_IZR. replace K with (1 + (K - 1)) at 1 by lia. rewrite bpow_plus. change (pow10 1) with 10%R. ring. }
      rewrite E. apply IH; [|lia].
      assert (10 ^ (8 - m) = 10 * 10 ^ (8 - Z.succ m)) by (replace (8 - m) with (1 + (8 - Z.succ m)) by lia; rewrite Z.pow_add_r by lia; reflexivity).
      assert (10 ^ (8 - m) <= 10 ^ 8) by (apply Z.pow_le_mono_r; lia).
      lia. }
  apply (G 8); [lia| |lia]. change (10 ^ (8 - 8)) with 1. lia.
Qed.

(** * The printed number *)

Lemma printed_fine : forall v m, nonzero Float v -> well_formed m -> prints Float v (written m) ->
  exists D K, 0 < D < 10 ^ 9 /\ abs_value m = (IZR D * pow10 K)%R /\
    (mminus Float v * (1 + bpow radix2 (-52)) <= abs_value m <= mplus Float v * (1 - bpow radix2 (-52)))%R.
Proof.
  intros v m Nz W P. pose proof Nz as [Hfin _].
  destruct (ftoa_finite_t Float v Nz) as (ds & K & lo & hi0 & A1 & A2 & A3 & A4 & A5 & _ & _ & _ & _ & A10 & A11 & A12).
  assert (HK : -500 <= K <= 500) by (clear - A5; cbn [kmin kmax] in A5; lia).
  assert (Hn : zlen ds <= 17) by (clear - A4; cbn [max_sig] in A4; lia).
  destruct (grisu2_fine v Hfin (nonzero_significand Float v Nz)) as (ds' & K' & B4 & B5 & B9).
  assert (E : ds = ds' /\ K = K').
  { specialize (A12 [] (repeat 0 40)). specialize (B9 [] (repeat 0 40)). rewrite repeat_length in A12, B9.
    assert (L : (List.length ds <= 40)%nat) by (unfold zlen in Hn; lia).
    assert (L' : (List.length ds' <= 40)%nat) by (clear - B4; unfold zlen in B4; lia).
    specialize (A12 L). specialize (B9 L'). rewrite A12 in B9. injection B9 as E1 E2 E3. split; [|exact E3]. eapply dchars_prefix; eassumption. }
  destruct E as [<- <-].
  assert (Em : m = shown (sign_of Float v) ds K).
  { apply written_inj; [assumption|now apply shown_wf|]. apply (prints_unique Float v); [assumption|]. apply tight_prints; [assumption|]. clear - A11. unfold zlen in A11. lia. }
  exists (dval ds), K. assert (V : abs_value m = (IZR (dval ds) * pow10 K)%R) by (rewrite Em; now apply shown_value).
  split; [|split; [exact V|rewrite V; exact B5]].
  pose proof (dval_size ds A1 A2) as [B1 B2]. pose proof (dval_bounds ds A1) as [_ B3].
  pose proof (Z.pow_pos_nonneg 10 (zlen ds - 1) ltac:(lia)) as B6.
  assert (0 <= zlen ds - 1) by (destruct ds; [cbn in A2; congruence|rewrite zlen_cons; pose proof (zlen_nonneg ds); lia]).
  split; [lia|]. apply Z.lt_le_trans with (10 ^ zlen ds); [lia|]. apply Z.pow_le_mono_r; [lia|exact A4].
Qed.

(** * Double rounding is harmless for it *)

Lemma mminus_pos : forall v, nonzero Float v -> (bpow radix2 (-150) <= mminus Float v)%R.
Proof.
  intros v Nz. pose proof (nonzero_significand Float v Nz) as S. unfold mminus. pose proof (exponent_ge Float v) as G.
  assert (B : (bpow radix2 (-149) <= ulp_of Float v)%R) by (apply bpow_le; exact G).
  assert (E : (bpow radix2 (-149) = 2 * bpow radix2 (-150))%R) by (change 2%R with (bpow radix2 1); rewrite <- bpow_plus; reflexivity).
  assert (1 <= IZR (significand Float v))%R by (apply IZR_le; lia). pose proof (bpow_gt_0 radix2 (-150)).
  destruct (significand Float v =? 2 ^ (precision Float - 1)); nra.
Qed.

Lemma printed_twice : forall v m, nonzero Float v -> well_formed m -> prints Float v (written m) ->
  ~ carries Double (value m) /\ in_range Double (value m) /\ rnd Float (rnd Double (abs_value m)) = magnitude Float v.
Proof.
  intros v m Nz W P. destruct (printed_fine v m Nz W P) as (D & K & HD & V & LU). pose proof Nz as [Fv _].
  pose proof (mminus_pos v Nz) as ML. pose proof (mplus_lt Float v Fv) as MU. cbn [max_exp] in MU.
  pose proof (bpow_gt_0 radix2 (-52)) as B52. pose proof (bpow_gt_0 radix2 (-150)) as B150.
  assert (E52 : (bpow radix2 (-52) = 2 * bpow radix2 (-53))%R) by (change 2%R with (bpow radix2 1); rewrite <- bpow_plus; reflexivity).
  assert (B1 : (bpow radix2 (-52) < 1)%R) by (change 1%R with (bpow radix2 0); apply bpow_lt; lia).
  assert (MP : (0 < mplus Float v)%R).
  { unfold mplus. pose proof (nonzero_significand Float v Nz). apply Rmult_lt_0_compat; [|apply bpow_gt_0]. assert (0 < IZR (significand Float v))%R by (apply IZR_lt; lia). lra. }
  set (x := abs_value m) in *. set (b := bpow radix2 (-53)) in *.
  assert (X0 : (bpow radix2 (-150) <= x)%R) by nra.
  assert (X1 : (x < bpow radix2 128)%R) by nra.
  assert (RE : (Rabs (rnd Double x - x) <= b * x)%R).
  { unfold rnd. eapply Rle_trans.
    - apply (relative_error_N_FLT radix2 (min_exp Double) (precision Double) ltac:(cbn; lia) (fun z => negb (Z.even z)) x).
      rewrite Rabs_pos_eq by lra. apply Rle_trans with (2 := X0). apply bpow_le. cbn. lia.
    - rewrite Rabs_pos_eq by lra. change (/ 2 * bpow radix2 (- precision Double + 1))%R with (/ 2 * bpow radix2 (-52))%R. rewrite E52. lra. }
  apply Rabs_le_inv in RE.
  assert (RM : rnd Float (rnd Double x) = magnitude Float v).
  { apply rnd_between; [now apply nonzero_significand|]. rewrite midpoint_above_mplus. split.
    - apply Rle_lt_trans with (1 := midpoint_below_mminus Float v). rewrite E52 in LU, B1. assert (0 < b)%R by apply bpow_gt_0.
      assert (mminus Float v * (1 + 2 * b) * (1 - b) <= x * (1 - b))%R by (apply Rmult_le_compat_r; lra).
      assert (0 < mminus Float v * (b * (1 - 2 * b)))%R by (apply Rmult_lt_0_compat; [lra|]; apply Rmult_lt_0_compat; lra). lra.
    - rewrite E52 in LU, B1. assert (0 < b)%R by apply bpow_gt_0.
      assert (x * (1 + b) <= mplus Float v * (1 - 2 * b) * (1 + b))%R by (apply Rmult_le_compat_r; lra).
      assert (0 < mplus Float v * (b * (1 + 2 * b)))%R by (apply Rmult_lt_0_compat; [lra|]; apply Rmult_lt_0_compat; lra). lra. }
  split; [|split; [|exact RM]].
  - intros (k & K1 & K2 & K3). rewrite value_abs in K2 by exact W. rewrite rnd_value_abs in K3 by exact W. fold x in K2, K3.
    assert (Kr : -150 <= k <= 128).
    { split.
      - apply Z.lt_le_incl. apply (lt_bpow radix2). lra.
      - apply (le_bpow radix2). rewrite <- K3. rewrite <- (rnd_bpow Double 128) by (cbn; lia). apply rnd_mono. lra. }
    destruct (short_far k D K Kr HD) as [C|C]; rewrite <- V in C; [lra|]. rewrite K3 in RE. fold b in C.
    pose proof (bpow_gt_0 radix2 k). assert (0 < b)%R by apply bpow_gt_0. nra.
  - split; rewrite ?value_abs, ?rnd_value_abs by exact W; fold x.
    + apply Rle_trans with (2 := X0). apply bpow_le. cbn. lia.
    + apply Rle_lt_trans with (rnd Double (bpow radix2 128)); [apply rnd_mono; lra|]. rewrite rnd_bpow by (cbn; lia). apply bpow_lt. cbn. lia.
Qed.

Lemma printed_twice_signed : forall v m, nonzero Float v -> well_formed m -> prints Float v (written m) ->
  rnd Float (rnd Double (value m)) = real_of Float v.
Proof.
  intros v m Nz W P. destruct (printed_twice v m Nz W P) as (_ & _ & RM).
  destruct (C01_reads_back Float v m Nz W P) as (_ & _ & CR). pose proof Nz as [Fv _].
  assert (S : negative Float v <-> is_minus (n_sign m) = true).
  { destruct CR as [(_ & _ & _ & CN)|[_ CR]]; [exact CN|]. exfalso. destruct Fv as [_ Fv]. apply Fv. rewrite CR. now destruct (is_minus (n_sign m)). }
  unfold negative in S. unfold value, real_of. destruct (is_minus (n_sign m)).
  - rewrite (proj2 S eq_refl). cbn [Z.eqb Pos.eqb]. rewrite !rnd_opp, RM. reflexivity.
  - destruct (Z.eqb_spec (sign_field Float v) 1) as [e|e]; [exfalso; apply S in e; discriminate|]. exact RM.
Qed.

(** C89: What ftoa prints for a float can be read as a double: narrowing the result -- that is,
    rounding it once more -- gives the float.  The fallback is not called, or the answer is its. *)
Theorem C89_float_as_double : forall v n c rest want fb errno, nonzero Float v -> well_formed n -> prints Float v (written n) -> ends_number c ->
  let s := written n ++ c :: rest in
  (exists y, atof (fmt_of Double) s want fb errno = Ok (answer want errno y success (len (written n))) /\
     finite Double y /\ rnd Float (real_of Double y) = real_of Float v) \/
  atof (fmt_of Double) s want fb errno = fallback_answer Double s want fb errno.
Proof.
  intros v n c rest want fb errno Nz W P Hc s.
  destruct (printed_short Float v n Nz W P) as ((d & j & S1 & S2 & S3 & _) & L & _).
  destruct (printed_twice v n Nz W P) as (NC & R & _). pose proof (printed_twice_signed v n Nz W P) as RM.
  assert (SD : short_decimal Double n).
  { exists d, j. split; [|split; [exact S2|split; [exact S3|discriminate]]]. split; [lia|]. apply Z.lt_trans with (10 ^ exact_digits Float); [lia|]. vm_compute. reflexivity. }
  destruct (C29_correct_or_deferred Double n c rest want fb errno W Hc L SD R NC) as [(y & E & V)|E]; [left|right; exact E].
  exists y. split; [exact E|]. destruct V as [(_ & V1 & V2 & _)|[V1 _]].
  - split; [exact V1|]. rewrite V2. exact RM.
  - exfalso. destruct R as [_ R]. lra.
Qed.

(** ... so with a correctly rounding fallback it always works. *)
Theorem C89_with_fallback : forall v n c rest fb errno, nonzero Float v -> well_formed n -> prints Float v (written n) -> ends_number c -> good_fallback Double fb ->
  exists r, atof (fmt_of Double) (written n ++ c :: rest) true fb errno = Ok r /\ at_str_end r = Some (len (written n)) /\
    finite Double (at_value r) /\ rnd Float (real_of Double (at_value r)) = real_of Float v.
Proof.
  intros v n c rest fb errno Nz W P Hc G.
  destruct (printed_short Float v n Nz W P) as ((d & j & S1 & S2 & S3 & _) & L & _).
  destruct (printed_twice v n Nz W P) as (NC & R & _). pose proof (printed_twice_signed v n Nz W P) as RM.
  assert (SD : short_decimal Double n).
  { exists d, j. split; [|split; [exact S2|split; [exact S3|discriminate]]]. split; [lia|]. apply Z.lt_trans with (10 ^ exact_digits Float); [lia|]. vm_compute. reflexivity. }
  destruct (C29_correct_with_fallback Double n c rest fb errno W Hc L SD R NC G) as (r & E & V & Z1 & _).
  exists r. split; [exact E|]. split; [exact Z1|]. destruct V as [(_ & V1 & V2 & _)|[V1 _]].
  - split; [exact V1|]. rewrite V2. exact RM.
  - exfalso. destruct R as [_ R]. lra.
Qed.

(** * The text of a double, read as a float *)

Lemma near_itself : forall w m, nonzero Double w -> (bpow radix2 (-149) <= magnitude Double w)%R -> well_formed m -> prints Double w (written m) ->
  (Rabs (abs_value m - magnitude Double w) <= bpow radix2 (-53) * magnitude Double w)%R.
Proof.
  intros w m Nz B W P.
  destruct (printed Double w m Nz W P) as (ds & K & lo & hi & A1 & A2 & A3 & A4 & A5 & A6 & A7 & A8 & A9 & A10 & Hn & HK & Em).
  assert (V : abs_value m = (IZR (dval ds) * pow10 K)%R) by (rewrite Em; now apply shown_value). rewrite <- V in A8.
  assert (S : 2 ^ 52 <= significand Double w).
  { destruct (significand_full Double w) as [S|S]; [exact S|]. exfalso. pose proof (significand_range Double w) as [_ SR].
    unfold magnitude in B. rewrite S in B. cbn [min_exp] in B. change (2 ^ precision Double) with (radix2 ^ 53) in SR. apply IZR_lt in SR. rewrite IZR_Zpower in SR by lia.
    pose proof (bpow_gt_0 radix2 (-1074)) as X. apply Rmult_lt_compat_r with (r := bpow radix2 (-1074)) in SR; [|exact X]. rewrite <- bpow_plus in SR.
    assert (bpow radix2 (53 + -1074) < bpow radix2 (-149))%R by (apply bpow_lt; lia). lra. }
  assert (Ul : (ulp_of Double w <= 2 * (bpow radix2 (-53) * magnitude Double w))%R).
  { unfold magnitude. fold (ulp_of Double w). apply IZR_le in S. change (IZR (2 ^ 52)) with (bpow radix2 52) in S.
    pose proof (bpow_gt_0 radix2 (-53)). assert (0 < ulp_of Double w)%R by apply bpow_gt_0.
    assert (E : (2 * (bpow radix2 (-53) * bpow radix2 52) = 1)%R) by (change 2%R with (bpow radix2 1); rewrite <- !bpow_plus; reflexivity).
    assert (bpow radix2 (-53) * bpow radix2 52 * ulp_of Double w <= bpow radix2 (-53) * IZR (significand Double w) * ulp_of Double w)%R.
    { apply Rmult_le_compat_r; [lra|]. apply Rmult_le_compat_l; lra. }
    replace (ulp_of Double w) with (2 * (bpow radix2 (-53) * bpow radix2 52) * ulp_of Double w)%R at 1 by (rewrite E; ring). lra. }
  assert (0 < ulp_of Double w)%R by apply bpow_gt_0.
  unfold mminus, mplus in A6, A7. unfold magnitude in *. fold (ulp_of Double w) in *.
  apply Rabs_le. destruct (significand Double w =? 2 ^ (precision Double - 1)); lra.
Qed.

(** a number that is relatively as near to a value as 2^-53 is clear of the rounding boundaries *)
Lemma near_clear : forall v x mg, finite Float v -> 0 < significand Float v -> (0 <= mg <= / 4)%R ->
  (Rabs (x - magnitude Float v) <= bpow radix2 (-53) * magnitude Float v)%R -> clear_of_ties Float mg x.
Proof.
  intros v x mg Fv S Hm N u Fu. pose proof (magnitude_pos Float v S) as MP.
  assert (EX : rnd Float (magnitude Float v) = magnitude Float v) by (unfold rnd; apply round_generic; [apply valid_rnd_N|apply format_mag]).
  pose proof (exact_clear Float (magnitude Float v) (/ 2) EX ltac:(lra) u Fu) as C. rewrite (Rabs_pos_eq (magnitude Float v)) in C by lra.
  pose proof (bpow_gt_0 radix2 (-53)) as B. assert (B1 : (bpow radix2 (-53) <= / 16777216 * / 16777216)%R).
  { replace (/ 16777216 * / 16777216)%R with (bpow radix2 (-48)) by (change (bpow radix2 (-48)) with (/ IZR (2 ^ 48))%R; change (2 ^ 48) with (16777216 * 16777216); rewrite mult_IZR; field). apply bpow_le. lia. }
  apply Rabs_le_inv in N. set (a := magnitude Float v) in *. set (b := bpow radix2 (-53)) in *.
  assert (U : (0 < ulp_of Float u)%R) by apply bpow_gt_0.
  assert (X0 : (0 < x)%R) by nra. rewrite (Rabs_pos_eq x) by lra.
  pose proof (significand_range Float u) as [SR1 SR2]. change (2 ^ precision Float) with 16777216 in SR2.
  assert (MU : (midpoint_above Float u <= 16777216 * ulp_of Float u)%R).
  { unfold midpoint_above, magnitude. fold (ulp_of Float u). assert (IZR (significand Float u) <= 16777215)%R by (apply IZR_le; lia). nra. }
  destruct (Rle_or_lt a (33554432 * ulp_of Float u)) as [L|L].
  - assert (b * a <= / 8 * ulp_of Float u)%R.
    { apply Rle_trans with (b * (33554432 * ulp_of Float u))%R; [apply Rmult_le_compat_l; lra|]. rewrite <- Rmult_assoc. apply Rmult_le_compat_r; lra. }
    revert C. unfold Rabs. destruct (Rcase_abs (a - midpoint_above Float u)), (Rcase_abs (x - midpoint_above Float u)); intros; nra.
  - assert (b * a <= / 4 * a)%R by (apply Rmult_le_compat_r; lra). rewrite Rabs_pos_eq by lra. nra.
Qed.

(** every float is a multiple of the smallest one *)
Lemma float_multiple : forall v, finite Float v -> exists z, 0 <= z /\ Rabs (real_of Float v) = (IZR z * bpow radix2 (-149))%R.
Proof.
  intros v Fv. exists (significand Float v * 2 ^ (exponent Float v + 149)). pose proof (significand_range Float v) as [S _].
  assert (E : -149 <= exponent Float v) by (unfold exponent; cbn [min_exp]; lia). split.
  - apply Z.mul_nonneg_nonneg; [exact S|apply Z.pow_nonneg; lia].
  - rewrite abs_real. unfold magnitude. rewrite mult_IZR. change 2 with (radix_val radix2) at 1. rewrite IZR_Zpower by lia. rewrite Rmult_assoc, <- bpow_plus. do 2 f_equal. lia.
Qed.

(** C90: a float that is not a power of two and at least 10^-42, converted to double, printed, and
    read as a float: the same float, without the fallback. *)
Theorem C90_double_text_as_float_partial : forall v w n c rest want fb errno, finite Float v -> nonzero Double w -> real_of Double w = real_of Float v ->
  (pow10 (-42) <= Rabs (real_of Float v))%R -> (forall k, Rabs (real_of Float v) <> bpow radix2 k) ->
  well_formed n -> prints Double w (written n) -> ends_number c ->
  atof (fmt_of Float) (written n ++ c :: rest) want fb errno = Ok (answer want errno v success (len (written n))).
Proof.
  intros v w n c rest want fb errno Fv Nw EQ Lo NP W P Hc.
  assert (M : magnitude Double w = magnitude Float v) by (rewrite <- !abs_real; now rewrite EQ).
  rewrite abs_real in Lo. assert (NP' : forall k, magnitude Float v <> bpow radix2 k) by (intros k; rewrite <- abs_real; apply NP). clear NP.
  assert (T40 : (0 < pow10 (-42))%R) by apply bpow_gt_0.
  assert (S : 0 < significand Float v).
  { pose proof (significand_range Float v) as [S _]. destruct (Z.eq_dec (significand Float v) 0) as [e|e]; [|lia].
    unfold magnitude in Lo. rewrite e in Lo. lra. }
  assert (Nv : nonzero Float v).
  { split; [exact Fv|]. intros (_ & Z1 & Z2). unfold significand in S. rewrite Z1, Z2 in S. cbn in S. lia. }
  pose proof (nonzero_above Float v Nv) as MB. cbn [min_exp] in MB.
  pose proof (near_itself w n Nw ltac:(rewrite M; exact MB) W P) as N. rewrite M in N.
  set (x := abs_value n) in *. set (a := magnitude Float v) in *.
  assert (A0 : (0 < a)%R) by now apply magnitude_pos.
  pose proof (bpow_gt_0 radix2 (-53)) as B. assert (B1 : (bpow radix2 (-53) <= bpow radix2 (-50))%R) by (apply bpow_le; lia).
  assert (B2 : (bpow radix2 (-50) = / 1125899906842624)%R) by reflexivity. rewrite B2 in B1.
  pose proof (Rabs_le_inv _ _ N) as N'. set (b := bpow radix2 (-53)) in *.
  assert (X0 : (0 < x)%R) by nra.
  pose proof (printed_short Double w n Nw W P) as (_ & L & _).
  (* it rounds to v *)
  assert (RX : rnd Float x = a).
  { apply rnd_between; [exact S|]. assert (U : (0 < ulp_of Float v)%R) by apply bpow_gt_0.
    assert (AU : (a <= 16777216 * ulp_of Float v)%R).
    { unfold a, magnitude. fold (ulp_of Float v). pose proof (significand_range Float v) as [_ SR]. change (2 ^ precision Float) with 16777216 in SR.
      assert (IZR (significand Float v) <= 16777216)%R by (apply IZR_le; lia). nra. }
    assert (b * a <= / 16 * ulp_of Float v)%R.
    { apply Rle_trans with (b * (16777216 * ulp_of Float v))%R; [apply Rmult_le_compat_l; lra|]. rewrite <- Rmult_assoc. apply Rmult_le_compat_r; lra. }
    unfold midpoint_below, midpoint_above, gap_below. fold a. destruct (_ && _); lra. }
  assert (XV : Rabs (value n) = x) by (apply value_abs; exact W).
  assert (RV : Rabs (rnd Float (value n)) = a) by (rewrite rnd_value_abs by exact W; exact RX).
  assert (R : in_range Float (value n)).
  { split.
    - rewrite XV. cbn [min_exp]. destruct (Rle_or_lt (bpow radix2 (-149)) x) as [|C]; [assumption|exfalso].
      assert (a = bpow radix2 (-149)); [|now apply (NP' (-149))]. apply Rle_antisym; [|exact MB].
      rewrite <- RX, <- (rnd_bpow Float (-149)) by (cbn; lia). apply rnd_mono. lra.
    - rewrite RV. apply magnitude_lt_max. exact Fv. }
  assert (NC : ~ carries Float (value n)).
  { intros (k & _ & _ & K). rewrite RV in K. now apply (NP' k). }
  assert (CT : clear_of_ties Float (any_length_margin Float) (value n)).
  { intros u Fu. rewrite XV. pose proof (near_clear v x (31 / 800) Fv S ltac:(lra) N u Fu) as C. rewrite (Rabs_pos_eq x) in C by lra. exact C. }
  assert (NJ : ~ just_above_power Float (any_length_margin Float) (value n)).
  { intros (k & K1 & K2 & K3). rewrite XV in K2, K3. cbn [min_exp any_length_margin precision] in *.
    pose proof (bpow_gt_0 radix2 k) as Pk. change (bpow radix2 (1 - 24)) with (/ 8388608)%R in K3.
    assert (Ka : (bpow radix2 k <= a)%R).
    { rewrite <- RX, <- (rnd_bpow Float k) by exact K1. apply rnd_mono. exact K2. }
    assert (Kn : (bpow radix2 k < a)%R) by (destruct Ka as [Ka|Ka]; [exact Ka|exfalso; now apply (NP' k)]).
    assert (Gk : (bpow radix2 k * (1 + / 8388608) <= a)%R).
    { assert (Fk : generic_format radix2 (fexp Float) (bpow radix2 k)) by (apply generic_format_bpow; unfold FLT_exp; cbn [min_exp precision]; lia).
      pose proof (succ_le_lt radix2 (fexp Float) (bpow radix2 k) a Fk (format_mag Float v) Kn) as SL.
      rewrite succ_eq_pos in SL by lra. rewrite ulp_bpow in SL.
      assert (bpow radix2 (k + -23) <= bpow radix2 (fexp Float (k + 1)))%R by (apply bpow_le; unfold FLT_exp; cbn [min_exp precision]; lia).
      rewrite bpow_plus in H. change (bpow radix2 (-23)) with (/ 8388608)%R in H. lra. }
    nra. }
  assert (F41 : Float = Float -> (pow10 (-42) <= Rabs (value n))%R).
  { intros _. rewrite XV. destruct (float_multiple v Fv) as (z & Z0 & Ez). rewrite abs_real in Ez. fold a in Ez.
    assert (Z1 : 714 <= z).
    { destruct (Z.lt_ge_cases z 714) as [C|C]; [exfalso|exact C].
      assert (IZR z * bpow radix2 (-149) <= IZR 713 * bpow radix2 (-149))%R by (apply Rmult_le_compat_r; [apply bpow_ge_0|apply IZR_le; lia]).
      assert (IZR 713 * bpow radix2 (-149) < IZR 1 * pow10 (-42))%R by (apply bin_lt_dec; vm_compute; reflexivity). lra. }
    assert (IZR 714 * bpow radix2 (-149) <= a)%R by (rewrite Ez; apply Rmult_le_compat_r; [apply bpow_ge_0|apply IZR_le; lia]).
    assert (IZR 100001 * pow10 (-47) < IZR 714 * bpow radix2 (-149))%R by (apply dec_lt_bin; vm_compute; reflexivity).
    assert (E : (pow10 (-42) = 100000 * pow10 (-47))%R) by (change 100000%R with (pow10 5); rewrite <- bpow_plus; reflexivity).
    assert (0 < pow10 (-47))%R by apply bpow_gt_0. rewrite E. nra. }
  destruct (C30_any_length Float n c rest want fb errno W Hc L R F41 CT NC NJ) as (u & E & V).
  rewrite E. do 2 f_equal. destruct V as [(_ & V1 & V2 & _)|[V1 _]]; [|exfalso; destruct R as [_ R]; lra].
  destruct (C01_reads_back Double w n Nw W P) as (_ & _ & CR).
  assert (RS : rnd Float (value n) = real_of Float v).
  { assert (Sg : negative Double w <-> is_minus (n_sign n) = true).
    { destruct CR as [(_ & _ & _ & CN)|[_ CR]]; [exact CN|]. exfalso. destruct Nw as [[_ Fw] _]. apply Fw. rewrite CR. now destruct (is_minus (n_sign n)). }
    assert (Sv : sign_field Double w =? 1 = (sign_field Float v =? 1)).
    { unfold real_of in EQ. rewrite M in EQ. fold a in EQ. destruct (sign_field Double w =? 1), (sign_field Float v =? 1); try reflexivity; lra. }
    unfold negative in Sg. unfold value, real_of. fold x a. rewrite <- Sv. destruct (is_minus (n_sign n)).
    - rewrite (proj2 Sg eq_refl). cbn [Z.eqb Pos.eqb]. now rewrite rnd_opp, RX.
    - destruct (Z.eqb_spec (sign_field Double w) 1) as [e|e]; [exfalso; apply Sg in e; discriminate|]. exact RX. }
  apply (real_of_inj Float); [|exact Nv|now rewrite V2, RS].
  split; [exact V1|]. intros (_ & Z1 & Z2). assert (X : Rabs (real_of Float u) = 0%R).
  { rewrite abs_real. unfold magnitude, significand. rewrite Z1, Z2. cbn [Z.eqb]. ring. }
  rewrite V2, RV in X. lra.
Qed.
