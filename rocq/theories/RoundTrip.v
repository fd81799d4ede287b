(** From number to text and back, and texts of exactly representable numbers: C46, C47, C56. *)
From Coq Require Import Reals Lra Lia ZArith List String Ascii.
From Flocq Require Import Core.
From Verif Require Import Machine MachineFacts BitOps StaticPow Fraction Format DiyFp KComp Chars Grisu Ftoa Krosh Atof Spec ParseSpec Api ParseApi Instances
  DiyFacts BoundFacts TableFacts GrisuFacts ShownFacts FtoaFacts RoundFacts WrittenFacts PrintProps PrintProps2 PrintProps3 DownFacts DvalFacts CmpFacts ArithProps ScanFacts LoopFacts ParseFacts GapFacts KroshNum ShortFacts FracFacts LongFacts ParseProps Refuted.
Open Scope Z_scope.

(** * Exactly representable numbers *)

(** an exactly representable number is far from every rounding boundary *)
Lemma exact_clear : forall t x mg, rnd t x = x -> (0 <= mg <= / 2)%R -> clear_of_ties t mg x.
Proof.
  intros t x mg Hx Hm v Fv. pose proof (bpow_gt_0 radix2 (exponent t v)) as U. fold (ulp_of t v) in U.
  assert (F : generic_format radix2 (fexp t) (Rabs x)).
  { apply generic_format_abs. rewrite <- Hx. apply format_rnd. }
  destruct (Rle_or_lt (Rabs x) (magnitude t v)) as [L|L].
  - rewrite Rabs_left1 by (unfold midpoint_above; lra). unfold midpoint_above. nra.
  - assert (magnitude t v + ulp_of t v <= Rabs x)%R.
    { destruct (Z.eq_dec (significand t v) 0) as [S0|S0].
      - assert (M0 : magnitude t v = 0%R) by (unfold magnitude; rewrite S0; ring). rewrite M0 in *.
        assert (E0 : exponent t v = min_exp t).
        { destruct (significand_full t v) as [Fl|Fl]; [|exact Fl]. rewrite S0 in Fl. pose proof (pow2_pos (precision t - 1) ltac:(pose proof (width_facts t); lia)). lia. }
        unfold ulp_of. rewrite E0, Rplus_0_l. change (bpow radix2 (min_exp t)) with (bpow radix2 (min_exp t)).
        pose proof (width_facts t). apply (generic_format_ge_bpow radix2 (fexp t)); [|lra|exact F]. intros e. unfold FLT_exp. lia.
      - pose proof (significand_range t v) as [SR _].
        rewrite <- succ_mag by lia. apply succ_le_lt; [apply fexp_valid|apply format_mag|exact F|exact L]. }
    rewrite Rabs_pos_eq by (unfold midpoint_above; lra). unfold midpoint_above. nra.
Qed.

Lemma exact_no_carry : forall t x, rnd t x = x -> ~ carries t x.
Proof. intros t x H (k & _ & A & B). rewrite H in B. lra. Qed.

(** C56: a text of at most 19 (9) significant digits that denotes a number of the type gives
    exactly that number, and the fallback is not called. *)
Theorem C56_exact_numbers : forall t n c rest want fb errno, well_formed n -> ends_number c -> within_limits n ->
  short_decimal t n -> in_range t (value n) -> rnd t (value n) = value n ->
  exists v, atof (fmt_of t) (written n ++ c :: rest) want fb errno = Ok (answer want errno v success (len (written n))) /\
    finite t v /\ real_of t v = value n.
Proof.
  intros t n c rest want fb errno W Hc L S R Ex.
  destruct (C29_fallback_only_near_ties t n c rest want fb errno W Hc L S R (exact_no_carry t _ Ex)) as (v & E & V).
  { apply exact_clear; [exact Ex|]. destruct t; lra. }
  exists v. split; [exact E|]. destruct V as [(_ & A & B & _)|[A _]].
  - rewrite Ex in B. auto.
  - destruct R as [_ R]. lra.
Qed.

(** * From a number to its text and back *)

Lemma decimal_shift : forall C s D K, D mod 10 <> 0 -> (IZR C * pow10 s = IZR D * pow10 K)%R -> s <= K /\ C = D * 10 ^ (K - s).
Proof.
  intros C s D K HD E. destruct (Z.le_gt_cases s K) as [L|L].
  - split; [exact L|]. replace K with (K - s + s) in E by lia. rewrite bpow_plus, <- Rmult_assoc in E.
    apply Rmult_eq_reg_r in E; [|apply Rgt_not_eq, bpow_gt_0]. rewrite bpow_IZR in E by lia. rewrite <- mult_IZR in E. apply eq_IZR in E. exact E.
  - exfalso. apply HD. replace s with (s - K + K) in E by lia. rewrite bpow_plus, <- Rmult_assoc in E.
    apply Rmult_eq_reg_r in E; [|apply Rgt_not_eq, bpow_gt_0]. rewrite bpow_IZR in E by lia. rewrite <- mult_IZR in E. apply eq_IZR in E.
    rewrite <- E. change (radix10 ^ (s - K)) with (10 ^ (s - K)). replace (s - K) with (s - K - 1 + 1) by lia. rewrite Z.pow_add_r by lia.
    change (10 ^ 1) with 10. rewrite Z.mul_assoc. apply Z.mod_mul. lia.
Qed.

(** what is printed is short enough for the parser *)
Lemma printed_short : forall t v m, nonzero t v -> well_formed m -> prints t v (written m) ->
  short_decimal t m /\ within_limits m /\ readable_exponent m /\ coefficient m <> 0 /\ (List.length (written m) <= 24)%nat.
Proof.
  intros t v m H W P.
  destruct (printed t v m H W P) as (ds & K & lo & hi & A1 & A2 & A3 & A4 & A5 & A6 & A7 & A8 & A9 & A10 & Hn & HK & Em).
  pose proof (ds_nonempty ds A2) as N.
  assert (V : abs_value m = (IZR (dval ds) * pow10 K)%R) by (rewrite Em; now apply shown_value).
  assert (M10 : dval ds mod 10 <> 0) by (rewrite dval_mod10; [exact A3|now apply ne_of_hd|assumption]).
  destruct (decimal_shift (coefficient m) (scale m) (dval ds) K M10 V) as [LK EC].
  pose proof (dval_size ds A1 A2) as [B1 B2]. pose proof (Z.pow_pos_nonneg 10 (zlen ds - 1) ltac:(lia) ltac:(lia)) as B3.
  assert (LL : zlen (written m) <= 24) by (clear - A10; destruct t; lia).
  split; [|split; [|split; [|split]]].
  - exists (dval ds), (K - scale m). split; [|split; [lia|split; [exact EC|]]].
    + pose proof (dval_bounds ds A1). split; [lia|]. apply Z.lt_le_trans with (10 ^ zlen ds); [lia|]. apply Z.pow_le_mono_r; [lia|].
      clear - A4. destruct t; cbn [max_sig exact_digits] in *; lia.
    + intros ->. cbn [kmin] in A5. lia.
  - unfold within_limits, written, zlen in *. rewrite app_length in LL. change parser_limit with (Z.to_nat 2049). lia.
  - apply small_readable. unfold small_exponent.
    assert (F : 0 <= Z.of_nat (List.length (frac_digits m)) <= 24).
    { unfold written, mantissa_text, zlen in LL. rewrite !app_length in LL. unfold frac_digits. destruct (n_frac m) as [f|]; [|cbn; lia].
      rewrite app_length in LL. unfold dchars at 2 in LL. rewrite map_length in LL. lia. }
    assert (SR : K - 24 <= scale m).
    { destruct (Z.le_gt_cases (K - 24) (scale m)) as [|G]; [assumption|exfalso].
      assert (C24 : coefficient m < 10 ^ 24).
      { unfold coefficient. assert (WF : Forall digit (n_int m ++ frac_digits m)) by (destruct W as (? & ? & _); now apply Forall_app).
        pose proof (dval_bounds _ WF) as [_ BB]. apply Z.lt_le_trans with (1 := BB). apply Z.pow_le_mono_r; [lia|].
        unfold written, mantissa_text, zlen in *. rewrite !app_length in *. unfold frac_digits. unfold dchars at 1 in LL. rewrite map_length in LL.
        destruct (n_frac m) as [f|]; [rewrite app_length in LL; unfold dchars in LL; rewrite map_length in LL|]; cbn [List.length] in *; lia. }
      rewrite EC in C24. assert (10 ^ 24 <= 10 ^ (K - scale m)) by (apply Z.pow_le_mono_r; lia).
      assert (1 <= dval ds) by lia. nia. }
    unfold scale in *. lia.
  - rewrite EC. pose proof (Z.pow_pos_nonneg 10 (K - scale m) ltac:(lia) ltac:(lia)). nia.
  - unfold zlen in LL. lia.
Qed.

Lemma nonzero_above : forall t v, nonzero t v -> (bpow radix2 (min_exp t) <= magnitude t v)%R.
Proof.
  intros t v H. pose proof (nonzero_significand t v H) as S. unfold magnitude. pose proof (exponent_ge t v) as G.
  apply Rle_trans with (1 * bpow radix2 (exponent t v))%R; [rewrite Rmult_1_l; now apply bpow_le|].
  apply Rmult_le_compat_r; [apply bpow_ge_0|]. apply IZR_le. lia.
Qed.

Lemma abs_real : forall t v, Rabs (real_of t v) = magnitude t v.
Proof.
  intros t v. pose proof (magnitude_nonneg t v). unfold real_of. destruct (_ =? 1); rewrite ?Rabs_Ropp; now apply Rabs_pos_eq.
Qed.

(** the value is a normal power of two *)
Definition normal_power (t : ftype) (v : Z) : Prop :=
  exists k, min_exp t + precision t - 1 <= k /\ Rabs (real_of t v) = bpow radix2 k.

Fixpoint eqb_list (a b : list Z) : bool :=
  match a, b with [], [] => true | x :: a, y :: b => (x =? y) && eqb_list a b | _, _ => false end.
Lemma eqb_list_eq : forall a b, eqb_list a b = true -> a = b.
Proof.
  induction a as [|x a IH]; intros [|y b] H; try discriminate; [reflexivity|]. cbn in H. apply andb_prop in H as [H1 H2].
  apply Z.eqb_eq in H1. rewrite (IH b H2). now subst.
Qed.

Lemma smallest_bits : forall t v, pattern t v -> exp_field t v = 0 -> frac_field t v = 1 -> v = 1 + zero_of t (sign_field t v =? 1).
Proof.
  intros t v [P0 P1] F1 F2. pose proof (width_facts t) as W. unfold exp_field, frac_field in F1, F2. unfold sign_field, zero_of.
  pose proof (pow2_half (width t) ltac:(lia)) as E2. set (p := 2 ^ (precision t - 1)) in *. pose proof (pow2_pos (precision t - 1) ltac:(lia)) as Pp. fold p in Pp.
  assert (EW : 2 ^ (width t - 1) = p * 2 ^ (width t - precision t)) by (unfold p; rewrite <- Z.pow_add_r by lia; f_equal; lia).
  pose proof (pow2_pos (width t - precision t) ltac:(lia)) as PQ. set (q := 2 ^ (width t - precision t)) in *. rewrite EW in *.
  pose proof (Z.div_mod v p ltac:(lia)) as D1. pose proof (Z.div_mod (v / p) q ltac:(lia)) as D2. rewrite Z.div_div in D2 by lia.
  assert (0 <= v / (p * q) <= 1) by (split; [apply Z.div_pos; nia|apply Z.lt_succ_r, Z.div_lt_upper_bound; nia]).
  rewrite F1, Z.add_0_r in D2. rewrite F2, D2 in D1.
  destruct (Z.eqb_spec (v / (p * q)) 1) as [e|e]; [rewrite e in D1; lia|].
  assert (e0 : v / (p * q) = 0) by lia. rewrite e0 in D1. lia.
Qed.

Lemma smallest_printed : forall t v m, nonzero t v -> significand t v = 1 -> exponent t v = min_exp t -> well_formed m -> prints t v (written m) ->
  (magnitude t v <= abs_value m)%R.
Proof.
  intros t v m H S E W P.
  assert (F : exp_field t v = 0 /\ frac_field t v = 1).
  { unfold significand in S. destruct (Z.eqb_spec (exp_field t v) 0) as [e|e]; [auto|]. exfalso. pose proof (frac_field_range t v).
    destruct t; cbn [precision] in *; cbn in S; lia. }
  destruct F as [F1 F2]. destruct H as [[Pv Fi] Nz].
  pose proof (smallest_bits t v Pv F1 F2) as V.
  remember (sign_field t v =? 1) as neg eqn:Hneg.
  set (n := {| n_sign := if neg then Minus else NoSign; n_int := match t with Float => [2] | Double => [7] end;
               n_frac := Some (match t with Float => [1;0;1;9] | Double => [4;1;0;9;8;4;6;8] end);
               n_exp := Some {| x_upper := false; x_sign := Minus; x_digits := match t with Float => [4;5] | Double => [3;2;4] end |} |}).
  assert (Wn : well_formed n).
  { unfold well_formed, n. destruct t; cbn [n_int frac_digits n_frac n_exp x_digits n_sign app]; repeat split; try discriminate; repeat constructor; unfold digit; lia. }
  assert (Pn : match ftoa (fmt_of t) v (repeat 0 (Z.to_nat (max_buffer_size (fmt_of t)))) with
               | Ok (b, l) => eqb_list (firstn (Z.to_nat l) b) (written n) | Fault _ => false end = true).
  { rewrite V. unfold n. clear. destruct neg, t; vm_cast_no_check (eq_refl true). }
  rewrite P in Pn by (rewrite repeat_length; lia).
  assert (EQ : written m = written n).
  { apply eqb_list_eq in Pn. rewrite <- Pn, Nat2Z.id, firstn_app, Nat.sub_diag, firstn_all. cbn [firstn]. now rewrite app_nil_r. }
  apply written_inj in EQ; [|assumption|assumption]. subst m. unfold magnitude. rewrite S, E. unfold abs_value.
  destruct t.
  - left. change (coefficient n) with 21019. change (scale n) with (-49). apply bin_lt_dec. vm_compute. reflexivity.
  - left. change (coefficient n) with 741098468. change (scale n) with (-332). apply bin_lt_dec. vm_compute. reflexivity.
Qed.

(** The printed number is in the range of the parser and loses no carry, provided the value is no normal power of two or
    what is printed is not below it. *)
Lemma printed_parseable : forall t v m, nonzero t v -> well_formed m -> prints t v (written m) ->
  ~ normal_power t v \/ (Rabs (real_of t v) <= Rabs (value m))%R ->
  in_range t (value m) /\ ~ carries t (value m).
Proof.
  intros t v m H W P Q. destruct (C01_reads_back t v m H W P) as ([I1 I2] & R & _).
  assert (RV : rnd t (value m) = real_of t v) by apply R.
  pose proof (nonzero_significand t v H) as S. pose proof (nonzero_above t v H) as NA.
  split.
  - split.
    + rewrite value_abs in * by assumption. rewrite abs_real in Q. destruct Q as [Q|Q]; [|lra].
      destruct (Z.eq_dec (significand t v) 1) as [S1|S1].
      { assert (EM : exponent t v = min_exp t).
        { destruct (significand_full t v) as [Fl|Fl]; [|exact Fl]. rewrite S1 in Fl. exfalso. destruct t; cbn in Fl; lia. }
        pose proof (smallest_printed t v m H S1 EM W P). lra. }
      assert (S3 : 2 <= significand t v) by lia.
      apply Rle_trans with (2 := Rlt_le _ _ I1). unfold midpoint_below.
      assert (G1 : (gap_below t v <= ulp_of t v)%R).
      { unfold gap_below. pose proof (bpow_gt_0 radix2 (exponent t v)). fold (ulp_of t v) in *. destruct (_ && _); lra. }
      unfold magnitude, ulp_of in *. apply Rle_trans with (bpow radix2 (exponent t v)); [apply bpow_le, exponent_ge|].
      apply IZR_le in S3. pose proof (bpow_gt_0 radix2 (exponent t v)). nra.
    + rewrite RV, abs_real. apply magnitude_lt_max, H.
  - intros (k & K1 & K2 & K3). rewrite RV in K3. destruct Q as [Q|Q]; [apply Q; exists k; auto|]. lra.
Qed.

(** C46: except for normal powers of two printed too small, parsing the text of a value gives it back -- or leaves that to the fallback *)
Theorem C46_full_circle_or_deferred : forall t v m c rest want fb errno, nonzero t v -> well_formed m -> prints t v (written m) -> ends_number c ->
  ~ normal_power t v \/ (Rabs (real_of t v) <= Rabs (value m))%R ->
  let s := written m ++ c :: rest in
  atof (fmt_of t) s want fb errno = Ok (answer want errno v success (len (written m))) \/
  atof (fmt_of t) s want fb errno = fallback_answer t s want fb errno.
Proof.
  intros t v m c rest want fb errno H W P Hc Q s.
  destruct (printed_short t v m H W P) as (S1 & S2 & S3 & S4 & _). destruct (printed_parseable t v m H W P Q) as [R1 R2].
  destruct (C29_correct_or_deferred t m c rest want fb errno W Hc S2 S1 R1 R2) as [(w & E & V)|E]; [left|now right].
  fold s in E. rewrite E. do 2 f_equal. destruct (C01_reads_back t v m H W P) as (_ & R & _).
  destruct V as [(_ & A & B & _)|[A _]]; [|exfalso; destruct R1 as [_ R1]; lra].
  apply (real_of_inj t); [|exact H|rewrite B; apply R].
  split; [exact A|]. intros (_ & Z1 & Z2).
  assert (M0 : magnitude t w = 0%R) by (unfold magnitude, significand; rewrite Z1, Z2; cbn; ring).
  pose proof (nonzero_above t v H) as NA. pose proof (bpow_gt_0 radix2 (min_exp t)). rewrite <- abs_real, B, (R (fun z => negb (Z.even z)) : rnd t (value m) = _), abs_real in M0. lra.
Qed.

(** C46: with a correctly rounding fallback *)
Theorem C46_full_circle : forall t v m c rest fb errno, nonzero t v -> well_formed m -> prints t v (written m) -> ends_number c ->
  ~ normal_power t v \/ (Rabs (real_of t v) <= Rabs (value m))%R -> good_fallback t fb ->
  exists r, atof (fmt_of t) (written m ++ c :: rest) true fb errno = Ok r /\
    at_value r = v /\ at_str_end r = Some (len (written m)) /\
    (errno <> ERANGE -> at_status r = success /\ at_errno r = errno \/
       at_used_fallback r = true /\ at_errno r = ERANGE /\ below_normal t (value m)).
Proof.
  intros t v m c rest fb errno H W P Hc Q G.
  destruct (printed_short t v m H W P) as (S1 & S2 & S3 & S4 & _). destruct (printed_parseable t v m H W P Q) as [R1 R2].
  destruct (C46_full_circle_or_deferred t v m c rest true fb errno H W P Hc Q) as [E|E]; rewrite E.
  - eexists. split; [reflexivity|]. cbn. auto.
  - destruct (G m c rest errno W Hc R1) as (r & G1 & G2 & G3 & G4). unfold fallback_answer. rewrite G1.
    eexists. split; [reflexivity|]. cbn [at_value at_status at_str_end at_errno at_used_fallback]. rewrite G3. split; [|split; [reflexivity|]].
    + destruct (C01_reads_back t v m H W P) as (_ & R & _). destruct G4 as [(_ & A & B & _)|[A _]]; [|exfalso; destruct R1 as [_ R1]; lra].
      apply (real_of_inj t); [|exact H|rewrite B; apply R].
      split; [exact A|]. intros (_ & Z1 & Z2).
      assert (M0 : magnitude t (fb_value r) = 0%R) by (unfold magnitude, significand; rewrite Z1, Z2; cbn; ring).
      pose proof (nonzero_above t v H) as NA. pose proof (bpow_gt_0 radix2 (min_exp t)). rewrite <- abs_real, B, (R (fun z => negb (Z.even z)) : rnd t (value m) = _), abs_real in M0. lra.
    + intros NE. destruct G2 as [G2|[G2 G5]]; [left|right; auto]. rewrite G2.
      unfold check_errno. destruct (Z.eqb_spec errno ERANGE); [contradiction|auto].
Qed.

(** * Integers *)

(** C47: integers up to 2^53 (2^24) are printed, and read back without the fallback, whatever follows them. *)
Theorem C47_integers : forall t v N, finite t v -> real_of t v = IZR N -> 0 < Z.abs N <= 2 ^ precision t ->
  exists s, prints t v s /\ forall c rest want fb errno, ends_number c ->
    atof (fmt_of t) (s ++ c :: rest) want fb errno = Ok (answer want errno v success (len s)).
Proof.
  intros t v N Fv RV HN. destruct (C10_integers t v N Fv RV HN) as (ds & D1 & D2 & D3 & P).
  set (m := {| n_sign := if N <? 0 then Minus else NoSign; n_int := ds; n_frac := None; n_exp := None |}).
  assert (Wm : well_formed m).
  { split; [exact D1|]. split; [constructor|]. split; [cbn [n_int m frac_digits n_frac]; rewrite app_nil_r; now apply ne_of_hd|exact I]. }
  assert (Em : written m = if N <? 0 then code "-" :: dchars ds else dchars ds).
  { unfold written, mantissa_text, exponent_text. cbn [m n_sign n_int n_frac n_exp]. rewrite !app_nil_r. destruct (N <? 0); reflexivity. }
  assert (Cm : coefficient m = Z.abs N) by (unfold coefficient, frac_digits; cbn [m n_int n_frac]; now rewrite app_nil_r).
  assert (Am : abs_value m = IZR (Z.abs N)) by (unfold abs_value; rewrite Cm; unfold scale, exponent_value, frac_digits; cbn; ring).
  assert (Vm : value m = IZR N).
  { unfold value. rewrite Am. cbn [m n_sign]. destruct (Z.ltb_spec N 0); cbn [is_minus]; [rewrite <- opp_IZR|]; f_equal; lia. }
  assert (Nz : nonzero t v).
  { split; [exact Fv|]. intros (_ & Z1 & Z2).
    assert (M0 : magnitude t v = 0%R) by (unfold magnitude, significand; rewrite Z1, Z2; cbn; ring).
    rewrite <- abs_real, RV, <- abs_IZR in M0. apply eq_IZR in M0. lia. }
  rewrite <- Em in P. exists (written m). split; [exact P|]. intros c rest want fb errno Hc.
  destruct (printed_short t v m Nz Wm P) as (S1 & S2 & _).
  assert (RM : rnd t (value m) = value m).
  { destruct (C01_reads_back t v m Nz Wm P) as (_ & R & _). transitivity (real_of t v); [apply R|congruence]. }
  destruct (C56_exact_numbers t m c rest want fb errno Wm Hc S2 S1) as (w & E & F & G); [|exact RM|].
  - apply (printed_parseable t v m Nz Wm P). right. rewrite Vm, RV. lra.
  - rewrite E. do 2 f_equal. apply (real_of_inj t); [|exact Nz|congruence].
    split; [exact F|]. intros (_ & Z1 & Z2).
    assert (M0 : magnitude t w = 0%R) by (unfold magnitude, significand; rewrite Z1, Z2; cbn; ring).
    rewrite <- abs_real, G, Vm, <- abs_IZR in M0. apply eq_IZR in M0. lia.
Qed.
