(** Powers of two that are printed too small do not survive: the other half of C46. *)
From Coq Require Import Reals Lra Lia ZArith List String Ascii.
From Flocq Require Import Core.
From Verif Require Import Machine MachineFacts BitOps StaticPow Fraction Format DiyFp KComp Chars Grisu Ftoa Krosh Atof Spec ParseSpec Api ParseApi Instances
  DiyFacts BoundFacts TableFacts DigitGenFacts GrisuFacts PrettifyFacts ShownFacts FtoaFacts RoundFacts WrittenFacts PrintProps PrintProps2 PrintProps3 DownFacts DvalFacts CmpFacts ArithProps ScanFacts LoopFacts ParseFacts GapFacts KroshNum ShortFacts FracFacts LongFacts ParseProps Refuted LocalFacts LocalProps NegProps RoundTrip.
Open Scope Z_scope.

(** All normal powers of two of a type, by exponent field. *)
Definition count (n : Z) : list Z := map Z.of_nat (seq 0 (Z.to_nat n)).
Definition powers (t : ftype) : list Z := map (fun i => (i + 1) * 2 ^ (precision t - 1)) (count (all_ones t - 1)).

(** Where the decimal [d * 10^K] lies with respect to [f * 2^e], by the table of powers of ten if
    that tells, else by exact arithmetic. *)
Inductive place := NotBelow | WellBelow | JustBelow.
Definition placed_exactly (t : ftype) (d K f e : Z) : place :=
  let x := dec_part d K e in let y := bin_part f e K in
  if x <? y then if x * 2 ^ (width t - 2) <=? y * (2 ^ (width t - 2) - 1) then WellBelow else JustBelow else NotBelow.
Definition placed (t : ftype) (d K f e : Z) : place :=
  match cached_power (fmt_of t) K with
  | Ok c =>
      let y := f * 2 ^ (e - m_e c + 1) in
      if e - m_e c + 1 <? 0 then placed_exactly t d K f e
      else if y <=? d * (2 * m_f c - 1) then NotBelow
      else if d * (2 * m_f c + 1) * 2 ^ (width t - 2) <=? y * (2 ^ (width t - 2) - 1) then WellBelow
      else placed_exactly t d K f e
  | Fault _ => placed_exactly t d K f e
  end.

(** run the digit generator and, if the number is printed below its value, the parser on one
    positive power of two *)
Definition power_class (t : ftype) (u : Z) : option place :=
  match grisu2 (fmt_of t) u (repeat 0 20) 0 with
  | Ok (b, n, K) =>
      let ds := map (fun c => c - 48) (firstn (Z.to_nat n) b) in
      let back w :=
        match krosh (fmt_of t) (written (shown NoSign ds K) ++ [0]) with
        | Ok r => kr_is_accurate r && (match kr_status r with success => true | _ => false end) &&
                  (kr_str_end r =? len (written (shown NoSign ds K))) && (kr_value r =? w)
        | Fault _ => false
        end in
      let p := placed t (dval ds) K (significand t u) (exponent t u) in
      if match p with
         | NotBelow => true
         | WellBelow => back (u - 2 ^ (precision t - 1))
         | JustBelow => back u
         end then Some p else None
  | Fault _ => None
  end.

(** the classes of all powers of two; at most [limit] of them in a row are well below, and the first is not *)
Fixpoint runs_below (limit now : nat) (l : list (option place)) : bool :=
  match l with
  | [] => true
  | None :: _ => false
  | Some WellBelow :: l => (now <? limit)%nat && runs_below limit (S now) l
  | Some _ :: l => runs_below limit 0 l
  end.
Definition longest_run (t : ftype) : nat := match t with Float => 5 | Double => 9 end.
Lemma powers_classes : forall t, runs_below (longest_run t) (longest_run t) (map (power_class t) (powers t)) = true.
Proof.
  intros t. destruct t; vm_cast_no_check (eq_refl true).
Qed.
Lemma runs_some : forall limit l now x, runs_below limit now l = true -> In x l -> exists p, x = Some p.
Proof.
  induction l as [|y l IH]; intros now x H I; [destruct I|]. cbn [runs_below] in H. destruct I as [<-|I]; [destruct y as [p|]; [eauto|discriminate]|].
  destruct y as [[| |]|]; [eauto| |eauto|discriminate]. apply andb_prop in H as [_ H]. eauto.
Qed.
Lemma powers_checked : forall t u, In u (powers t) -> exists p, power_class t u = Some p.
Proof.
  intros t u I. apply (runs_some _ _ _ _ (powers_classes t)). now apply in_map.
Qed.

Lemma in_count : forall n i, 0 <= i < n -> In i (count n).
Proof. intros n i H. unfold count. apply in_map_iff. exists (Z.to_nat i). split; [lia|]. apply in_seq. lia. Qed.

(** every normal power of two is in the list, up to its sign *)
Lemma powers_complete : forall t v, finite t v -> normal_power t v ->
  exists u neg, In u (powers t) /\ v = u + zero_of t neg /\ (sign_field t v =? 1) = neg /\ 0 < u < 2 ^ (width t - 1).
Proof.
  intros t v H (k & Hk0 & Hk). pose proof (width_facts t) as W. rewrite abs_real in Hk. destruct H as [[P0 P1] Fi].
  set (neg := sign_field t v =? 1). set (u := v - zero_of t neg).
  pose proof (pow2_half (width t) ltac:(lia)) as E2. pose proof (pow2_pos (width t - 1) ltac:(lia)) as PW.
  assert (S : sign_field t v = 0 /\ v < 2 ^ (width t - 1) \/ sign_field t v = 1 /\ 2 ^ (width t - 1) <= v).
  { unfold sign_field. destruct (Z.lt_ge_cases v (2 ^ (width t - 1))); [left|right]; (split; [|assumption]).
    - now apply Z.div_small.
    - symmetry. apply Z.div_unique with (v - 2 ^ (width t - 1)); lia. }
  assert (U : 0 <= u < 2 ^ (width t - 1)) by (unfold u, neg, zero_of; destruct S as [[-> ?]|[-> ?]]; cbn [Z.eqb Pos.eqb]; lia).
  set (p := 2 ^ (precision t - 1)). pose proof (pow2_pos (precision t - 1) ltac:(lia)) as Pp. fold p in Pp.
  assert (EW : 2 ^ (width t - 1) = 2 ^ (width t - precision t) * p) by (unfold p; rewrite <- Z.pow_add_r by lia; f_equal; lia).
  pose proof (pow2_pos (width t - precision t) ltac:(lia)) as PQ.
  assert (EV : v = u + zero_of t neg) by (unfold u; lia).
  assert (ZM : zero_of t neg = (if neg then 2 ^ (width t - precision t) else 0) * p) by (unfold zero_of; destruct neg; [exact EW|lia]).
  assert (FF : frac_field t v = u mod p).
  { unfold frac_field. fold p. rewrite EV, ZM. apply Z.mod_add. lia. }
  assert (EF : exp_field t v = u / p).
  { unfold exp_field. fold p. rewrite EV, ZM, Z.div_add by lia.
    assert (0 <= u / p < 2 ^ (width t - precision t)) by (split; [apply Z.div_pos; lia|apply Z.div_lt_upper_bound; lia]).
    destruct neg; [rewrite <- (Z.mul_1_l (2 ^ (width t - precision t))) at 1; rewrite Z.mod_add by lia|rewrite Z.add_0_r]; now apply Z.mod_small. }
  exists u, neg.
  (* the significand is a power of two *)
  pose proof (significand_range t v) as [SR1 SR2].
  unfold magnitude in Hk.
  assert (E : IZR (significand t v) = bpow radix2 (k - exponent t v)).
  { unfold Z.sub. rewrite bpow_plus, <- Hk, Rmult_assoc, <- bpow_plus. replace (exponent t v + - exponent t v) with 0 by lia. cbn [bpow]. ring. }
  assert (SR3 : k - exponent t v < precision t).
  { apply (lt_bpow radix2). rewrite <- E, (bpow_IZR radix2 (precision t)) by lia. now apply IZR_lt. }
  pose proof (Z.div_mod u p ltac:(lia)) as DM. pose proof (Z.mod_pos_bound u p Pp) as MB.
  assert (ED : exponent t v = min_exp t + Z.max 1 (u / p) - 1) by (unfold exponent; now rewrite EF).
  assert (Q0 : u / p <> 0).
  { intros Q0. rewrite Q0 in ED. unfold significand in E, SR2. rewrite EF, Q0, FF in E. cbn [Z.eqb] in E.
    assert (p <= u mod p); [|lia]. apply le_IZR. rewrite E. unfold p. change (2 ^ (precision t - 1)) with (radix2 ^ (precision t - 1)).
    rewrite <- bpow_IZR by lia. apply bpow_le. lia. }
  unfold significand in E. rewrite EF, FF in E. destruct (Z.eqb_spec (u / p) 0) as [|_]; [contradiction|]. fold p in E.
  assert (K0 : precision t - 1 <= k - exponent t v).
  { assert (bpow radix2 (precision t - 1) <= bpow radix2 (k - exponent t v))%R; [|now apply le_bpow in H].
    rewrite <- E, bpow_IZR by lia. apply IZR_le. change (radix2 ^ (precision t - 1)) with p. lia. }
  assert (M0 : u mod p = 0).
  { replace (k - exponent t v) with (precision t - 1) in E by lia. rewrite bpow_IZR in E by lia. apply eq_IZR in E. change (radix2 ^ (precision t - 1)) with p in E. lia. }
  assert (QB : 0 <= u / p < all_ones t + 1).
  { unfold all_ones. split; [apply Z.div_pos; lia|]. apply Z.div_lt_upper_bound; lia. }
  split.
  - unfold powers. apply in_map_iff. exists (u / p - 1). split; [fold p; lia|]. apply in_count. rewrite EF in Fi. lia.
  - split; [exact EV|]. split; [reflexivity|]. split; [|lia]. nia.
Qed.

Lemma bits_fields : forall t u neg, 0 <= u < 2 ^ (width t - 1) -> let v := u + zero_of t neg in
  pattern t v /\ exp_field t v = u / 2 ^ (precision t - 1) /\ frac_field t v = u mod 2 ^ (precision t - 1).
Proof.
  intros t u neg U v. pose proof (width_facts t) as W. pose proof (pow2_half (width t) ltac:(lia)) as E2.
  set (p := 2 ^ (precision t - 1)) in *. pose proof (pow2_pos (precision t - 1) ltac:(lia)) as Pp. fold p in Pp.
  assert (EW : 2 ^ (width t - 1) = 2 ^ (width t - precision t) * p) by (unfold p; rewrite <- Z.pow_add_r by lia; f_equal; lia).
  pose proof (pow2_pos (width t - precision t) ltac:(lia)) as PQ.
  assert (ZM : zero_of t neg = (if neg then 2 ^ (width t - precision t) else 0) * p) by (unfold zero_of; destruct neg; [exact EW|lia]).
  split; [unfold pattern, v; destruct neg; cbn [zero_of]; lia|]. split.
  - unfold exp_field, v. fold p. rewrite ZM, Z.div_add by lia.
    assert (0 <= u / p < 2 ^ (width t - precision t)) by (split; [apply Z.div_pos; lia|apply Z.div_lt_upper_bound; lia]).
    destruct neg; [rewrite <- (Z.mul_1_l (2 ^ (width t - precision t))) at 1; rewrite Z.mod_add by lia|rewrite Z.add_0_r]; now apply Z.mod_small.
  - unfold frac_field, v. fold p. rewrite ZM. apply Z.mod_add. lia.
Qed.

(** a power of two with the exponent field lowered by one *)
Lemma power_halved : forall t u neg k, In u (powers t) -> Rabs (real_of t (u + zero_of t neg)) = bpow radix2 k ->
  let w := u + zero_of t neg - 2 ^ (precision t - 1) in
  finite t w /\ Rabs (real_of t w) = (if k =? min_exp t + precision t - 1 then 0 else bpow radix2 (k - 1))%R.
Proof.
  intros t u neg k Hu Hk w. pose proof (width_facts t) as W. unfold powers in Hu. apply in_map_iff in Hu as (i & <- & Hi).
  unfold count in Hi. apply in_map_iff in Hi as (j & <- & Hj). apply in_seq in Hj. set (i := Z.of_nat j) in *.
  set (p := 2 ^ (precision t - 1)) in *. pose proof (pow2_pos (precision t - 1) ltac:(lia)) as Pp. fold p in Pp.
  assert (Hi : 0 <= i < all_ones t - 1) by lia.
  assert (EW : 2 ^ (width t - 1) = 2 ^ (width t - precision t) * p) by (unfold p; rewrite <- Z.pow_add_r by lia; f_equal; lia).
  assert (Hw : w = i * p + zero_of t neg) by (unfold w; lia).
  assert (B1 : 0 <= (i + 1) * p < 2 ^ (width t - 1)) by (rewrite EW; unfold all_ones in Hi; nia).
  assert (B0 : 0 <= i * p < 2 ^ (width t - 1)) by (rewrite EW; unfold all_ones in Hi; nia).
  destruct (bits_fields t ((i + 1) * p) neg B1) as (P1 & X1 & F1). destruct (bits_fields t (i * p) neg B0) as (P0 & X0 & F0).
  fold p in X1, F1, X0, F0. rewrite Z.div_mul, ?Z.mod_mul in * by lia. rewrite <- Hw in *.
  rewrite abs_real in *. unfold magnitude, significand, exponent in *. rewrite X1, F1 in Hk. rewrite X0, F0.
  destruct (Z.eqb_spec (i + 1) 0); [lia|]. fold p in Hk. fold p.
  assert (Kk : k = min_exp t + i + precision t - 1).
  { rewrite Z.add_0_l, Z.max_r in Hk by lia. unfold p in Hk. change (2 ^ (precision t - 1)) with (radix2 ^ (precision t - 1)) in Hk. rewrite <- bpow_IZR, <- bpow_plus in Hk by lia. apply bpow_inj in Hk. lia. }
  split; [split; [exact P0|rewrite X0; lia]|].
  destruct (Z.eqb_spec i 0) as [Z0|Z0]; destruct (Z.eqb_spec k (min_exp t + precision t - 1)) as [Z1|Z1]; try lia; [ring|].
  rewrite Z.add_0_l, Z.max_r by lia. unfold p. change (2 ^ (precision t - 1)) with (radix2 ^ (precision t - 1)). rewrite <- bpow_IZR, <- bpow_plus by lia. f_equal. lia.
Qed.

Lemma dec_compare : forall d j f e, (dec_part d j e <? bin_part f e j) = true <-> (IZR d * pow10 j < IZR f * bpow radix2 e)%R.
Proof.
  intros d j f e. split; [apply dec_lt_bin|]. intros H. destruct (cmp_scaled d j f e) as [C1 C2]. pose proof (scale_pos j e) as P.
  apply Z.ltb_lt, lt_IZR. rewrite <- C1, <- C2. now apply Rmult_lt_compat_r.
Qed.
Lemma dec_compare_margin : forall d j f e w, 2 <= w ->
  (dec_part d j e * 2 ^ (w - 2) <=? bin_part f e j * (2 ^ (w - 2) - 1)) = true <->
  (IZR d * pow10 j <= IZR f * bpow radix2 e * (1 - bpow radix2 (2 - w)))%R.
Proof.
  intros d j f e w Hw. destruct (cmp_scaled d j f e) as [C1 C2]. pose proof (scale_pos j e) as P.
  set (S := (IZR (10 ^ Z.max 0 (- j)) * IZR (2 ^ Z.max 0 (- e)))%R) in *.
  assert (B : (IZR (2 ^ (w - 2)) = bpow radix2 (w - 2))%R) by (rewrite bpow_IZR by lia; reflexivity).
  assert (BI : (bpow radix2 (w - 2) * bpow radix2 (2 - w) = 1)%R) by (rewrite <- bpow_plus; replace (w - 2 + (2 - w)) with 0 by lia; reflexivity).
  pose proof (bpow_gt_0 radix2 (w - 2)) as Pw.
  assert (L : (IZR (dec_part d j e * 2 ^ (w - 2)) = IZR d * pow10 j * (S * bpow radix2 (w - 2)))%R) by (rewrite mult_IZR, B, <- C1; ring).
  assert (R : (IZR (bin_part f e j * (2 ^ (w - 2) - 1)) = IZR f * bpow radix2 e * (1 - bpow radix2 (2 - w)) * (S * bpow radix2 (w - 2)))%R).
  { rewrite mult_IZR, minus_IZR, B, <- C2. replace (1 - bpow radix2 (2 - w))%R with ((bpow radix2 (w - 2) - 1) * bpow radix2 (2 - w))%R by (rewrite Rmult_minus_distr_r, BI; ring).
    transitivity (IZR f * bpow radix2 e * S * (bpow radix2 (w - 2) - 1) * (bpow radix2 (w - 2) * bpow radix2 (2 - w)))%R; [rewrite BI; ring|ring]. }
  assert (Q : (0 < S * bpow radix2 (w - 2))%R) by now apply Rmult_lt_0_compat.
  split; intros H.
  - apply Z.leb_le, IZR_le in H. rewrite L, R in H. now apply Rmult_le_reg_r in H.
  - apply Z.leb_le, le_IZR. rewrite L, R. apply Rmult_le_compat_r; [now apply Rlt_le|exact H].
Qed.

(** the place of a number *)
Definition in_place (t : ftype) (x y : R) (p : place) : Prop :=
  match p with
  | NotBelow => (y <= x)%R
  | WellBelow => (x <= y * (1 - bpow radix2 (2 - width t)))%R
  | JustBelow => (y * (1 - bpow radix2 (2 - width t)) < x)%R
  end.

Lemma placed_exactly_ok : forall t d K f e, in_place t (IZR d * pow10 K) (IZR f * bpow radix2 e) (placed_exactly t d K f e).
Proof.
  intros t d K f e. pose proof (width_facts t) as W. unfold placed_exactly. cbv zeta.
  destruct (dec_part d K e <? bin_part f e K) eqn:L.
  - destruct (_ <=? _) eqn:M; cbn [in_place].
    + apply dec_compare_margin; [lia|exact M].
    + apply Rnot_le_lt. intros C. apply dec_compare_margin in C; [congruence|lia].
  - cbn [in_place]. apply Rnot_lt_le. intros C. apply dec_compare in C. congruence.
Qed.

Lemma placed_ok : forall t d K f e, 0 <= d -> - table_max t <= K <= table_max t -> in_place t (IZR d * pow10 K) (IZR f * bpow radix2 e) (placed t d K f e).
Proof.
  intros t d K f e Hd HK. pose proof (width_facts t) as W. destruct (cached_power_ok t K HK) as (cf & ce & C1 & C2 & C3 & C4 & _).
  unfold placed. rewrite C1. cbn [m_f m_e]. cbv zeta.
  destruct (Z.ltb_spec (e - ce + 1) 0) as [E|E]; [apply placed_exactly_ok|].
  set (q := bpow radix2 (ce - 1)). assert (Pq : (0 < q)%R) by apply bpow_gt_0.
  assert (Ec : (bpow radix2 ce = 2 * q)%R).
  { unfold q. replace ce with (1 + (ce - 1)) at 1 by lia. rewrite bpow_plus. reflexivity. }
  assert (Ee : (bpow radix2 e = IZR (2 ^ (e - ce + 1)) * q)%R).
  { change (2 ^ (e - ce + 1)) with (radix2 ^ (e - ce + 1)). rewrite <- bpow_IZR by lia. unfold q. rewrite <- bpow_plus. f_equal. lia. }
  assert (HB : (q * IZR (2 * cf - 1) <= pow10 K <= q * IZR (2 * cf + 1))%R).
  { rewrite Ec in C4. apply Rabs_le_inv in C4. rewrite minus_IZR, plus_IZR, mult_IZR. lra. }
  assert (Hd' : (0 <= IZR d)%R) by now apply IZR_le.
  assert (EY : (IZR f * bpow radix2 e = IZR (f * 2 ^ (e - ce + 1)) * q)%R) by (rewrite Ee, mult_IZR; ring).
  set (y := f * 2 ^ (e - ce + 1)) in *.
  destruct (Z.leb_spec y (d * (2 * cf - 1))) as [L|L].
  - cbn [in_place]. rewrite EY. apply IZR_le in L. rewrite mult_IZR in L. nra.
  - destruct (Z.leb_spec (d * (2 * cf + 1) * 2 ^ (width t - 2)) (y * (2 ^ (width t - 2) - 1))) as [M|M]; [|apply placed_exactly_ok].
    cbn [in_place]. rewrite EY. apply IZR_le in M. rewrite !mult_IZR, minus_IZR in M.
    assert (B : (IZR (2 ^ (width t - 2)) = bpow radix2 (width t - 2))%R) by (rewrite bpow_IZR by lia; reflexivity).
    assert (BI : (bpow radix2 (width t - 2) * bpow radix2 (2 - width t) = 1)%R) by (rewrite <- bpow_plus; replace (width t - 2 + (2 - width t)) with 0 by lia; reflexivity).
    pose proof (bpow_gt_0 radix2 (2 - width t)) as Pw. rewrite B in M.
    apply Rmult_le_compat_r with (r := bpow radix2 (2 - width t)) in M; [|lra].
    rewrite Rmult_assoc, BI, Rmult_1_r in M.
    replace (IZR y * (bpow radix2 (width t - 2) - 1) * bpow radix2 (2 - width t))%R with (IZR y * (bpow radix2 (width t - 2) * bpow radix2 (2 - width t) - bpow radix2 (2 - width t)))%R in M by ring.
    rewrite BI in M.
    apply Rle_trans with (IZR d * (q * IZR (2 * cf + 1)))%R; [apply Rmult_le_compat_l; tauto|].
    replace (IZR d * (q * IZR (2 * cf + 1)))%R with (q * (IZR d * IZR (2 * cf + 1)))%R by ring.
    replace (IZR y * q * (1 - bpow radix2 (2 - width t)))%R with (q * (IZR y * (1 - bpow radix2 (2 - width t))))%R by ring.
    apply Rmult_le_compat_l; [lra|exact M].
Qed.

Lemma shown_negated : forall ds K, negated (shown NoSign ds K) = shown Minus ds K.
Proof. intros. unfold shown. cbv zeta. destruct (16 <? _); [reflexivity|]. destruct (0 <=? K); [reflexivity|]. destruct (0 <? _); reflexivity. Qed.

(** what happens to a normal power of two that is printed below its value *)
Lemma power_outcome : forall t v m c rest want fb errno, finite t v -> normal_power t v -> well_formed m -> prints t v (written m) -> ends_number c ->
  (Rabs (value m) < Rabs (real_of t v))%R ->
  exists w, atof (fmt_of t) (written m ++ c :: rest) want fb errno = Ok (answer want errno w success (len (written m))) /\
    ((Rabs (value m) <= Rabs (real_of t v) * (1 - bpow radix2 (2 - width t)))%R -> w = v - 2 ^ (precision t - 1)) /\
    ((Rabs (real_of t v) * (1 - bpow radix2 (2 - width t)) < Rabs (value m))%R -> w = v).
Proof.
  intros t v m c rest want fb errno Fv Np W P Hc L. pose proof (width_facts t) as Ww.
  assert (Hnz : nonzero t v).
  { split; [exact Fv|]. intros (_ & Z1 & Z2). destruct Np as (k & _ & Hk). rewrite abs_real in Hk. unfold magnitude, significand in Hk. rewrite Z1, Z2 in Hk.
    cbn [Z.eqb] in Hk. pose proof (bpow_gt_0 radix2 k). lra. }
  destruct (powers_complete t v Fv Np) as (u & neg & U1 & U2 & U3 & U4). destruct (powers_checked t u U1) as (pl & C).
  assert (Pu : pattern t u) by (destruct (bits_fields t u false ltac:(lia)) as (B & _); cbn [zero_of] in B; rewrite Z.add_0_r in B; exact B).
  assert (Vu : v = if neg then opposite t u else u).
  { rewrite U2. destruct neg; cbn [zero_of]; [|lia]. unfold opposite. destruct (Z.ltb_spec u (2 ^ (width t - 1))); lia. }
  destruct (ftoa_finite_g t v Hnz) as (ds & K & lo & hi & D1 & D2 & D3 & D4 & D5 & _ & _ & _ & _ & PR & LN & GR). cbv zeta in *.
  specialize (GR [] (repeat 0 20) ltac:(clear - D4; unfold zlen in D4; rewrite repeat_length; destruct t; cbn [max_sig] in D4; lia)).
  change (zlen []) with 0 in GR. cbn [app] in GR.
  assert (GU : grisu2 (fmt_of t) u (repeat 0 20) 0 = grisu2 (fmt_of t) v (repeat 0 20) 0).
  { rewrite Vu. destruct neg; [|reflexivity]. now rewrite opposite_grisu2. }
  unfold power_class in C. rewrite GU, GR in C. cbv beta iota zeta in C.
  assert (ED : map (fun c => c - 48) (firstn (Z.to_nat (zlen ds)) (dchars ds ++ skipn (length ds) (repeat 0 20))) = ds).
  { unfold zlen. rewrite Nat2Z.id. replace (length ds) with (length (dchars ds)) at 1 by (unfold dchars; now rewrite map_length).
    rewrite firstn_app, Nat.sub_diag, firstn_all. cbn [firstn]. rewrite app_nil_r. unfold dchars. rewrite map_map. change (code "0") with 48.
    rewrite <- (map_id ds) at 2. apply map_ext. intros. lia. }
  rewrite ED in C. clear ED GR GU. apply (f_equal (fun o : option place => match o with Some _ => true | None => false end)) in C.
  assert (HK : -500 <= K <= 500) by (clear - D5; destruct t; cbn [kmin kmax] in D5; lia).
  assert (HT : - table_max t <= K <= table_max t) by (clear - D5; destruct t; cbn [kmin kmax table_max] in *; lia).
  assert (Hn : zlen ds <= 17) by (clear - D4; destruct t; cbn [max_sig] in D4; lia).
  pose proof (prints_unique _ _ _ _ P PR) as E. apply written_inj in E; [|assumption|now apply shown_wf].
  assert (SG : sign_of t v = if neg then Minus else NoSign) by (unfold sign_of; now rewrite U3).
  assert (V : abs_value m = (IZR (dval ds) * pow10 K)%R) by (rewrite E; now apply shown_value).
  assert (SE : significand t u = significand t v /\ exponent t u = exponent t v).
  { rewrite Vu. destruct neg; [|auto]. destruct (opposite_significand t u Pu) as [-> ->]. auto. }
  destruct SE as [SE1 SE2]. rewrite SE1, SE2 in C. match type of C with (match (if ?b then _ else _) with _ => _ end) = true => assert (C' : b = true) by (destruct b; [reflexivity|discriminate C]) end. clear C. rename C' into C.
  pose proof (placed_ok t (dval ds) K (significand t v) (exponent t v) ltac:(pose proof (dval_pos ds D1 D2); lia) HT) as PL.
  rewrite value_abs, abs_real in * by assumption. change (IZR (significand t v) * bpow radix2 (exponent t v))%R with (magnitude t v) in PL. rewrite <- V in PL.
  set (n := shown NoSign ds K) in *. assert (Wn : well_formed n) by now apply shown_wf.
  assert (N0 : ends_number 0) by (repeat split; vm_compute; intuition congruence).
  assert (PM : (0 < magnitude t v)%R) by (pose proof (nonzero_above t v Hnz); pose proof (bpow_gt_0 radix2 (min_exp t)); lra). pose proof (bpow_gt_0 radix2 (2 - width t)) as Pw.
  (* the outcome for the positive text, then for the text with the sign *)
  assert (BK : forall w, match krosh (fmt_of t) (written n ++ [0]) with
        | Ok r => kr_is_accurate r && (match kr_status r with success => true | _ => false end) && (kr_str_end r =? len (written n)) && (kr_value r =? w)
        | Fault _ => false end = true ->
      atof (fmt_of t) (written m ++ c :: rest) want fb errno = Ok (answer want errno (if neg then opposite t w else w) success (len (written m)))).
  { intros w B. destruct (krosh (fmt_of t) (written n ++ [0])) as [r|] eqn:Ek; [|discriminate].
    apply andb_prop in B as [B B4]. apply andb_prop in B as [B B3]. apply andb_prop in B as [B1 B2].
    destruct (krosh_local t (written n) 0 c [] rest N0 Hc (self_contained_closed _ 0 c (written_self_contained n Wn))) as [E' _]. rewrite Ek in E'.
    destruct r as [rv re rs ra]. cbn [kr_value kr_str_end kr_status kr_is_accurate] in *. destruct rs; try discriminate. subst ra.
    apply Z.eqb_eq in B3, B4. subst re rv. symmetry in E'.
    assert (A : forall want fb errno, atof (fmt_of t) (written n ++ c :: rest) want fb errno = Ok (answer want errno w success (len (written n)))).
    { intros want' fb' errno'. refine (atof_fast _ _ _ _ _ _ _ _ E' _). exact (written_nonempty n Wn). }
    destruct neg.
    - rewrite SG in E. assert (Em : m = negated n) by (rewrite E; unfold n; now rewrite shown_negated).
      assert (Ln : (length (written n) <= 2048)%nat).
      { rewrite SG in LN. unfold zlen in LN. rewrite shown_opposite in LN. cbn [length] in LN. unfold n. destruct t; lia. }
      assert (Lm : len (written m) = len (written n) + 1).
      { rewrite E. unfold n, len. rewrite shown_opposite. cbn [length]. lia. }
      destruct (C48_number t n c rest Wn (shown_sign NoSign ds K) Hc Ln) as [(f & F)|[F|[(x & x' & st & e & X & F)|F]]]; cbv zeta in F.
      + destruct (F want fb errno) as [F1 _]. rewrite A in F1. discriminate.
      + specialize (F true fb errno). rewrite A in F. exfalso. apply (written_nonempty n Wn). injection F as _ F. exact F.
      + destruct (F true fb errno) as [F1 _]. rewrite A in F1. injection F1 as <- <- <-. destruct (F want fb errno) as [_ F2].
        rewrite Em at 1. rewrite F2, Lm. destruct X as [->|[_ X]]; [reflexivity|congruence].
      + destruct (F want (fun _ _ => Fault OutOfFuel) errno) as [F1 _]. rewrite A in F1. unfold fallback_answer in F1. discriminate.
    - rewrite SG in E. rewrite E. apply A. }
  assert (OP : forall w, 0 <= w < 2 ^ (width t - 1) -> opposite t w = w + 2 ^ (width t - 1)).
  { intros w Hw. unfold opposite. destruct (Z.ltb_spec w (2 ^ (width t - 1))); lia. }
  destruct (placed t (dval ds) K (significand t v) (exponent t v)); cbn [in_place] in PL.
  - lra.
  - eexists. split; [exact (BK _ C)|]. split; [intros _|intros; lra].
    assert (Hu : 2 ^ (precision t - 1) <= u).
    { unfold powers in U1. apply in_map_iff in U1 as (i & <- & Hi). unfold count in Hi. apply in_map_iff in Hi as (j & <- & _).
      pose proof (pow2_pos (precision t - 1) ltac:(lia)). nia. }
    rewrite U2. destruct neg; cbn [zero_of]; [|lia]. pose proof (pow2_pos (precision t - 1) ltac:(lia)). rewrite OP by lia. lia.
  - eexists. split; [exact (BK _ C)|]. split; [intros; lra|intros _]. symmetry. exact Vu.
Qed.

(** C46, the exception: a normal power of two printed below its value by more than a fraction of
    2^(2 - width) comes back as its half (as zero, if it is the smallest normal number), with
    status success and without a call of the fallback. *)
Theorem C46_power_lost : forall t v m c rest want fb errno k, finite t v -> min_exp t + precision t - 1 <= k -> Rabs (real_of t v) = bpow radix2 k ->
  well_formed m -> prints t v (written m) -> ends_number c ->
  (Rabs (value m) <= Rabs (real_of t v) * (1 - bpow radix2 (2 - width t)))%R ->
  exists w, atof (fmt_of t) (written m ++ c :: rest) want fb errno = Ok (answer want errno w success (len (written m))) /\
    finite t w /\ Rabs (real_of t w) = (if k =? min_exp t + precision t - 1 then 0 else bpow radix2 (k - 1))%R.
Proof.
  intros t v m c rest want fb errno k Fv Hk Pk W P Hc L. pose proof (bpow_gt_0 radix2 (2 - width t)) as P2. pose proof (bpow_gt_0 radix2 k) as P3.
  assert (Np : normal_power t v) by (exists k; auto).
  destruct (power_outcome t v m c rest want fb errno Fv Np W P Hc) as (w & E & A & _); [rewrite Pk in *; nra|].
  exists w. split; [exact E|]. rewrite (A L). destruct (powers_complete t v Fv Np) as (u & neg & U1 & U2 & _). rewrite U2 in Pk |- *.
  now apply power_halved.
Qed.

(** C46: exactly which values survive the way to text and back, with a correctly rounding fallback *)
Theorem C46_exactly : forall t v m c rest fb errno, nonzero t v -> well_formed m -> prints t v (written m) -> ends_number c ->
  good_fallback t fb ->
  (exists r, atof (fmt_of t) (written m ++ c :: rest) true fb errno = Ok r /\ at_value r = v) <->
  ~ (normal_power t v /\ (Rabs (value m) <= Rabs (real_of t v) * (1 - bpow radix2 (2 - width t)))%R).
Proof.
  intros t v m c rest fb errno H W P Hc G. split.
  - intros (r & E & Ev) (Np & L). destruct Np as (k & K1 & K2).
    destruct (C46_power_lost t v m c rest true fb errno k (proj1 H) K1 K2 W P Hc L) as (w & E' & F & Rw).
    rewrite E in E'. injection E' as ->. cbn in Ev. subst w. rewrite K2 in Rw.
    pose proof (bpow_gt_0 radix2 k). destruct (_ =? _); [lra|]. assert (bpow radix2 (k - 1) < bpow radix2 k)%R by (apply bpow_lt; lia). lra.
  - intros N.
    destruct (Rlt_or_le (Rabs (value m)) (Rabs (real_of t v))) as [L|L].
    + destruct (Classical_Prop.classic (normal_power t v)) as [Np|Np].
      * destruct (power_outcome t v m c rest true fb errno (proj1 H) Np W P Hc L) as (w & E & _ & B).
        eexists. split; [exact E|]. cbn. apply B. apply Rnot_le_lt. intros C. apply N. auto.
      * destruct (C46_full_circle t v m c rest fb errno H W P Hc (or_introl Np) G) as (r & E & A & _). eauto.
    + destruct (C46_full_circle t v m c rest fb errno H W P Hc (or_intror L) G) as (r & E & A & _). eauto.
Qed.
