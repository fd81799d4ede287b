(** Reading any text: the digits that are looked at, computed. *)
From Coq Require Import Reals Lra Lia ZArith Bool List String Ascii.
From Flocq Require Import Core.
From Verif Require Import Machine MachineFacts BitOps StaticPow Fraction Format DiyFp KComp Chars Krosh Atof Spec ParseSpec TextSpec ReadSpec MeanSpec SameSpec ExactSpec WholeSpec ParseApi Instances
  DiyFacts BoundFacts TableFacts GrisuFacts FtoaFacts RoundFacts DownFacts DvalFacts CmpFacts ArithProps ScanFacts LoopFacts ParseFacts GapFacts KroshNum ShortFacts FracFacts LongFacts RangeFacts ScaledFacts SameFacts ParseProps Refuted LocalFacts LocalProps NegFacts Marker Tokens Truncate Defined Ends Reading ErrorProps Meaning ExactFacts.
Open Scope Z_scope.

(** * The digits behind the first significant ones *)

Lemma dval_drop : forall l, dval (drop_zeros l) = dval l.
Proof. intros l. destruct (drop_zeros_split l) as (k & E). rewrite E at 2. rewrite dval_app, dval_zeros. lia. Qed.

Lemma behind_split : forall t L, Forall digit L -> let l := behind t L in Forall digit l /\
  exists P, dval L = P * 10 ^ zlen l + dval l /\ 0 <= P < 10 ^ exact_digits t /\ (l <> [] -> 10 ^ (exact_digits t - 1) <= P).
Proof.
  intros t L D l. assert (KP : 0 < exact_digits t) by (destruct t; cbn; lia).
  pose proof (Forall_drop L D) as DD. unfold l, behind. set (N := Z.to_nat (exact_digits t)).
  rewrite <- (dval_drop L). pose proof (drop_zeros_hd L) as HD. set (M := drop_zeros L) in *. clearbody M.
  rewrite <- (firstn_skipn N M) in DD. apply Forall_app in DD as [D1 D2]. split; [exact D2|].
  exists (dval (firstn N M)). split; [rewrite <- dval_app, firstn_skipn; reflexivity|].
  pose proof (dval_bounds _ D1) as B. split.
  { split; [lia|]. apply Z.lt_le_trans with (1 := proj2 B). apply Z.pow_le_mono_r; [lia|]. unfold zlen. rewrite firstn_length. unfold N. lia. }
  intros NE. assert (LN : (N < List.length M)%nat).
  { destruct (le_lt_dec (List.length M) N) as [G|]; [|assumption]. exfalso. apply NE. now apply skipn_all2. }
  assert (LF : zlen (firstn N M) = exact_digits t) by (unfold zlen; rewrite firstn_length; unfold N in *; lia).
  destruct M as [|x M]; [cbn in LN; lia|]. specialize (HD ltac:(discriminate)). cbn [hd] in HD.
  destruct (firstn N (x :: M)) as [|y l1] eqn:EF; [rewrite zlen_nil in LF; lia|].
  assert (y = x) as -> by (destruct N; [discriminate EF|]; cbn [firstn] in EF; congruence).
  rewrite zlen_cons in LF. replace (exact_digits t - 1) with (zlen l1) by lia. apply dval_lower; [exact D1|exact HD].
Qed.

(** two ways to take the leading digits *)
Lemma lead_unique : forall k P j R P' j' R', 10 ^ k <= P < 10 ^ (k + 1) -> 10 ^ k <= P' < 10 ^ (k + 1) -> 0 <= k -> 0 <= j -> 0 <= j' ->
  0 <= R < 10 ^ j -> 0 <= R' < 10 ^ j' -> P * 10 ^ j + R = P' * 10 ^ j' + R' -> P = P' /\ j = j' /\ R = R'.
Proof.
  assert (X : forall k P j R P' j' R', 10 ^ k <= P < 10 ^ (k + 1) -> 10 ^ k <= P' < 10 ^ (k + 1) -> 0 <= k -> 0 <= j -> 0 <= j' ->
    0 <= R < 10 ^ j -> 0 <= R' < 10 ^ j' -> P * 10 ^ j + R = P' * 10 ^ j' + R' -> j < j' -> False).
  { intros k P j R P' j' R' B B' K0 J0 J0' HR HR' E L.
    assert (10 ^ (j + 1) <= 10 ^ j') by (apply Z.pow_le_mono_r; lia). rewrite pow10_succ in * by lia.
    pose proof (pow10_pos j J0). pose proof (pow10_pos k K0). set (a := 10 ^ j) in *. set (b := 10 ^ j') in *. set (c := 10 ^ k) in *.
    assert (P * a + R < 10 * c * a) by nia. assert (c * (10 * a) <= P' * b) by nia. nia. }
  intros k P j R P' j' R' B B' K0 J0 J0' HR HR' E.
  assert (j = j').
  { destruct (Z.lt_trichotomy j j') as [L|[L|L]]; [exfalso; exact (X k P j R P' j' R' B B' K0 J0 J0' HR HR' E L)|assumption|
      exfalso; exact (X k P' j' R' P j R B' B K0 J0' J0 HR' HR (eq_sym E) L)]. }
  subst j'. assert (P = P') by nia. subst P'. split; [reflexivity|]. split; [reflexivity|lia].
Qed.

(** what is behind the leading digits [d] *)
Lemma behind_rest : forall t L d j R, Forall digit L -> 0 < d < 10 ^ exact_digits t -> 0 <= j -> dval L = d * 10 ^ j + R ->
  R = 0 \/ 0 < R < 10 ^ j /\ 10 ^ (exact_digits t - 1) <= d ->
  let l := behind t L in Forall digit l /\ (dval l = 0 <-> R = 0) /\ dval l * 10 ^ 4 / 10 ^ zlen l = R * 10 ^ 4 / 10 ^ j.
Proof.
  intros t L d j R D Hd J0 E C l. destruct (behind_split t L D) as (Dl & P & EP & HP & HL). fold l in Dl, EP, HL.
  assert (KP : 0 < exact_digits t) by (destruct t; cbn; lia).
  pose proof (zlen_nonneg l) as L0. pose proof (pow10_pos _ L0) as PL. pose proof (pow10_pos j J0) as PJ. pose proof (dval_bounds l Dl) as BL.
  split; [exact Dl|].
  assert (NIL : l = [] -> dval l = 0) by (intros ->; reflexivity).
  destruct (Z.le_gt_cases (10 ^ (exact_digits t - 1)) d) as [G|G].
  - assert (HR : 0 <= R < 10 ^ j) by lia. destruct l as [|x l'] eqn:El.
    + change (dval []) with 0 in *. change (zlen (@nil Z)) with 0 in *. change (10 ^ 0) with 1 in *.
      assert (j = 0).
      { destruct (Z.eq_dec j 0); [assumption|exfalso]. assert (10 ^ 1 <= 10 ^ j) by (apply Z.pow_le_mono_r; lia). change (10 ^ 1) with 10 in *.
        assert (E10 : 10 ^ exact_digits t = 10 ^ (exact_digits t - 1) * 10).
        { replace (exact_digits t) with (exact_digits t - 1 + 1) at 1 by lia. rewrite Z.pow_add_r by lia. reflexivity. }
        nia. }
      subst j. change (10 ^ 0) with 1 in *. assert (R = 0) by lia. subst R. split; [tauto|reflexivity].
    + rewrite <- El in *. specialize (HL ltac:(rewrite El; discriminate)).
      destruct (lead_unique (exact_digits t - 1) d j R P (zlen l) (dval l)) as (Q1 & Q2 & Q3); try lia; try (replace (exact_digits t - 1 + 1) with (exact_digits t) by lia; lia).
      rewrite <- Q2, <- Q3. split; [tauto|reflexivity].
  - assert (R = 0) by lia. subst R. rewrite Z.add_0_r in E. change (0 * 10 ^ 4) with 0. rewrite Z.div_0_l by lia.
    assert (dval l = 0).
    { destruct l as [|x l'] eqn:El; [reflexivity|]. rewrite <- El in *. specialize (HL ltac:(rewrite El; discriminate)).
      assert (LJ : zlen l < j).
      { destruct (Z.lt_ge_cases (zlen l) j) as [|Q]; [assumption|exfalso]. assert (10 ^ j <= 10 ^ zlen l) by (apply Z.pow_le_mono_r; lia).
        set (u := 10 ^ (exact_digits t - 1)) in *.
        assert (d * 10 ^ j <= d * 10 ^ zlen l) by (apply Z.mul_le_mono_nonneg_l; lia). assert (d * 10 ^ zlen l < P * 10 ^ zlen l) by (apply Z.mul_lt_mono_pos_r; lia). lia. }
      replace j with (j - zlen l + zlen l) in E by lia. rewrite Z.pow_add_r in E by lia. set (u := 10 ^ (j - zlen l)) in *. set (v := 10 ^ zlen l) in *.
      assert (Q : dval l = (d * u - P) * v) by lia. assert (d * u - P = 0) by nia. rewrite H in Q. lia. }
    rewrite H. split; [tauto|]. apply Z.div_0_l. lia.
Qed.

Lemma four_zeros : forall l, Forall digit l -> dval (firstn 4 (l ++ [0; 0; 0; 0])) = dval l * 10 ^ 4 / 10 ^ zlen l.
Proof.
  intros l D. pose proof (first_four l []) as F. rewrite app_nil_r in F. change [0; 0; 0; 0] with (repeat 0 4). apply F; [exact D|right; reflexivity].
Qed.

(** the four digits of a number of any length, computed *)
Definition four_of (t : ftype) (n : numeral) : Z :=
  dval (firstn 4 (behind t (if dval (n_int n) <? 10 ^ exact_digits t then n_int n ++ frac_digits n else n_int n) ++ [0; 0; 0; 0])).

Lemma next_four_eq : forall n d K T T', next_four n d K T -> next_four n d K T' -> T = T'.
Proof. intros n d K T T' H H'. exact (tail_unique n d K T T' H H'). Qed.

Lemma four_looked : forall t n d K T, Forall digit (n_int n) -> Forall digit (frac_digits n) -> point_moved t n d K -> looked_at t n d K T -> four_of t n = T.
Proof.
  intros t n d K T D1 D2 PM LA. unfold four_of, looked_at in *. pose proof PM as (Hd & j & R & J0 & EK & E & C).
  destruct (Z.ltb_spec (dval (n_int n)) (10 ^ exact_digits t)) as [L|L].
  - assert (D : Forall digit (n_int n ++ frac_digits n)) by (apply Forall_app; auto).
    destruct (behind_rest t _ d j R D Hd J0 E) as (Dl & _ & Q); [tauto|]. rewrite (four_zeros _ Dl), Q.
    apply (next_four_eq n d K); [|exact LA]. exists j, R. pose proof (pow10_pos j J0). repeat split; try assumption; lia.
  - destruct LA as (j' & R' & J' & EK' & EN & HR & ->).
    assert (EI : dval (n_int n) = d * 10 ^ j' + R') by (rewrite <- EN; unfold coefficient, integer_only; cbn; now rewrite app_nil_r).
    pose proof (pow10_pos j' J') as PJ'.
    assert (C' : R' = 0 \/ 0 < R' < 10 ^ j' /\ 10 ^ (exact_digits t - 1) <= d).
    { destruct (Z.eq_dec R' 0) as [|N]; [now left|right]. split; [lia|]. destruct C as [[R0 _]|[_ C]]; [exfalso|exact C]. subst R.
      set (z := zlen (frac_digits n)). pose proof (zlen_nonneg (frac_digits n)) as Z0. fold z in Z0. pose proof (pow10_pos z Z0) as PZ.
      pose proof (dval_bounds _ D2) as BF. fold z in BF.
      assert (j = j' + z).
      { rewrite EK in EK'. unfold scale, exponent_value, integer_only in EK'. cbn in EK'. unfold z, zlen. lia. }
      subst j. unfold coefficient in E. rewrite dval_app in E. fold z in E. rewrite Z.pow_add_r in E by lia. nia. }
    destruct (behind_rest t _ d j' R' D1 Hd J' EI C') as (Dl & _ & Q). rewrite (four_zeros _ Dl), Q. reflexivity.
Qed.

(** * What is seen of a number *)

Lemma seen_taken : forall n, bare n -> part_taken n (seen n).
Proof.
  intros n X. unfold seen. apply (split_firstn (mantissa_text n) n []). rewrite <- (app_nil_r (mantissa_text n)).
  apply split_bare_full; [exact X|]. apply cannot_maximal, cannot_zero.
Qed.

Lemma seen_all : forall n, bare n -> (List.length (mantissa_text n) <= parser_limit)%nat -> seen n = n.
Proof.
  intros n X L. apply (taken_unique n); [exact X|now apply seen_taken|]. split; [exact X|]. split; [reflexivity|]. left. auto.
Qed.

(** * Numbers of more than 2049 characters: the digits behind those that are seen *)

Lemma frac_grows : forall s sg I F I2 F2 b P frac, mant sg I F = mant sg I2 F2 ++ b ->
  Forall digit I -> Forall digit (odig F) -> Forall digit I2 -> Forall digit (odig F2) -> (exists q, I = I2 ++ q) ->
  frac_fact s (zlen (sign_text sg)) (I2 ++ odig F2) (zlen (odig F2)) P frac ->
  frac_fact s (zlen (sign_text sg)) (I ++ odig F) (zlen (odig F)) P frac.
Proof.
  intros s sg I F I2 F2 b P frac E DI DF DI2 DF2 (q & Eq) (D1 & d & D2 & z1 & T & F1 & F2' & F3 & F4 & F5 & F6 & F7).
  unfold mant in E. rewrite <- app_assoc in E. apply app_inv_head in E.
  assert (H : exists g, I ++ odig F = (I2 ++ odig F2) ++ g /\ (zlen I <=? zlen D1) = (zlen I2 <=? zlen D1)).
  { destruct F2 as [f2|].
    - destruct q as [|x q].
      + rewrite app_nil_r in Eq. subst I2. rewrite <- app_assoc in E. apply app_inv_head in E. destruct F as [f|]; [|discriminate E].
        cbn [app] in E. injection E as E. cbn [odig] in *. exists (skipn (List.length f2) f). split; [|reflexivity]. rewrite <- app_assoc. f_equal.
        apply (f_equal (map (fun c => c - 48))) in E. rewrite map_app in E.
        assert (M : forall l, map (fun c => c - 48) (dchars l) = l).
        { intros l. unfold dchars. rewrite map_map. rewrite <- (map_id l) at 2. apply map_ext. intros a. change (code "0") with 48. lia. }
        rewrite !M in E. rewrite E at 2. rewrite skipn_app, skipn_all, Nat.sub_diag. exact E.
      + exfalso. rewrite Eq, dchars_app, <- !app_assoc in E. apply app_inv_head in E. apply (f_equal (hd 0)) in E. change (48 + x = 46) in E.
        rewrite Eq in DI. apply Forall_app in DI as [_ DI]. inversion_clear DI as [|? ? Q _]. unfold digit in Q. lia.
    - cbn [odig] in *. rewrite app_nil_r in *. exists (q ++ odig F). split; [rewrite Eq, <- app_assoc; reflexivity|].
      assert (zlen I2 = zlen D1 + 1 + zlen D2) by (rewrite F1, zlen_app, zlen_cons; lia). pose proof (zlen_nonneg D2). pose proof (zlen_nonneg q).
      assert (zlen I = zlen I2 + zlen q) by (rewrite Eq, zlen_app; reflexivity).
      destruct (Z.leb_spec (zlen I) (zlen D1)), (Z.leb_spec (zlen I2) (zlen D1)); lia || reflexivity. }
  destruct H as (g & Eg & Eb). exists D1, d, (D2 ++ g), z1, T.
  split; [rewrite Eg, F1, <- app_assoc; reflexivity|]. split; [exact F2'|]. split; [exact F3|]. split; [exact F4|]. split; [|auto].
  rewrite zlen_app in *. replace (zlen I + zlen (odig F) - zlen (odig F)) with (zlen I) by lia. replace (zlen I2 + zlen (odig F2) - zlen (odig F2)) with (zlen I2) in F5 by lia.
  rewrite Eb. exact F5.
Qed.

(** a state of the scanner, if it had gone on *)
Lemma went_on : forall t s n ds frac, bare n -> Forall digit ds -> zlen ds = exact_digits t -> hd 0 ds <> 0 ->
  frac_fact s (zlen (sign_text (n_sign n))) (n_int n ++ odig (n_frac n)) (zlen (odig (n_frac n))) (dval ds) frac ->
  exists st, parsed t n s st /\ pd_digits st = ds /\ pd_frac st = frac.
Proof.
  intros t s n ds frac (X1 & X2 & X3) D LD HD FF. rewrite frac_odig in X3. set (D0 := n_int n ++ odig (n_frac n)) in *. set (nf := zlen (odig (n_frac n))) in *.
  pose proof FF as (D1 & d & D2 & z1 & T & F1 & F2 & F3 & F4 & F5 & F6 & F7).
  pose proof (zlen_nonneg D1). pose proof (zlen_nonneg D2) as L2. assert (LL : zlen D0 = zlen D1 + 1 + zlen D2) by (rewrite F1, zlen_app, zlen_cons; lia).
  assert (NF : 0 <= nf <= zlen D0) by (unfold nf, D0; rewrite zlen_app; pose proof (zlen_nonneg (n_int n)); pose proof (zlen_nonneg (odig (n_frac n))); lia).
  assert (DD : Forall digit D0) by (apply Forall_app; auto). rewrite F1 in DD. apply Forall_app in DD as [DA DB]. inversion_clear DB as [|? ? DB1 DB2]. unfold digit in DB1.
  pose proof (dval_bounds _ DB2) as B2. pose proof (pow10_pos _ L2) as P2.
  set (tt := z1 + 1 + zlen D2).
  exists {| pd_digits := ds; pd_dot_set := is_some (n_frac n); pd_sign_set := has_sign (n_sign n); pd_frac_calculated := true;
            pd_pow_gain := Z.max 0 (tt - nf); pd_zeros := 0; pd_fraction_count := Z.max 0 (nf - tt); pd_frac := frac; pd_special := sp_no;
            pd_sign := negb (is_minus (n_sign n)); pd_pos := zlen (mant (n_sign n) (n_int n) (n_frac n)) |}.
  split; [|split; reflexivity].
  split; [reflexivity|]. split; [reflexivity|]. split; [reflexivity|]. split; [reflexivity|]. split; [reflexivity|].
  unfold dig_inv. fold D0. fold nf. cbn [pd_digits pd_zeros pd_pow_gain pd_fraction_count pd_frac_calculated pd_frac].
  split; [exact D|]. split; [lia|]. split; [lia|]. split; [lia|]. right. right.
  change (decimal_q (fmt_of t)) with (fd10 (fmt_of t)). rewrite exact_digits_eq. split; [exact LD|]. split; [exact HD|].
  exists tt, (d * 10 ^ zlen D2 + dval D2). split; [lia|]. split.
  { rewrite F1, dval_app, dval_cons, F3, zlen_cons. unfold tt. replace (z1 + 1 + zlen D2) with (z1 + (1 + zlen D2)) by lia. rewrite (Z.pow_add_r 10 z1) by lia. ring. }
  split.
  { split; [nia|]. unfold tt. replace (z1 + 1 + zlen D2) with (z1 + (1 + zlen D2)) by lia. rewrite !Z.pow_add_r by lia. change (10 ^ 1) with 10. pose proof (pow10_pos z1 ltac:(lia)). nia. }
  split; [lia|]. right. split; [reflexivity|]. split; [nia|exact FF].
Qed.

(** * From the digits to the answer *)

Lemma scaled_answer : forall t neg se d K T, 0 < d < 10 ^ exact_digits t -> 0 <= T < 10000 -> tail_bits T = 0 \/ 10 ^ (exact_digits t - 1) <= d ->
  exists f e, kr_mantissa (fmt_of t) d (tail_bits T) = Ok (mk_diy f e) /\ 2 ^ (width t - 1) <= f < 2 ^ width t /\
    answered se (read_exactly t neg d K T) (kr_scale (fmt_of t) neg se K (mk_diy f e)).
Proof.
  intros t neg se d K T Hd HT FB. pose proof (width_facts t) as Ww. pose proof (width_digits t) as WD.
  destruct (mantissa_exactly t d T ltac:(lia) HT FB) as (f & e & M1 & M2 & M3 & M4).
  exists f, e. split; [exact M2|]. split; [exact M3|].
  unfold read_exactly. rewrite M1.
  assert (EL : fpow_lo (fmt_of t) = - largest_power t /\ fpow_hi (fmt_of t) = largest_power t) by (destruct t; auto).
  assert (0 <= largest_power t) by (destruct t; cbn; lia).
  assert (EI : huge_value (fmt_of t) = infinity_of t false) by (destruct t; reflexivity).
  destruct (Z.ltb_spec K (- largest_power t)) as [K1|K1]; [|destruct (Z.ltb_spec (largest_power t) K) as [K2|K2]].
  - unfold kr_scale. destruct EL as [-> _]. destruct (Z.eqb_spec K 0); [lia|]. destruct (Z.leb_spec (- largest_power t) K); [lia|]. reflexivity.
  - unfold kr_scale. destruct EL as [-> ->]. destruct (Z.eqb_spec K 0); [lia|]. destruct (Z.leb_spec (- largest_power t) K); [|lia].
    destruct (Z.leb_spec K (largest_power t)); [lia|]. rewrite EI. reflexivity.
  - rewrite <- table_largest in *. destruct (scaled_exactly t neg se K f e M3 M4 ltac:(lia)) as (g & x & S1 & S2 & S3 & S4).
    rewrite S1, S2. exact (rounded_exactly t neg se g x S3 S4).
Qed.

Lemma int_prefix : forall I2 I F w, Forall digit I2 -> dchars I ++ match F with None => [] | Some f => 46 :: dchars f end = dchars I2 ++ w ->
  exists q, I = I2 ++ q.
Proof.
  induction I2 as [|a I2 IH]; intros I F w D E; [exists I; reflexivity|]. inversion_clear D as [|? ? Da D']. unfold digit in Da.
  destruct I as [|b I].
  - exfalso. destruct F; [|discriminate E]. apply (f_equal (hd 0)) in E. change (46 = 48 + a) in E. lia.
  - pose proof (f_equal (hd 0) E) as H. change (48 + b = 48 + a) in H. assert (b = a) as -> by lia.
    apply (f_equal (@tl Z)) in E. change (dchars I ++ match F with None => [] | Some f => 46 :: dchars f end = dchars I2 ++ w) in E.
    destruct (IH I F w D' E) as (q & ->). exists q. reflexivity.
Qed.

(** the four digits that have been looked at when the scanner stops *)
Lemma scan_four : forall t n y st, bare n -> part_taken n y ->
  scan_inv (decimal_q (fmt_of t)) (mantissa_text n ++ [0]) (n_sign y) (n_int y) (n_frac y) st -> coefficient y <> 0 -> y = seen n ->
  pd_frac st = tail_bits (four_behind t n) /\ 0 <= four_behind t n < 10000 /\
  (tail_bits (four_behind t n) = 0 \/ 10 ^ (exact_digits t - 1) <= dval (pd_digits st)).
Proof.
  intros t n y st X PT Hi CN Ey. pose proof PT as ((Y1 & Y2 & Y3) & YS & YL). pose proof X as (X1 & X2 & X3).
  destruct (scan_frac _ _ _ _ _ _ Hi) as (P1 & P2 & P3).
  destruct (scan_moved t _ y st Y1 Hi CN) as [(Hd & j & R & J0 & EK & E & C) Z0].
  assert (DY : Forall digit (n_int y ++ frac_digits y)) by (apply Forall_app; auto).
  unfold coefficient in E. pose proof (pow10_pos j J0) as PJ.
  destruct (behind_rest t _ _ j R DY Hd J0 E) as (Dl & Rz & _); [tauto|].
  unfold four_behind. fold (four_of t n). rewrite <- Ey.
  pose proof Hi as (_ & _ & _ & _ & _ & D1 & D2 & D3 & D4 & H).
  assert (KP : 0 < exact_digits t) by (destruct t; cbn; lia).
  change (decimal_q (fmt_of t)) with (fd10 (fmt_of t)) in H. rewrite exact_digits_eq in H. rewrite frac_odig in *.
  assert (SPL : forall z r, dval (n_int y ++ odig (n_frac y)) = dval (pd_digits st) * 10 ^ z + r -> 0 <= z -> 0 <= r < 10 ^ z -> r = R).
  { intros z r Ez Hz Hr. destruct (same_split _ (dval (pd_digits st)) z r j R ltac:(lia) Hz J0 Ez Hr E ltac:(lia)) as [_ Q]. exact Q. }
  assert (ZERO : R = 0 -> pd_frac st = 0 -> pd_frac st = tail_bits (if dval (behind t (n_int y ++ odig (n_frac y))) =? 0 then 0 else four_of t n) /\
    0 <= (if dval (behind t (n_int y ++ odig (n_frac y))) =? 0 then 0 else four_of t n) < 10000 /\
    (tail_bits (if dval (behind t (n_int y ++ odig (n_frac y))) =? 0 then 0 else four_of t n) = 0 \/ 10 ^ (exact_digits t - 1) <= dval (pd_digits st))).
  { intros R0 F0. apply Rz in R0. rewrite R0. cbn [Z.eqb]. rewrite F0. split; [reflexivity|]. split; [lia|]. left. reflexivity. }
  destruct H as [(Q & H1 & _)|[(Q & H1 & H2 & H3 & H4 & H5 & H6 & H7 & H8)|(Q & H1 & tt & R0 & H2 & H3 & H4 & H5 & H6)]].
  - exfalso. apply Z0. rewrite Q. reflexivity.
  - apply ZERO; [|exact H8]. symmetry. apply (SPL (pd_zeros st)); [lia|lia|]. pose proof (pow10_pos (pd_zeros st) ltac:(lia)). lia.
  - pose proof (SPL tt R0 H3 ltac:(lia) H4) as RR. destruct H6 as [(G1 & G2 & G3 & G4 & G5)|(G1 & G2 & G3)]; [apply ZERO; [lia|exact G5]|].
    destruct (Z.eqb_spec (dval (behind t (n_int y ++ odig (n_frac y)))) 0) as [B0|B0]; [apply Rz in B0; lia|].
    assert (EM : exists b, mant (n_sign n) (n_int n) (n_frac n) = mant (n_sign n) (n_int y) (n_frac y) ++ b).
    { rewrite <- mant_text. replace (mant (n_sign n) (n_int y) (n_frac y)) with (mantissa_text y) by (rewrite mant_text, YS; reflexivity). destruct YL as [[_ L]|(_ & _ & b & L)]; [exists []; now rewrite app_nil_r|exists b; exact L]. }
    destruct EM as (b & EM). rewrite YS in G3.
    assert (IP : exists q, n_int n = n_int y ++ q).
    { unfold mant in EM. rewrite <- app_assoc in EM. apply app_inv_head in EM. rewrite <- app_assoc in EM. exact (int_prefix _ _ (n_frac n) _ Y2 EM). }
    pose proof (frac_grows _ _ _ _ _ _ _ _ _ EM X2 X3 Y2 Y3 IP G3) as FG.
    destruct (went_on t _ n (pd_digits st) (pd_frac st) X D1 Q H1 FG) as (su & S1 & S2 & S3).
    assert (EW : written n = mantissa_text n) by (unfold written, exponent_text; rewrite X1; apply app_nil_r).
    assert (CNn : coefficient n <> 0).
    { intros C0. destruct FG as (A & x & B & z1 & T & F1 & F2 & F3 & F4 & _). unfold coefficient in C0. rewrite frac_odig, F1, dval_app, dval_cons in C0.
      pose proof (zlen_nonneg B) as LB. assert (DD : Forall digit (n_int n ++ odig (n_frac n))) by (apply Forall_app; auto). rewrite F1 in DD.
      apply Forall_app in DD as [DA DB]. inversion_clear DB as [|? ? DB1 DB2]. pose proof (dval_bounds _ DA). pose proof (dval_bounds _ DB2).
      pose proof (pow10_pos _ LB) as PB. pose proof (pow10_pos _ (zlen_nonneg (x :: B))) as PX.
      clear - C0 F2 H H0 PB PX. assert (0 <= dval A * 10 ^ zlen (x :: B)) by (apply Z.mul_nonneg_nonneg; lia).
      assert (0 < x * 10 ^ zlen B) by (apply Z.mul_pos_pos; lia). lia. }
    assert (W : well_formed n) by exact (proj2 (nonzero_text n X CNn)).
    rewrite <- EW in S1.
    destruct (parsed_looked t n 0 [] su W ends_zero S1 CNn) as (T & LA & FT). pose proof (point_moved_parsed t n 0 [] su W ends_zero S1 CNn) as PM.
    assert (F4 : four_of t n = T) by (apply (four_looked t n _ _ T X2 ltac:(now rewrite frac_odig) PM LA)).
    pose proof (next_four_range _ _ _ _ LA) as HT. rewrite F4, <- S3, FT, (tail_bits_eq T HT). split; [reflexivity|]. split; [exact HT|].
    right. destruct C as [[C0 _]|[_ C]]; [lia|exact C].
Qed.
