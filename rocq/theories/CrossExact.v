(** C90 exactly: which floats survive being printed as doubles and read as floats. *)
From Coq Require Import Reals Lra Lia ZArith List String Ascii.
From Flocq Require Import Core.
From Verif Require Import Machine MachineFacts BitOps StaticPow Fraction Format DiyFp KComp Chars Grisu Ftoa Krosh Atof Spec ParseSpec Api ParseApi Instances
  DiyFacts BoundFacts TableFacts GrisuFacts ShownFacts FtoaFacts RoundFacts WrittenFacts PrintProps PrintProps2 PrintProps3 PrintExamples DownFacts DvalFacts CmpFacts ArithProps ScanFacts LoopFacts ParseFacts GapFacts KroshNum ShortFacts FracFacts LongFacts ScaledFacts ParseProps RangeProps Refuted RoundTrip LocalFacts LocalProps NegFacts NegProps ParseExamples DigitGenFacts PrettifyFacts CutFacts Cut FineFacts CrossType CrossExamples.
Import ListNotations.
Open Scope Z_scope.

(** No multiple of 10^-50 is as near to one of the 713 smallest floats as the text of the double is. *)
Definition off_grid (z : Z) : bool :=
  let r := z * 10 ^ 50 mod 2 ^ 149 in (z * 10 ^ 50 <? 2 ^ 53 * r) && (z * 10 ^ 50 <? 2 ^ 53 * (2 ^ 149 - r)).

Lemma small_off_grid : forallb off_grid (zrange 1 713) = true.
Proof. vm_compute. reflexivity. Qed.

Lemma off_grid_ok : forall z D, off_grid z = true -> z * 10 ^ 50 < 2 ^ 53 * Z.abs (D * 2 ^ 149 - z * 10 ^ 50).
Proof.
  intros z D H. unfold off_grid in H. apply andb_prop in H as [H1 H2]. apply Z.ltb_lt in H1, H2.
  pose proof (Z.div_mod (z * 10 ^ 50) (2 ^ 149) ltac:(lia)) as Q. pose proof (Z.mod_pos_bound (z * 10 ^ 50) (2 ^ 149) ltac:(lia)) as B.
  set (y := z * 10 ^ 50) in *. set (r := y mod 2 ^ 149) in *. set (q := y / 2 ^ 149) in *. clearbody y r q. set (P := 2 ^ 149) in *. clearbody P.
  assert (C : D - q <= 0 \/ 1 <= D - q) by lia.
  assert (E : D * P - y = (D - q) * P - r) by nia. rewrite E. destruct C as [C|C].
  - assert ((D - q) * P <= 0) by nia. lia.
  - assert (P <= (D - q) * P) by nia. lia.
Qed.

(** Below 10^-42 the power of ten is outside the tables. *)
Lemma below_tables : forall v w n, finite Float v -> nonzero Double w -> real_of Double w = real_of Float v -> (0 < Rabs (real_of Float v) < pow10 (-42))%R ->
  well_formed n -> prints Double w (written n) -> exists d K, point_moved Float n d K /\ K < -50.
Proof.
  intros v w n Fv Nw EQ [Lo Hi] W P. destruct (float_multiple v Fv) as (z & Z0 & Ez).
  assert (M : magnitude Double w = (IZR z * bpow radix2 (-149))%R) by (rewrite <- abs_real, EQ; exact Ez).
  pose proof (bpow_gt_0 radix2 (-149)) as B149.
  assert (Z1 : 1 <= z).
  { destruct (Z.eq_dec z 0) as [->|]; [|lia]. rewrite Ez in Lo. lra. }
  assert (Z2 : z <= 713).
  { destruct (Z.lt_ge_cases 713 z) as [C|C]; [exfalso|exact C].
    assert (IZR 714 * bpow radix2 (-149) <= IZR z * bpow radix2 (-149))%R by (apply Rmult_le_compat_r; [lra|apply IZR_le; lia]).
    assert (IZR 1 * pow10 (-42) < IZR 714 * bpow radix2 (-149))%R by (apply dec_lt_bin; vm_compute; reflexivity). lra. }
  assert (MB : (bpow radix2 (-149) <= magnitude Double w)%R).
  { rewrite M. assert (1 <= IZR z)%R by (apply (IZR_le 1); lia). nra. }
  pose proof (near_itself w n Nw MB W P) as N. rewrite M in N.
  pose proof (printed_short Double w n Nw W P) as (_ & L & _ & CN & _).
  destruct (point_moved_exists Float n W L CN) as (d & K & PM). exists d, K. split; [exact PM|].
  destruct (Z.lt_ge_cases K (-50)) as [C|C]; [exact C|exfalso].
  pose proof PM as (D1 & j & R & J1 & J2 & J3 & J4).
  assert (V : abs_value n = (IZR (coefficient n) * pow10 (K - j))%R) by (unfold abs_value; do 2 f_equal; lia).
  assert (X9 : (abs_value n < pow10 (-42))%R).
  { pose proof (Rabs_le_inv _ _ N) as N'. assert (bpow radix2 (-53) <= bpow radix2 (-20))%R by (apply bpow_le; lia). change (bpow radix2 (-20)) with (/ 1048576)%R in H.
    assert (IZR 1427 * bpow radix2 (-150) < IZR 1 * pow10 (-42))%R by (apply bin_lt_dec; vm_compute; reflexivity).
    replace (bpow radix2 (-150)) with (/ 2 * bpow radix2 (-149))%R in H0 by (change (-150) with (-1 + -149); rewrite bpow_plus; reflexivity).
    assert (IZR z <= 713)%R by (apply IZR_le; lia). assert (0 <= IZR z)%R by (apply IZR_le; lia).
    assert (bpow radix2 (-53) * (IZR z * bpow radix2 (-149)) <= / 1048576 * (IZR z * bpow radix2 (-149)))%R by (apply Rmult_le_compat_r; nra).
    assert (IZR z * bpow radix2 (-149) <= 713 * bpow radix2 (-149))%R by (apply Rmult_le_compat_r; lra). lra. }
  assert (E42 : (pow10 (-42) = 100000000 * pow10 (-50))%R) by (change 100000000%R with (pow10 8); rewrite <- bpow_plus; reflexivity).
  pose proof (bpow_gt_0 radix10 (-50)) as P50.
  destruct J4 as [[-> _]|[R1 D2]].
  2:{ (* nine digits: at least 10^-42 *)
    pose proof (bpow_gt_0 radix10 (K - j)) as Pk. cbn [exact_digits] in D2. change (10 ^ (9 - 1)) with 100000000 in D2.
    assert (E1 : (IZR 100000000 * (IZR (10 ^ j) * pow10 (K - j)) <= abs_value n)%R).
    { rewrite V, <- Rmult_assoc, <- mult_IZR. apply Rmult_le_compat_r; [lra|]. apply IZR_le. rewrite J3. pose proof (pow10_pos j J1). nia. }
    rewrite pow10_IZR, <- bpow_plus in E1 by lia. replace (j + (K - j)) with K in E1 by lia.
    assert (pow10 (-50) <= pow10 K)%R by (apply bpow_le; lia). lra. }
  rewrite Z.add_0_r in J3. 
  (* a multiple of 10^-50 *)
  assert (G : exists D, abs_value n = (IZR D * pow10 (-50))%R).
  { exists (d * 10 ^ (K + 50)). rewrite V, J3, !mult_IZR. rewrite !pow10_IZR by lia. rewrite !Rmult_assoc, <- !bpow_plus. do 2 f_equal. lia. }
  destruct G as [D G]. pose proof (off_grid_ok z D (zrange_forall _ _ _ small_off_grid z ltac:(lia))) as O.
  apply IZR_lt in O. rewrite !mult_IZR, abs_IZR, minus_IZR, !mult_IZR in O.
  rewrite G in N.
  assert (F : (IZR D * pow10 (-50) - IZR z * bpow radix2 (-149) = (IZR D * IZR (2 ^ 149) - IZR z * IZR (10 ^ 50)) * (pow10 (-50) * bpow radix2 (-149)))%R).
  { replace (IZR (2 ^ 149)) with (bpow radix2 149) by reflexivity. replace (IZR (10 ^ 50)) with (pow10 50) by reflexivity.
    assert (bpow radix2 149 * bpow radix2 (-149) = 1)%R by (rewrite <- bpow_plus; reflexivity). assert (pow10 50 * pow10 (-50) = 1)%R by (rewrite <- bpow_plus; reflexivity).
    transitivity (IZR D * pow10 (-50) * (bpow radix2 149 * bpow radix2 (-149)) - IZR z * bpow radix2 (-149) * (pow10 50 * pow10 (-50)))%R; [rewrite H, H0; ring|ring]. }
  rewrite F, Rabs_mult in N. rewrite (Rabs_pos_eq (pow10 (-50) * _)) in N by nra.
  assert (H50 : (IZR (10 ^ 50) * pow10 (-50) = 1)%R) by (replace (IZR (10 ^ 50)) with (pow10 50) by reflexivity; rewrite <- bpow_plus; reflexivity).
  assert (H53 : (IZR (2 ^ 53) * bpow radix2 (-53) = 1)%R) by (replace (IZR (2 ^ 53)) with (bpow radix2 53) by reflexivity; rewrite <- bpow_plus; reflexivity).
  set (A := Rabs (IZR D * IZR (2 ^ 149) - IZR z * IZR (10 ^ 50))) in *. set (p := pow10 (-50)) in *. set (b := bpow radix2 (-149)) in *.
  assert (IZR (2 ^ 53) * (A * (p * b)) <= IZR z * b)%R.
  { apply Rle_trans with (IZR (2 ^ 53) * (bpow radix2 (-53) * (IZR z * b)))%R; [apply Rmult_le_compat_l; [apply IZR_le; lia|exact N]|]. rewrite <- Rmult_assoc, H53. lra. }
  assert (IZR z * IZR (10 ^ 50) * (p * b) < IZR (2 ^ 53) * A * (p * b))%R by (apply Rmult_lt_compat_r; [nra|exact O]).
  assert (IZR z * IZR (10 ^ 50) * (p * b) = IZR z * b)%R by (transitivity (IZR z * b * (IZR (10 ^ 50) * p))%R; [ring|rewrite H50; ring]).
  lra.
Qed.

Lemma opposite_nonzero : forall t v, nonzero t v -> nonzero t (opposite t v) /\ real_of t (opposite t v) = (- real_of t v)%R.
Proof.
  intros t v [[Hp He] Hz]. destruct (opposite_fields t v Hp) as (Hp' & He' & Hf & Hs). destruct (opposite_significand t v Hp) as [E1 E2]. split.
  - split; [split; [exact Hp'|now rewrite He']|]. intros (_ & Q1 & Q2). apply Hz. rewrite He' in Q1. rewrite Hf in Q2. split; [exact Hp|split; assumption].
  - unfold real_of, magnitude. rewrite E1, E2, Hs. destruct (pattern_split t v Hp) as [_ B].
    assert (sign_field t v = 0 \/ sign_field t v = 1) as [S|S] by lia; rewrite S; cbn; ring.
Qed.

Lemma opposite_twice : forall t v, pattern t v -> opposite t (opposite t v) = v.
Proof.
  intros t v [H1 H2]. unfold opposite. pose proof (width_facts t). assert (E : 2 ^ width t = 2 * 2 ^ (width t - 1)) by (rewrite <- Z.pow_succ_r by lia; f_equal; lia).
  pose proof (pow2_pos (width t - 1) ltac:(lia)). destruct (Z.ltb_spec v (2 ^ (width t - 1))).
  - destruct (Z.ltb_spec (v + 2 ^ (width t - 1)) (2 ^ (width t - 1))); lia.
  - destruct (Z.ltb_spec (v - 2 ^ (width t - 1)) (2 ^ (width t - 1))); lia.
Qed.

(** a float is a power of two or not *)
Lemma power_or_not : forall v, nonzero Float v ->
  (exists k, -149 <= k <= 127 /\ Rabs (real_of Float v) = bpow radix2 k) \/ (forall k, Rabs (real_of Float v) <> bpow radix2 k).
Proof.
  intros v Nv. pose proof (nonzero_significand Float v Nv) as S. rewrite abs_real.
  assert (X : forall k, magnitude Float v = bpow radix2 k -> -149 <= k <= 127).
  { intros k E. pose proof (nonzero_above Float v Nv) as MB. pose proof (magnitude_lt_max Float v (proj1 Nv)) as MA. rewrite E in MB, MA. cbn [min_exp max_exp] in *.
    apply le_bpow in MB. apply lt_bpow in MA. lia. }
  set (s := significand Float v) in *. set (e := exponent Float v) in *.
  assert (Em : magnitude Float v = (IZR s * bpow radix2 e)%R) by reflexivity.
  destruct (Z.eq_dec s (2 ^ Z.log2 s)) as [Q|Q].
  - left. assert (E : magnitude Float v = bpow radix2 (Z.log2 s + e)).
    { rewrite Em, Q at 1. change 2 with (radix_val radix2). rewrite IZR_Zpower by apply Z.log2_nonneg. now rewrite <- bpow_plus. }
    exists (Z.log2 s + e). split; [now apply X|exact E].
  - right. intros k E. apply Q. rewrite Em in E. pose proof (bpow_gt_0 radix2 e) as B.
    assert (E2 : IZR s = bpow radix2 (k - e)).
    { unfold Zminus. rewrite bpow_plus, <- E, Rmult_assoc, <- bpow_plus. replace (e + - e) with 0 by lia. cbn [bpow]. ring. }
    assert (K : 0 <= k - e).
    { apply (le_bpow radix2). rewrite <- E2. change (bpow radix2 0) with (IZR 1). apply IZR_le. lia. }
    rewrite <- IZR_Zpower in E2 by exact K. apply eq_IZR in E2. change (radix_val radix2) with 2 in E2. rewrite E2, Z.log2_pow2 by exact K. reflexivity.
Qed.

(** The powers of two that are lost although they are at least 10^-42. *)
Definition unlucky_powers : list Z := [-126; -119; -118; -117; -96; 87; 100].

Definition survives (v : Z) : Prop :=
  (pow10 (-42) <= Rabs (real_of Float v))%R /\ forall k, In k unlucky_powers -> Rabs (real_of Float v) <> bpow radix2 k.

Lemma power_threshold : forall k, -149 <= k -> (pow10 (-42) <= bpow radix2 k)%R <-> -139 <= k.
Proof.
  intros k Hk. split; intros H.
  - destruct (Z.lt_ge_cases k (-139)) as [C|C]; [exfalso|exact C].
    assert (bpow radix2 k <= bpow radix2 (-140))%R by (apply bpow_le; lia).
    assert (IZR 1 * bpow radix2 (-140) < IZR 1 * pow10 (-42))%R by (apply bin_lt_dec; vm_compute; reflexivity). lra.
  - assert (bpow radix2 (-139) <= bpow radix2 k)%R by (now apply bpow_le).
    assert (IZR 1 * pow10 (-42) < IZR 1 * bpow radix2 (-139))%R by (apply dec_lt_bin; vm_compute; reflexivity). lra.
Qed.

Lemma lost_split : forall k, -149 <= k -> (~ In k lost_powers) <-> (-139 <= k /\ ~ In k unlucky_powers).
Proof.
  intros k Hk. unfold lost_powers, unlucky_powers. cbn [In]. lia.
Qed.

(** for positive powers of two *)
Lemma power_survives : forall k v, -149 <= k <= 127 -> Rabs (real_of Float v) = bpow radix2 k -> (survives v <-> ~ In k lost_powers).
Proof.
  intros k v Hk E. unfold survives. rewrite E, (power_threshold k) by lia. rewrite lost_split by lia. split; intros [A B]; (split; [exact A|]).
  - intros C. now apply (B k).
  - intros j Hj C. apply bpow_inj in C. subst j. contradiction.
Qed.

(** C90, exactly: the text of the double is always read without the fallback and to its end; it
    gives the float back unless that is below 10^-42 (then zero, underflow) or one of seven powers of two. *)
Theorem C90_exactly : forall v w n c rest, nonzero Float v -> nonzero Double w -> real_of Double w = real_of Float v ->
  well_formed n -> prints Double w (written n) -> ends_number c ->
  exists u st, (forall want fb errno, atof (fmt_of Float) (written n ++ c :: rest) want fb errno = Ok (answer want errno u st (len (written n)))) /\
    (u = v <-> survives v) /\ (st = success <-> (pow10 (-42) <= Rabs (real_of Float v))%R).
Proof.
  intros v w n c rest Nv Nw EQ W P Hc.
  pose proof (printed_short Double w n Nw W P) as (_ & L & RE & CN & LN).
  assert (V0 : (0 < Rabs (real_of Float v))%R).
  { rewrite abs_real. apply magnitude_pos. now apply nonzero_significand. }
  destruct (Rlt_or_le (Rabs (real_of Float v)) (pow10 (-42))) as [Lo|Hi].
  { destruct (below_tables v w n (proj1 Nv) Nw EQ (conj V0 Lo) W P) as (d & K & PM & HK).
    exists (zero_of Float false), underflow. split; [|split].
    - intros want fb errno. now apply C34_below_tables with d K.
    - split; [intros <-; exfalso|intros [A _]; lra]. destruct Nv as [_ Nv]. apply Nv. split; [split; vm_compute; congruence|split; reflexivity].
    - split; [discriminate|intros A; lra]. }
  destruct (power_or_not v Nv) as [(k & Hk & Ek)|NP].
  2:{ exists v, success. split; [|split].
      - intros want fb errno. apply C90_double_text_as_float_partial with w; auto; apply Nv.
      - split; [intros _|reflexivity]. split; [exact Hi|]. intros k _. apply NP.
      - split; auto. }
  (* a power of two *)
  assert (PS : survives v <-> ~ In k lost_powers) by now apply power_survives.
  assert (PT : (pow10 (-42) <= Rabs (real_of Float v))%R <-> -139 <= k) by (rewrite Ek; apply power_threshold; lia).
  destruct (Z.eq_dec (sign_field Float v) 1) as [Sv|Sv].
  2:{ assert (E1 : real_of Float v = bpow radix2 k) by (rewrite <- Ek, abs_real; unfold real_of; destruct (Z.eqb_spec (sign_field Float v) 1); [contradiction|reflexivity]).
      destruct (C90_powers k v w n c rest Hk (proj1 Nv) Nw E1 (eq_trans EQ E1) W P Hc) as (u & st & A & _ & B & C). exists u, st. rewrite PS, PT. auto. }
  (* a negative one *)
  assert (E1 : real_of Float v = (- bpow radix2 k)%R) by (rewrite <- Ek, abs_real; unfold real_of; rewrite Sv; reflexivity).
  destruct (opposite_nonzero Float v Nv) as [Nv' Ev']. destruct (opposite_nonzero Double w Nw) as [Nw' Ew'].
  assert (E2 : real_of Float (opposite Float v) = bpow radix2 k) by lra. assert (E3 : real_of Double (opposite Double w) = bpow radix2 k) by lra.
  pose proof (bpow_gt_0 radix2 k) as Bk.
  assert (NN : ~ negative Double (opposite Double w)).
  { unfold negative. intros C. unfold real_of in E3. rewrite C in E3. cbn [Z.eqb Pos.eqb] in E3. pose proof (magnitude_pos Double (opposite Double w) (nonzero_significand _ _ Nw')). lra. }
  assert (NS : sign_of Double (opposite Double w) = NoSign).
  { unfold sign_of. destruct (Z.eqb_spec (sign_field Double (opposite Double w)) 1); [contradiction|reflexivity]. }
  destruct (ftoa_finite Double (opposite Double w) Nw') as (ds & K & lo & hi & A1 & A2 & A3 & A4 & A5 & _ & _ & _ & _ & A10 & _).
  rewrite NS in A10. set (n0 := shown NoSign ds K) in *.
  assert (W0 : well_formed n0) by (cbn [max_sig kmin kmax] in *; apply shown_wf; try assumption; lia). assert (S0 : n_sign n0 = NoSign) by apply shown_sign.
  pose proof (C06_odd Double (opposite Double w) _ (or_introl Nw') NN A10) as P'. rewrite opposite_twice in P' by apply Nw.
  pose proof (prints_unique _ _ _ _ P P') as T. change (code "-" :: written n0) with (text "-" ++ written n0) in T. rewrite <- (written_negated n0 S0) in T.
  destruct (C90_powers k _ _ n0 c rest Hk (proj1 Nv') Nw' E2 E3 W0 A10 Hc) as (u & st & A & Pu & B & C).
  pose proof (printed_short Double _ n0 Nw' W0 A10) as (_ & _ & RE0 & CN0 & LN0).
  assert (TL : len (written n) = len (written n0) + 1).
  { rewrite T, written_negated by exact S0. change (text "-") with [code "-"]. unfold len. cbn [app List.length]. lia. }
  destruct (C48_readable_number Float n0 c rest W0 S0 Hc CN0 RE0 ltac:(lia)) as [(u0 & u' & st' & D1 & D2)|F].
  - assert (u0 = u /\ st' = st) as [-> ->].
    { pose proof (proj1 (D2 false (fun _ _ => Fault OutOfFuel) 0)) as X. rewrite A in X. injection X. auto. }
    exists u', st. split; [|rewrite PS, PT; split; [|exact C]].
    + intros want fb errno. rewrite T, TL at 1. apply D2.
    + rewrite <- B. destruct (Z.lt_ge_cases k (-139)) as [Kl|Kl].
      { (* excluded: at least 10^-42 *) exfalso. rewrite Ek in Hi. apply power_threshold in Hi; lia. }
      assert (st = success) as -> by (apply C; lia). destruct D1 as [->|[_ D1]]; [|congruence].
      split; [intros X|intros ->].
      * rewrite <- X. symmetry. now apply opposite_twice.
      * apply opposite_twice, Nv.
  - exfalso. pose proof (proj1 (F false (fun _ _ => Fault OutOfFuel) 0)) as X. rewrite A in X. discriminate X.
Qed.

(** 714 * 2^-149 is the smallest float that survives; 713 * 2^-149 does not, nor does -2^87. *)
Example ex_C90_exactly : survives 714 /\ ~ survives 713 /\ ~ survives (opposite Float (float_power 87)) /\ survives (opposite Float (float_power 88)).
Proof.
  assert (P : forall k, is_power Float (float_power k) k = true -> Rabs (real_of Float (opposite Float (float_power k))) = bpow radix2 k).
  { intros k H. destruct (is_power_ok _ _ _ H) as [N E]. destruct (opposite_nonzero _ _ N) as [_ E']. rewrite E', E, Rabs_Ropp. apply Rabs_pos_eq, bpow_ge_0. }
  assert (M1 : Rabs (real_of Float 714) = (IZR 714 * bpow radix2 (-149))%R) by (rewrite abs_real; reflexivity).
  assert (M2 : Rabs (real_of Float 713) = (IZR 713 * bpow radix2 (-149))%R) by (rewrite abs_real; reflexivity).
  split; [|split; [|split]].
  - split.
    + rewrite M1. apply Rle_trans with (IZR 1 * pow10 (-42))%R; [lra|]. apply Rlt_le, dec_lt_bin. vm_compute. reflexivity.
    + intros k Hk C. rewrite M1 in C. assert (-126 <= k) by (unfold unlucky_powers in Hk; cbn [In] in Hk; lia).
      assert (bpow radix2 (-126) <= bpow radix2 k)%R by now apply bpow_le. assert (E : (bpow radix2 (-126) = 8388608 * bpow radix2 (-149))%R) by (change 8388608%R with (bpow radix2 23); rewrite <- bpow_plus; reflexivity).
      pose proof (bpow_gt_0 radix2 (-149)). lra.
  - intros [C _]. rewrite M2 in C. assert (IZR 713 * bpow radix2 (-149) < IZR 1 * pow10 (-42))%R by (apply bin_lt_dec; vm_compute; reflexivity). lra.
  - intros [_ C]. apply (C 87); [cbn [In unlucky_powers]; auto 10|]. apply P. reflexivity.
  - split; [rewrite P by reflexivity; apply power_threshold; lia|]. intros k Hk C. rewrite P in C by reflexivity. apply bpow_inj in C. subst k. unfold unlucky_powers in Hk. cbn [In] in Hk. lia.
Qed.
