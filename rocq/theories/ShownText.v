(** C97: the text ftoa writes for any value, as a function. *)
From Coq Require Import Reals Lra Lia ZArith Bool List String Ascii.
From Flocq Require Import Core.
From Verif Require Import Machine MachineFacts StaticPow Format DiyFp KComp Grisu Ftoa Spec ParseSpec Instances Api
  DiyFacts BoundFacts TableFacts DvalFacts DigitGenFacts GrisuFacts PrettifyFacts ShownFacts FtoaFacts RoundFacts CmpFacts ShortFacts WrittenFacts ArithProps PrintProps PrintProps3 Tight Krosh Atof ParseApi WholeSpec Whole ExactSpec ExactFacts PrintSpec PrintFacts PrintExact MeanSpec Meaning ShowSpec.
Import ListNotations.
Open Scope Z_scope.

(** ** the searches find what they look for *)
Lemma first_is : forall p n a k, a <= k <= a + Z.of_nat n -> p k = true -> (forall j, a <= j < k -> p j = false) -> first p a n = k.
Proof.
  intros p. induction n as [|n IH]; intros a k R P N; cbn [first]; [lia|].
  destruct (Z.eq_dec a k) as [-> |H]; [now rewrite P|]. rewrite (N a) by lia. apply IH; [lia|assumption|]. intros j Hj. apply N. lia.
Qed.

Lemma reaches_R : forall x k, reaches x k = true -> (bpow radix2 x <= pow10 k)%R.
Proof.
  intros x k A. unfold reaches in A. apply Z.leb_le, IZR_le in A. rewrite !mult_IZR in A. rewrite !pow10_IZR, !pow2_IZR in A by lia.
  pose proof (pos_neg_pow radix2 x) as X. pose proof (pos_neg_pow radix10 k) as Y.
  pose proof (bpow_gt_0 radix2 (Z.max 0 (- x))) as P1. pose proof (bpow_gt_0 radix10 (Z.max 0 (- k))) as P2.
  rewrite <- X, <- Y in A.
  set (b := bpow radix2 (Z.max 0 (- x))) in *. set (c := bpow radix10 (Z.max 0 (- k))) in *.
  apply Rmult_le_reg_r with (b * c)%R; [now apply Rmult_lt_0_compat|]. lra.
Qed.

Lemma start_low : forall x k, reaches x k = true -> Z.min (x / 3) (3 * x / 10) <= k.
Proof.
  intros x k A. set (s := Z.min (x / 3) (3 * x / 10)). unfold reaches in A. apply Z.leb_le in A.
  pose proof (Z.div_mod x 3 ltac:(lia)) as D1. pose proof (Z.mod_pos_bound x 3 ltac:(lia)) as D2.
  pose proof (Z.div_mod (3 * x) 10 ltac:(lia)) as D3. pose proof (Z.mod_pos_bound (3 * x) 10 ltac:(lia)) as D4.
  destruct (Z.le_gt_cases s k) as [|C]; [assumption|exfalso].
  destruct (Z.le_gt_cases 0 x) as [X|X].
  - (* x >= 0 *)
    assert (S1 : 10 * s <= 3 * x) by lia.
    replace (Z.max 0 (- x)) with 0 in A by lia. replace (Z.max 0 x) with x in A by lia. change (2 ^ 0) with 1 in A. rewrite Z.mul_1_r in A.
    assert (P : 1 <= 2 ^ x) by (pose proof (Z.pow_pos_nonneg 2 x); lia).
    destruct (Z.le_gt_cases 0 k) as [K|K].
    + replace (Z.max 0 (- k)) with 0 in A by lia. replace (Z.max 0 k) with k in A by lia. change (10 ^ 0) with 1 in A. rewrite Z.mul_1_r in A.
      assert (L1 : 10 ^ k < 10 ^ s) by (apply Z.pow_lt_mono_r; lia).
      assert (L2 : (10 ^ s) ^ 10 <= (2 ^ x) ^ 10).
      { rewrite <- !Z.pow_mul_r by lia. rewrite (Z.mul_comm x 10), (Z.pow_mul_r 2 10 x) by lia. change (2 ^ 10) with 1024.
        transitivity (10 ^ (3 * x)); [apply Z.pow_le_mono_r; lia|]. rewrite Z.pow_mul_r by lia. change (10 ^ 3) with 1000. apply Z.pow_le_mono_l. lia. }
      apply (Z.pow_le_mono_l_iff (10 ^ s) (2 ^ x) 10) in L2; [lia| |lia|lia]. apply Z.pow_nonneg. lia.
    + replace (Z.max 0 k) with 0 in A by lia. replace (Z.max 0 (- k)) with (- k) in A by lia. change (10 ^ 0) with 1 in A.
      assert (10 ^ 1 <= 10 ^ (- k)) by (apply Z.pow_le_mono_r; lia). change (10 ^ 1) with 10 in H. nia.
  - assert (S1 : 3 * s <= x) by lia.
    replace (Z.max 0 x) with 0 in A by lia. replace (Z.max 0 (- x)) with (- x) in A by lia. replace (Z.max 0 k) with 0 in A by lia. replace (Z.max 0 (- k)) with (- k) in A by lia.
    change (2 ^ 0) with 1 in A. change (10 ^ 0) with 1 in A. rewrite !Z.mul_1_l in A.
    assert (L1 : 10 ^ (- s) < 10 ^ (- k)) by (apply Z.pow_lt_mono_r; lia).
    assert (L2 : 2 ^ (- x) <= 2 ^ (3 * - s)) by (apply Z.pow_le_mono_r; lia). rewrite Z.pow_mul_r in L2 by lia. change (2 ^ 3) with 8 in L2.
    assert (L3 : 8 ^ (- s) <= 10 ^ (- s)) by (apply Z.pow_le_mono_l; lia). lia.
Qed.

Lemma ten_for_ok : forall x k, ten_above x k -> ten_for x = k.
Proof.
  intros x k H. pose proof (ten_above_R x k H) as R. destruct H as [A B].
  assert (P : reaches x k = true) by (apply Z.leb_le; exact A).
  pose proof (start_low x k P) as S.
  unfold ten_for. apply first_is.
  - split; [exact S|]. rewrite Z2Nat.id by lia.
    pose proof (Z.div_mod x 3 ltac:(lia)) as D1. pose proof (Z.mod_pos_bound x 3 ltac:(lia)) as D2.
    pose proof (Z.div_mod (3 * x) 10 ltac:(lia)) as D3. pose proof (Z.mod_pos_bound (3 * x) 10 ltac:(lia)) as D4.
    destruct (Z.le_gt_cases 0 x) as [X|X].
    + assert (k - 1 < x + 1); [|lia]. apply pow10_lt_inv. destruct R as [R _]. eapply Rlt_le_trans; [exact R|].
      rewrite <- pow10_IZR, <- pow2_IZR by lia. apply IZR_le. transitivity (10 ^ x); [apply Z.pow_le_mono_l; lia|apply Z.pow_le_mono_r; lia].
    + assert (k - 1 < 0); [|lia]. apply pow10_lt_inv. destruct R as [R _]. eapply Rlt_le_trans; [exact R|].
      change (pow10 0) with 1%R. change 1%R with (bpow radix2 0). apply bpow_le. lia.
  - exact P.
  - intros j Hj. destruct (reaches x j) eqn:E; [exfalso|reflexivity]. apply reaches_R in E.
    assert (k - 1 < j) by (apply pow10_lt_inv; lra). lia.
Qed.

Lemma places_ok : forall t v k i, places t v k i -> places_shown t v k = i.
Proof.
  intros t v k i (I & E & N). unfold places_shown. cbv zeta. set (u := upper t v k) in *. set (l := PrintSpec.lower t v k) in *. set (o := one t v k) in *.
  assert (B : i <= Z.log2 o).
  { unfold o, one in *. set (y := - (snd (top t v) + snd (power_of_ten t k) + width t)) in *.
    pose proof (Z.pow_pos_nonneg 10 i ltac:(lia) I) as PI.
    destruct (Z.le_gt_cases 0 y) as [Y|Y].
    - rewrite Z.log2_pow2 by assumption. destruct (Z.le_gt_cases i y) as [|C]; [assumption|exfalso].
      pose proof (Z.pow_pos_nonneg 2 y ltac:(lia) Y) as P. apply (N y); [lia|]. unfold enough in *.
      assert (U : 0 <= u - l). { pose proof (Z.mod_pos_bound (10 ^ i * u) _ P). nia. }
      replace (10 ^ y) with (5 ^ y * 2 ^ y) at 1 by (rewrite <- Z.pow_mul_l; reflexivity).
      replace (5 ^ y * 2 ^ y * u) with (5 ^ y * u * 2 ^ y) by ring. rewrite Z.mod_mul by lia.
      apply Z.mul_nonneg_nonneg; [apply Z.pow_nonneg; lia|assumption].
    - rewrite Z.pow_neg_r in * by assumption. change (Z.log2 0) with 0. destruct (Z.le_gt_cases i 0) as [|C]; [assumption|exfalso].
      apply (N 0); [lia|]. unfold enough in *. rewrite Zmod_0_r in *. change (10 ^ 0) with 1. nia. }
  apply first_is; [rewrite Z2Nat.id by apply Z.log2_nonneg; lia|apply Z.leb_le; exact E|].
  intros j Hj. apply Z.leb_gt. specialize (N j Hj). unfold enough in N. lia.
Qed.

(** ** the digits *)
Lemma to_digits_ok : forall n d, 0 <= d < 10 ^ Z.of_nat n ->
  Forall digit (to_digits n d) /\ dval (to_digits n d) = d /\ (0 < d -> hd 0 (to_digits n d) <> 0).
Proof.
  induction n as [|n IH]; intros d H; cbn [to_digits].
  - change (10 ^ Z.of_nat 0) with 1 in H. split; [constructor|]. split; [rewrite dval_nil; lia|lia].
  - destruct (Z.eqb_spec d 0) as [-> |Nz]; [split; [constructor|]; split; [reflexivity|lia]|].
    pose proof (Z.div_mod d 10 ltac:(lia)) as E. pose proof (Z.mod_pos_bound d 10 ltac:(lia)) as M.
    rewrite Nat2Z.inj_succ, Z.pow_succ_r in H by lia.
    destruct (IH (d / 10)) as (A & B & C); [lia|]. split; [|split].
    + apply Forall_app. split; [assumption|]. constructor; [|constructor]. unfold digit. lia.
    + rewrite dval_snoc, B. lia.
    + intros _. destruct (Z.eq_dec (d / 10) 0) as [Q|Q].
      * rewrite Q. assert (Q0 : to_digits n 0 = []) by (destruct n; reflexivity). rewrite Q0. cbn [app hd]. lia.
      * specialize (C ltac:(lia)). destruct (to_digits n (d / 10)); [cbn [hd] in C; lia|exact C].
Qed.

Lemma strip_ok : forall D, 0 < D ->
  let all := to_digits (S (Z.to_nat (Z.log2 D))) D in
  let ds := rev (drop_zeros (rev all)) in
  decimal D ds (Z.of_nat (List.length all) - Z.of_nat (List.length ds)).
Proof.
  intros D P all ds. pose proof (Z.log2_nonneg D) as LN.
  assert (B : 0 <= D < 10 ^ Z.of_nat (S (Z.to_nat (Z.log2 D)))).
  { split; [lia|]. rewrite Nat2Z.inj_succ, Z2Nat.id by assumption. pose proof (Z.log2_spec D P) as [_ L].
    eapply Z.lt_le_trans; [exact L|]. apply Z.pow_le_mono_l. lia. }
  destruct (to_digits_ok _ _ B) as (A1 & A2 & A3). fold all in A1, A2, A3. specialize (A3 P).
  destruct (drop_zeros_split (rev all)) as (k & E). apply (f_equal (@rev Z)) in E. rewrite rev_involutive, rev_app_distr, rev_zeros in E. fold ds in E.
  assert (NE : ds <> []). { intros C. rewrite C in E. cbn [app] in E. rewrite E in A2. rewrite dval_zeros in A2. lia. }
  assert (DV : dval ds * 10 ^ Z.of_nat k = D). { rewrite <- A2, E, dval_app, dval_zeros. unfold zlen. rewrite repeat_length. lia. }
  rewrite E in A1. apply Forall_app in A1 as [A1 _].
  split; [assumption|]. split; [|split; [|split]].
  - rewrite E in A3. destruct ds; [contradiction|exact A3].
  - unfold ds in *. pose proof (drop_zeros_hd (rev all)) as H. destruct (drop_zeros (rev all)) as [|z r]; [contradiction|].
    cbn [rev]. rewrite last_last. apply H. discriminate.
  - apply (f_equal (@List.length Z)) in E. rewrite app_length, repeat_length in E. lia.
  - replace (Z.of_nat (List.length all) - Z.of_nat (List.length ds)) with (Z.of_nat k); [exact DV|].
    apply (f_equal (@List.length Z)) in E. rewrite app_length, repeat_length in E. lia.
Qed.

(** C97: the text ftoa writes, for every bit pattern of the type, computed. *)
Theorem C97_any_value : forall t v, pattern t v -> prints_tightly t v (shown_text t v).
Proof.
  intros t v P. unfold shown_text. destruct (classify t v P) as [C|[C|[C|C]]].
  - pose proof C as (_ & E & F). apply Z.eqb_eq in E. apply Z.eqb_neq in F. rewrite E, F. now apply ftoa_nan_t.
  - pose proof C as (_ & E & F). apply Z.eqb_eq in E. apply Z.eqb_eq in F. rewrite E, F. now apply ftoa_inf_t.
  - pose proof C as (_ & E & F). assert (E' : exp_field t v <> all_ones t) by (rewrite E; destruct t; discriminate).
    apply Z.eqb_neq in E'. rewrite E'. unfold significand. rewrite E, F. cbn [Z.eqb]. now apply ftoa_zero_t.
  - pose proof C as [[_ E] _]. apply Z.eqb_neq in E. rewrite E. pose proof (nonzero_significand t v C) as S.
    destruct (Z.eqb_spec (significand t v) 0) as [?|_]; [lia|]. cbv zeta.
    destruct (C95_parts t v C) as (k & i & ds & z & A1 & A2 & A3 & _).
    assert (PK : power_shown t v = k) by (apply ten_for_ok; exact A1). rewrite PK. rewrite (places_ok t v k i A2).
    apply C95_exactly; [assumption..|]. apply strip_ok.
    destruct A3 as (B1 & B2 & _ & B4 & B5). pose proof (dval_pos ds B1 B2). pose proof (Z.pow_pos_nonneg 10 z ltac:(lia) B4). nia.
Qed.

(** ... and the string to_string returns *)
Theorem C97_to_string : forall t v, pattern t v -> to_basic_string (fmt_of t) v = Ok (shown_text t v).
Proof.
  intros t v P. destruct (C15_to_string t v P) as (s & S & ->). f_equal.
  destruct (C80_room t v s (repeat 0 (Datatypes.S (List.length s))) P S) as [R _].
  assert (L : (List.length s <= List.length (shown_text t v))%nat /\ (List.length (shown_text t v) <= List.length s)%nat).
  { split.
    - destruct (Nat.le_gt_cases (List.length s) (List.length (shown_text t v))) as [|C]; [assumption|exfalso].
      set (buf := repeat 0 (List.length s)). destruct (C80_room t v s buf P S) as [_ F]. destruct F as (f & F); [unfold buf; rewrite repeat_length; lia|].
      pose proof (C97_any_value t v P buf) as G. rewrite F in G. discriminate G. unfold buf. rewrite repeat_length. exact C.
    - destruct (Nat.le_gt_cases (List.length (shown_text t v)) (List.length s)) as [|C]; [assumption|exfalso].
      set (buf := repeat 0 (Datatypes.S (List.length (shown_text t v)))). destruct (C80_room t v s buf P S) as [F _].
      pose proof (C97_any_value t v P buf) as G. rewrite F in G by (unfold buf; rewrite repeat_length; lia).
      specialize (G ltac:(unfold buf; rewrite repeat_length; lia)). injection G as _ G. lia. }
  set (buf := repeat 0 (Datatypes.S (List.length s))). pose proof (C97_any_value t v P buf) as G. fold buf in R.
  rewrite R in G by (unfold buf; rewrite repeat_length; lia). specialize (G ltac:(unfold buf; rewrite repeat_length; lia)). injection G as G _.
  assert (LE : List.length s = List.length (shown_text t v)) by lia.
  apply (f_equal (firstn (List.length s))) in G.
  rewrite (firstn_app (List.length s) (shown_text t v)), LE, firstn_all, Nat.sub_diag, <- LE, firstn_app, firstn_all, Nat.sub_diag in G.
  cbn [firstn] in G. rewrite !app_nil_r in G. exact G.
Qed.

(** Printing a value and reading the text back, computed: no fallback that is not asked matters. *)
Theorem C97_and_back : forall t v fb errno, pattern t v ->
  let r := s <- to_basic_string (fmt_of t) v ;; from_string (fmt_of t) s fb errno in
  match read_text t (shown_text t v) with
  | Fails => exists f, r = Fault f
  | Returns v' st k => r = Ok (answer false errno v' st k)
  | Defers => r = fallback_answer t (shown_text t v ++ [0]) false fb errno
  end.
Proof.
  intros t v fb errno P r. unfold r. rewrite (C97_to_string t v P). cbn [bind]. pose proof (C96_from_string t (shown_text t v) [] fb errno) as H. cbv zeta in H.
  destruct (read_text t (shown_text t v)); [exact (proj1 H)..].
Qed.
