(** The conversion of any number text, in terms of the scaled integer. *)
From Coq Require Import Reals Lra Lia ZArith List String Ascii.
From Flocq Require Import Core.
From Verif Require Import Machine MachineFacts BitOps StaticPow Fraction Format DiyFp KComp Krosh Atof Spec ParseSpec ParseApi Instances
  DiyFacts BoundFacts TableFacts GrisuFacts FtoaFacts RoundFacts DownFacts DvalFacts CmpFacts ArithProps ScanFacts LoopFacts ParseFacts GapFacts KroshNum ShortFacts FracFacts LongFacts RangeFacts.
Open Scope Z_scope.

Lemma pow10_split : forall a b, 0 <= a <= b -> 10 ^ b = 10 ^ (b - a) * 10 ^ a.
Proof. intros a b H. rewrite <- Z.pow_add_r by lia. f_equal. lia. Qed.

Lemma trailing_unique : forall d d' j j', 0 < d -> d mod 10 <> 0 -> d' mod 10 <> 0 -> 0 <= j -> 0 <= j' ->
  d * 10 ^ j = d' * 10 ^ j' -> d = d' /\ j = j'.
Proof.
  assert (X : forall d d' j j', d mod 10 <> 0 -> 0 <= j -> 0 <= j' -> d * 10 ^ j = d' * 10 ^ j' -> j < j' -> False).
  { intros d d' j j' N Hj Hj' E L. rewrite (pow10_split j j') in E by lia.
    pose proof (pow10_pos j Hj). assert (d = d' * 10 ^ (j' - j)).
    { apply Z.mul_cancel_r with (10 ^ j); [lia|]. rewrite E. ring. }
    apply N. rewrite H0. replace (j' - j) with (j' - j - 1 + 1) by lia. rewrite pow10_succ by lia.
    replace (d' * (10 * 10 ^ (j' - j - 1))) with (d' * 10 ^ (j' - j - 1) * 10) by ring. apply Z.mod_mul. lia. }
  intros d d' j j' Hd N N' Hj Hj' E.
  assert (j = j').
  { destruct (Z.lt_trichotomy j j') as [L|[L|L]]; [exfalso; exact (X d d' j j' N Hj Hj' E L)|assumption|
      exfalso; exact (X d' d j' j N' Hj' Hj (eq_sym E) L)]. }
  subst j'. split; [|reflexivity]. pose proof (pow10_pos j Hj). apply Z.mul_cancel_r with (10 ^ j); lia.
Qed.

Lemma point_moved_unique : forall t n d K d' K', point_moved t n d K -> point_moved t n d' K' -> d = d' /\ K = K'.
Proof.
  assert (X : forall t n d j d' j' R', 0 < d < 10 ^ exact_digits t -> 0 <= j -> 0 <= j' ->
    coefficient n = d * 10 ^ j -> coefficient n = d' * 10 ^ j' + R' -> 0 < R' < 10 ^ j' -> 10 ^ (exact_digits t - 1) <= d' -> False).
  { intros t n d j d' j' R' Hd Hj Hj' E E' HR Hd'. rewrite E in E'. pose proof (pow10_pos j Hj) as PJ. pose proof (pow10_pos j' Hj') as PJ'.
    destruct (Z.le_gt_cases j' j) as [L|L].
    - rewrite (pow10_split j' j) in E' by lia. assert (R' = (d * 10 ^ (j - j') - d') * 10 ^ j') by lia.
      assert (0 < d * 10 ^ (j - j') - d') by nia. nia.
    - assert (KP : 1 <= exact_digits t) by (destruct t; cbn; lia).
      assert (E10 : 10 ^ exact_digits t = 10 * 10 ^ (exact_digits t - 1)).
      { replace (exact_digits t) with (exact_digits t - 1 + 1) at 1 by lia. rewrite pow10_succ by lia. reflexivity. }
      assert (10 ^ (j + 1) <= 10 ^ j') by (apply Z.pow_le_mono_r; lia). rewrite pow10_succ in H by lia.
      pose proof (pow10_pos (exact_digits t - 1) ltac:(lia)). nia. }
  intros t n d K d' K' (Hd & j & R & J0 & EK & E & C) (Hd' & j' & R' & J0' & EK' & E' & C').
  destruct C as [[R0 N]|[RB F]]; destruct C' as [[R0' N']|[RB' F']].
  - subst R R'. rewrite Z.add_0_r in *. destruct (trailing_unique d d' j j'); try lia; try congruence.
  - exfalso. subst R. rewrite Z.add_0_r in *. apply (X t n d j d' j' R'); auto.
  - exfalso. subst R'. rewrite Z.add_0_r in *. apply (X t n d' j' d j R); auto.
  - assert (W : forall a b a' b' S S' : Z, 0 <= b -> 0 <= b' -> 0 < S < 10 ^ b -> 0 < S' < 10 ^ b' -> 0 < a < 10 ^ exact_digits t ->
       10 ^ (exact_digits t - 1) <= a' -> a * 10 ^ b + S = a' * 10 ^ b' + S' -> b < b' -> False).
    { intros a b a' b' S S' B B' HS HS' Ha Ha' EE L.
      assert (KP : 1 <= exact_digits t) by (destruct t; cbn; lia).
      assert (E10 : 10 ^ exact_digits t = 10 * 10 ^ (exact_digits t - 1)).
      { replace (exact_digits t) with (exact_digits t - 1 + 1) at 1 by lia. rewrite pow10_succ by lia. reflexivity. }
      assert (10 ^ (b + 1) <= 10 ^ b') by (apply Z.pow_le_mono_r; lia). rewrite pow10_succ in H by lia.
      pose proof (pow10_pos (exact_digits t - 1) ltac:(lia)). pose proof (pow10_pos b B). nia. }
    assert (j = j').
    { destruct (Z.lt_trichotomy j j') as [L|[L|L]]; [exfalso; eapply (W d j d' j' R R'); eauto; congruence|assumption|
        exfalso; eapply (W d' j' d j R' R); eauto; congruence]. }
    subst j'. split; [|lia]. pose proof (pow10_pos j J0). rewrite E in E'.
    assert (d = d'); [|assumption]. nia.
Qed.

Lemma point_moved_parsed : forall t n c rest st, well_formed n -> ends_number c -> parsed t n (written n ++ c :: rest) st -> coefficient n <> 0 ->
  point_moved t n (dval (pd_digits st)) (power_of n st).
Proof.
  intros t n c rest st W Hc Hp CN.
  destruct (long_scan t n c rest st W Hc Hp CN) as (rho & _ & _ & Pb & _).
  split; [exact Pb|]. destruct Hp as (_ & _ & _ & _ & _ & D1 & D2 & D3 & D4 & H).
  rewrite exact_digits_eq in H. unfold power_of, scale, coefficient in *. rewrite frac_odig in *. fold (zlen (odig (n_frac n))).
  assert (KP : 0 < exact_digits t) by (destruct t; cbn; lia).
  destruct H as [(E & H1 & _)|[(E & H1 & H2 & H3 & H4 & H5 & H6 & H7 & H8)|(E & H1 & tt & R & H2 & H3 & H4 & H5 & H6)]].
  - congruence.
  - exists (pd_zeros st), 0. repeat split; try lia. left. split; [reflexivity|]. now apply dval_last.
  - exists tt, R. repeat split; try lia.
    assert (NE : pd_digits st <> []) by (intros C; rewrite C, zlen_nil in E; lia).
    destruct H6 as [(G1 & G2 & G3 & G4 & G5)|(G1 & G2 & G3)].
    + left. split; [exact G2|]. now apply dval_last.
    + right. split; [lia|].
      destruct (pd_digits st) as [|x l] eqn:Ed; [congruence|]. cbn [hd] in H1. rewrite zlen_cons in E.
      replace (exact_digits t - 1) with (zlen l) by lia. now apply dval_lower.
Qed.

(** every non-zero number has this form *)
Lemma abs_value_moved : forall t n d K, point_moved t n d K -> (IZR d * pow10 K <= abs_value n < IZR (d + 1) * pow10 K)%R.
Proof.
  intros t n d K (Hd & j & R & J0 & EK & E & C). unfold abs_value. rewrite E.
  assert (RB : 0 <= R < 10 ^ j) by (pose proof (pow10_pos j J0); lia).
  subst K. rewrite (Z.add_comm (scale n)), bpow_plus. pose proof (bpow_gt_0 radix10 (scale n)).
  rewrite <- !Rmult_assoc, <- !(pow10_IZR j), <- !mult_IZR by lia.
  split; [apply Rmult_le_compat_r; [lra|apply IZR_le; lia]|apply Rmult_lt_compat_r; [lra|apply IZR_lt; lia]].
Qed.

Lemma table_largest : forall t, table_max t = largest_power t.
Proof. destruct t; reflexivity. Qed.

Theorem krosh_scaled : forall t n c rest d K, well_formed n -> ends_number c -> within_limits n -> readable_exponent n -> point_moved t n d K ->
  let s := written n ++ c :: rest in
  (largest_power t < K -> krosh (fmt_of t) s
     = Ok {| kr_value := infinity_of t false; kr_str_end := zlen (written n); kr_status := overflow; kr_is_accurate := true |}) /\
  (K < - largest_power t -> krosh (fmt_of t) s
     = Ok {| kr_value := 0; kr_str_end := zlen (written n); kr_status := underflow; kr_is_accurate := true |}) /\
  (- largest_power t <= K <= largest_power t ->
     exists q x, krosh (fmt_of t) s = kr_finish (fmt_of t) (is_minus (n_sign n)) (zlen (written n)) (mk_diy q x) /\
       2 ^ (width t - 2) <= q < 2 ^ width t /\ -10000 <= x <= 10000 /\
       (Rabs (IZR q * bpow radix2 x - abs_value n) < long_delta t * bpow radix2 x)%R).
Proof.
  intros t n c rest d K W Hc L SE PM s. pose proof (width_facts t) as Ww. rewrite <- !table_largest.
  assert (CN : coefficient n <> 0).
  { destruct PM as (Hd & j & R & J0 & EK & E & C). pose proof (pow10_pos j J0). assert (0 <= R) by lia. nia. }
  destruct (krosh_numeral t n c rest W Hc L) as (st & Hp & _ & HK). specialize (HK CN SE).
  destruct (point_moved_unique _ _ _ _ _ _ PM (point_moved_parsed t n c rest st W Hc Hp CN)) as [_ ->].
  destruct (long_mantissa t n c rest st W Hc Hp CN) as (f & e & M & M1 & M2 & M3 & M4 & M5 & M6).
  pose proof (pow2_pos (width t - 1) ltac:(lia)) as PW. pose proof (pow2_pos (width t - 2) ltac:(lia)) as PW2.
  specialize (HK _ M1 ltac:(cbn [m_f]; lia)). fold s in HK.
  assert (EL : fpow_lo (fmt_of t) = - table_max t /\ fpow_hi (fmt_of t) = table_max t) by (destruct t; auto).
  assert (T0 : 0 <= table_max t) by (destruct t; cbn; lia).
  assert (EI : huge_value (fmt_of t) = infinity_of t false) by (destruct t; reflexivity).
  split; [|split].
  - intros G. rewrite HK. unfold kr_scale. destruct EL as [-> ->].
    destruct (Z.eqb_spec (power_of n st) 0); [lia|]. destruct (Z.leb_spec (- table_max t) (power_of n st)); [|lia].
    destruct (Z.leb_spec (power_of n st) (table_max t)); [lia|]. now rewrite EI.
  - intros G. rewrite HK. unfold kr_scale. destruct EL as [-> ->].
    destruct (Z.eqb_spec (power_of n st) 0); [lia|]. destruct (Z.leb_spec (- table_max t) (power_of n st)); [lia|]. reflexivity.
  - intros G. rewrite HK.
    destruct (kr_scale_ok t (is_minus (n_sign n)) (zlen (written n)) _ f e M2 M3 G) as (q & x & S1 & S2 & S3 & S4).
    exists q, x. split; [exact S1|]. split; [exact S2|]. split; [exact S3|].
    rewrite M4. apply S4; [exact M6|].
    assert (0 <= IZR (2 ^ frac_shift t))%R by (apply IZR_le; destruct t; vm_compute; discriminate). lra.
Qed.

(** every number with a non-zero digit has a moved point *)
Lemma point_moved_exists : forall t n, well_formed n -> within_limits n -> coefficient n <> 0 -> exists d K, point_moved t n d K.
Proof.
  intros t n W L CN. assert (Hc : ends_number 0) by (repeat split; vm_compute; intuition congruence).
  destruct (krosh_numeral t n 0 [] W Hc L) as (st & Hp & _).
  exists (dval (pd_digits st)), (power_of n st). exact (point_moved_parsed t n 0 [] st W Hc Hp CN).
Qed.

(** the relative error of the scaled integer *)
Lemma scaled_relative : forall t q x y, 2 ^ (width t - 2) <= q -> (Rabs (IZR q * bpow radix2 x - y) < long_delta t * bpow radix2 x)%R ->
  let z := (IZR q * bpow radix2 x)%R in
  (z * (1 - bpow radix2 (- precision t)) < y < z * (1 + bpow radix2 (- precision t)))%R /\ (0 < z)%R.
Proof.
  intros t q x y Hq H z. pose proof (width_facts t) as Ww. fold z in H. apply Rabs_def2 in H. destruct H as [H1 H2].
  pose proof (bpow_gt_0 radix2 x) as Px. destruct (long_delta_facts t) as (D1 & D2 & _).
  assert (Zl : (bpow radix2 (width t - 2 + x) <= z)%R).
  { unfold z. rewrite bpow_plus. apply Rmult_le_compat_r; [lra|]. rewrite (bpow_IZR radix2) by lia. apply IZR_le. exact Hq. }
  assert (E : (long_delta t * bpow radix2 x <= z * bpow radix2 (- precision t))%R).
  { apply Rle_trans with (bpow radix2 (width t - 4 - precision t) * bpow radix2 x)%R; [apply Rmult_le_compat_r; lra|].
    rewrite <- bpow_plus. apply Rle_trans with (bpow radix2 (width t - 2 + x) * bpow radix2 (- precision t))%R.
    - rewrite <- bpow_plus. apply bpow_le. lia.
    - apply Rmult_le_compat_r; [apply bpow_ge_0|exact Zl]. }
  split; [|pose proof (bpow_gt_0 radix2 (width t - 2 + x)); lra]. split; lra.
Qed.
