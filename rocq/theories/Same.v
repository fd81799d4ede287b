(** C92: texts of the same number. *)
From Coq Require Import Reals Lra Lia ZArith List String Ascii.
From Flocq Require Import Core.
From Verif Require Import Machine MachineFacts BitOps StaticPow Fraction Format DiyFp KComp Krosh Atof Spec ParseSpec SameSpec ParseApi Instances
  DiyFacts BoundFacts TableFacts GrisuFacts FtoaFacts RoundFacts DownFacts DvalFacts CmpFacts ArithProps ScanFacts LoopFacts ParseFacts GapFacts KroshNum ShortFacts FracFacts LongFacts RangeFacts ScaledFacts ParseProps Refuted SameFacts.
Open Scope Z_scope.

(** Two texts are read alike: atof gives the same value and status for both and consumes each to
    its end, whatever follows, or it leaves both to the fallback. *)
Definition read_alike (t : ftype) (n m : numeral) : Prop :=
  (exists v st, forall x, x = n \/ x = m -> forall c rest want fb errno, ends_number c ->
     atof (fmt_of t) (written x ++ c :: rest) want fb errno = Ok (answer want errno v st (len (written x)))) \/
  (forall x, x = n \/ x = m -> forall c rest want fb errno, ends_number c ->
     atof (fmt_of t) (written x ++ c :: rest) want fb errno = fallback_answer t (written x ++ c :: rest) want fb errno).

Lemma value_parts : forall n m, value n = value m -> value n <> 0%R -> well_formed n -> well_formed m ->
  is_minus (n_sign n) = is_minus (n_sign m) /\ abs_value n = abs_value m /\ coefficient n <> 0 /\ coefficient m <> 0.
Proof.
  assert (A : forall n, well_formed n -> (0 <= abs_value n)%R).
  { intros n (W1 & W2 & _). unfold abs_value. apply Rmult_le_pos; [|apply bpow_ge_0]. apply IZR_le.
    unfold coefficient. assert (D : Forall digit (n_int n ++ frac_digits n)) by (apply Forall_app; auto). pose proof (dval_bounds _ D). lia. }
  assert (Z : forall n, coefficient n = 0 -> value n = 0%R).
  { intros n E. unfold value, abs_value. rewrite E, Rmult_0_l, Ropp_0. now destruct (is_minus (n_sign n)). }
  intros n m E N Wn Wm. pose proof (A n Wn). pose proof (A m Wm).
  assert (coefficient n <> 0) by (intros C; apply N, Z, C).
  assert (coefficient m <> 0) by (intros C; apply N; rewrite E; apply Z, C).
  unfold value in *. destruct (is_minus (n_sign n)), (is_minus (n_sign m)); repeat split; auto; try lra.
Qed.

Lemma alike : forall t n m, well_formed n -> well_formed m ->
  (forall c rest c' rest', ends_number c -> ends_number c' ->
     exists r, krosh (fmt_of t) (written n ++ c :: rest) = Ok (with_end (zlen (written n)) r) /\
               krosh (fmt_of t) (written m ++ c' :: rest') = Ok (with_end (zlen (written m)) r)) ->
  read_alike t n m.
Proof.
  intros t n m Wn Wm H. assert (H0 : ends_number 0) by (repeat split; vm_compute; intuition congruence).
  destruct (H 0 [] 0 [] H0 H0) as (r0 & _ & Er0).
  assert (K : forall x, x = n \/ x = m -> forall c rest, ends_number c -> krosh (fmt_of t) (written x ++ c :: rest) = Ok (with_end (zlen (written x)) r0)).
  { assert (Kn : forall c rest, ends_number c -> krosh (fmt_of t) (written n ++ c :: rest) = Ok (with_end (zlen (written n)) r0)).
    { intros c rest Hc. destruct (H c rest 0 [] Hc H0) as (r & E1 & E2). rewrite Er0 in E2. rewrite E1.
      unfold with_end in *. injection E2 as -> -> ->. reflexivity. }
    intros x [->| ->]; [exact Kn|]. intros c rest Hc. destruct (H 0 [] c rest H0 Hc) as (r & E1 & E2).
    rewrite Kn in E1 by exact H0. rewrite E2. unfold with_end in *. injection E1 as -> -> ->. reflexivity. }
  assert (WN : forall x, x = n \/ x = m -> well_formed x) by (intros x [->| ->]; assumption).
  unfold with_end in K. destruct (kr_is_accurate r0) eqn:Ea.
  - left. exists (kr_value r0), (kr_status r0). intros x Hx c rest want fb errno Hc.
    exact (atof_fast _ _ _ _ _ _ _ _ (K x Hx c rest Hc) (written_nonempty x (WN x Hx))).
  - right. intros x Hx c rest want fb errno Hc.
    exact (atof_slow _ _ _ _ _ _ _ _ (K x Hx c rest Hc) (written_nonempty x (WN x Hx))).
Qed.

(** C92, as far as it holds: two texts of one number, however they are written, are read alike
    unless one of them has 20 to 22 (float: 10 to 12) significant digits before its point and
    more behind it. *)
Theorem C92_same_number_partial : forall t n m, well_formed n -> well_formed m -> within_limits n -> within_limits m ->
  readable_exponent n -> readable_exponent m -> point_clear t n -> point_clear t m ->
  value n = value m -> value n <> 0%R -> read_alike t n m.
Proof.
  intros t n m Wn Wm Ln Lm Xn Xm Pn Pm E N. destruct (value_parts n m E N Wn Wm) as (S & A & Cn & Cm).
  apply alike; try assumption. intros c rest c' rest' Hc Hc'. now apply krosh_same.
Qed.

(** ... in particular numbers of up to 19 (9) significant digits *)
Lemma short_clear : forall t n, well_formed n -> significant_digits_at_most (exact_digits t) n -> point_clear t n.
Proof.
  intros t n (W1 & W2 & _) (d & j & Hd & J0 & E). unfold point_clear.
  destruct (Z.lt_ge_cases (dval (n_int n)) (10 ^ exact_digits t)) as [|G]; [now left|right; right].
  unfold coefficient in E. rewrite dval_app in E. set (z := zlen (frac_digits n)) in *.
  pose proof (dval_bounds _ W2) as BF. fold z in BF. assert (Z0 : 0 <= z) by apply zlen_nonneg.
  pose proof (pow10_pos z Z0). pose proof (pow10_pos j J0).
  destruct (Z.le_gt_cases z j) as [L|L].
  - rewrite (pow10_split z j) in E by lia. set (q := 10 ^ (j - z)) in *.
    set (w := 10 ^ z) in *. assert (EF : dval (frac_digits n) = (d * q - dval (n_int n)) * w) by (rewrite Z.mul_sub_distr_r; lia).
    assert (d * q - dval (n_int n) = 0) by nia. nia.
  - assert (10 ^ j <= 10 ^ z) by (apply Z.pow_le_mono_r; lia). exfalso.
    assert (10 ^ exact_digits t * 10 ^ z <= dval (n_int n) * 10 ^ z) by (apply Z.mul_le_mono_nonneg_r; lia).
    assert (d * 10 ^ j < 10 ^ exact_digits t * 10 ^ j) by (apply Z.mul_lt_mono_pos_r; lia).
    assert (10 ^ exact_digits t * 10 ^ j <= 10 ^ exact_digits t * 10 ^ z) by (apply Z.mul_le_mono_nonneg_l; lia). lia.
Qed.

Theorem C92_short_numbers : forall t n m, well_formed n -> well_formed m -> within_limits n -> within_limits m ->
  readable_exponent n -> readable_exponent m ->
  significant_digits_at_most (exact_digits t) n -> significant_digits_at_most (exact_digits t) m ->
  value n = value m -> value n <> 0%R -> read_alike t n m.
Proof. intros. apply C92_same_number_partial; try assumption; now apply short_clear. Qed.

(** zeros differ in their sign only *)
Theorem C92_zeros : forall t n m, well_formed n -> well_formed m -> within_limits n -> within_limits m ->
  value n = 0%R -> value m = 0%R -> is_minus (n_sign n) = is_minus (n_sign m) ->
  exists v, forall x, x = n \/ x = m -> forall c rest want fb errno, ends_number c ->
    atof (fmt_of t) (written x ++ c :: rest) want fb errno = Ok (answer want errno v success (len (mantissa_text x))).
Proof.
  intros t n m Wn Wm Ln Lm En Em S. exists (zero_of t (is_minus (n_sign n))).
  assert (Z : forall x, value x = 0%R -> coefficient x = 0).
  { intros x E. unfold value, abs_value in E. pose proof (bpow_gt_0 radix10 (scale x)). apply eq_IZR.
    destruct (is_minus (n_sign x)); nra. }
  intros x [->| ->] c rest want fb errno Hc.
  - apply C39_zero_mantissa; auto.
  - rewrite S. apply C39_zero_mantissa; auto.
Qed.

(** The exception: behind 20 significant digits before the point (float: 10) everything behind the
    point is ignored, also where the digits themselves would still count. *)
Theorem C92_fraction_ignored : forall t n, well_formed n -> within_limits n -> readable_exponent n -> long_integer t n ->
  read_alike t n (integer_only n).
Proof.
  intros t n W L X LI. apply alike; [exact W| |].
  - pose proof W as (W1 & W2 & W3 & W4). split; [exact W1|]. split; [constructor|]. split; [|exact W4]. cbn. rewrite app_nil_r.
    intros E. pose proof (pow10_pos (exact_digits t) ltac:(destruct t; cbn; lia)). apply (LI 0 0); [lia|lia|]. now rewrite E.
  - intros c rest c' rest' Hc Hc'. now apply krosh_int.
Qed.

Lemma same_parts : forall n m, is_minus (n_sign n) = is_minus (n_sign m) -> coefficient n = coefficient m -> scale n = scale m -> value n = value m.
Proof. intros n m A B C. unfold value, abs_value. now rewrite A, B, C. Qed.

(** So the place of the point matters: both texts are the same number, and atof itself decides on
    both. *)
Theorem C92_refuted : forall t, exists n m v v', well_formed n /\ well_formed m /\ value n = value m /\ v <> v' /\
  (forall want fb errno, atof (fmt_of t) (written n ++ [0]) want fb errno = Ok (answer want errno v success (len (written n)))) /\
  (forall want fb errno, atof (fmt_of t) (written m ++ [0]) want fb errno = Ok (answer want errno v' success (len (written m)))) /\
  written n = text match t with Float => "1745519220.99e-9" | Double => "10680655625563945099.99e-19" end /\
  written m = text match t with Float => "1.74551922099" | Double => "1.068065562556394509999" end.
Proof.
  destruct t.
  - exists (nume NoSign [1;7;4;5;5;1;9;2;2;0] (Some [9;9]) Minus [9]), (num NoSign [1] (Some [7;4;5;5;1;9;2;2;0;9;9])), 1071607084, 1071607085.
    split; [wfn|]. split; [wfn|]. split; [apply same_parts; vm_compute; reflexivity|]. split; [discriminate|].
    split; [run|]. split; [run|]. split; reflexivity.
  - exists (nume NoSign [1;0;6;8;0;6;5;5;6;2;5;5;6;3;9;4;5;0;9;9] (Some [9;9]) Minus [1;9]),
      (num NoSign [1] (Some [0;6;8;0;6;5;5;6;2;5;5;6;3;9;4;5;0;9;9;9;9])), 4607488958842183149, 4607488958842183150.
    split; [wfn|]. split; [wfn|]. split; [apply same_parts; vm_compute; reflexivity|]. split; [discriminate|].
    split; [run|]. split; [run|]. split; reflexivity.
Qed.
