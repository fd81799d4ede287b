(** Properties of ftoa and to_string, second part. *)
From Coq Require Import String Ascii Reals Lra List.
From Flocq Require Import Core.
From Verif Require Import Machine MachineFacts Format DiyFp Grisu Ftoa Spec Instances Api
  BoundFacts TableFacts DvalFacts DigitGenFacts GrisuFacts PrettifyFacts ShownFacts FtoaFacts RoundFacts WrittenFacts PrintProps.
Open Scope Z_scope.

(** * C06: oddness *)

Lemma opposite_fields : forall t v, pattern t v ->
  pattern t (opposite t v) /\ exp_field t (opposite t v) = exp_field t v /\
  frac_field t (opposite t v) = frac_field t v /\ sign_field t (opposite t v) = 1 - sign_field t v.
Proof.
  intros t v [H1 H2]. unfold opposite, exp_field, frac_field, sign_field, pattern.
  assert (W : 2 ^ width t = 2 * 2 ^ (width t - 1)) by (destruct t; reflexivity).
  assert (P : 2 ^ (width t - 1) = 2 ^ (width t - precision t) * 2 ^ (precision t - 1)) by (destruct t; reflexivity).
  assert (0 < 2 ^ (precision t - 1) /\ 0 < 2 ^ (width t - precision t)) as [P1 P2] by (destruct t; cbn; lia).
  set (S := 2 ^ (width t - 1)) in *. set (A := 2 ^ (precision t - 1)) in *. set (B := 2 ^ (width t - precision t)) in *.
  destruct (Z.ltb_spec v S) as [L|L].
  - split; [lia|]. split; [|split].
    + rewrite P, Z.div_add by lia. replace (v / A + B) with (v / A + 1 * B) by lia. apply Z_mod_plus_full.
    + rewrite P. apply Z_mod_plus_full.
    + rewrite (Z.div_small v S) by lia. replace (v + S) with (v + 1 * S) by lia. rewrite Z.div_add by lia. rewrite Z.div_small by lia. reflexivity.
  - split; [lia|]. split; [|split].
    + replace (v - S) with (v + (- B) * A) by lia. rewrite Z.div_add by lia.
      replace (v / A + - B) with (v / A + (-1) * B) by lia. apply Z_mod_plus_full.
    + replace (v - S) with (v + (- B) * A) by lia. apply Z_mod_plus_full.
    + rewrite (Z.div_small (v - S) S) by lia.
      assert (v / S = 1); [|lia]. symmetry. apply Z.div_unique with (v - S); lia.
Qed.

Lemma opposite_significand : forall t v, pattern t v ->
  significand t (opposite t v) = significand t v /\ exponent t (opposite t v) = exponent t v.
Proof.
  intros t v H. destruct (opposite_fields t v H) as (_ & E & F & _). unfold significand, exponent. rewrite E, F. now split.
Qed.

Lemma opposite_grisu2 : forall t v buf base, pattern t v ->
  grisu2 (fmt_of t) (opposite t v) buf base = grisu2 (fmt_of t) v buf base.
Proof.
  intros t v buf base H. destruct (opposite_significand t v H) as [E F].
  unfold grisu2, boundaries. rewrite !diy_of_bits_ok, E, F. reflexivity.
Qed.

Lemma shown_opposite : forall ds K, written (shown Minus ds K) = code "-" :: written (shown NoSign ds K).
Proof.
  intros. rewrite !written_body, !shown_sign. cbn [sign_text app].
  change (text "-") with [code "-"]. cbn [app]. f_equal.
  unfold body, shown. cbv zeta. destruct (16 <? _); [reflexivity|]. destruct (0 <=? K); [reflexivity|]. destruct (0 <? _); reflexivity.
Qed.

Theorem C06_odd : forall t v s, nonzero t v \/ infinite t v -> ~ negative t v -> prints t v s ->
  prints t (opposite t v) (code "-" :: s).
Proof.
  intros t v s [C|C] N P.
  - pose proof (proj1 (proj1 C)) as Hp.
    destruct (opposite_fields t v Hp) as (Hp' & He & Hf & Hs).
    assert (C' : nonzero t (opposite t v)).
    { destruct C as [[_ C1] C2]. split; [split; [assumption|now rewrite He]|]. intros (_ & Q1 & Q2). apply C2.
      rewrite He in Q1. rewrite Hf in Q2. split; [assumption|]. now split. }
    assert (S0 : sign_field t v = 0).
    { destruct (pattern_split t v Hp) as [_ B]. unfold negative in N. lia. }
    destruct (ftoa_finite_g t v C) as (ds & K & lo & hi & A1 & A2 & A3 & A4 & A5 & A6 & A7 & A8 & A9 & A10 & A11 & A12).
    destruct (ftoa_finite_g t _ C') as (ds' & K' & lo' & hi' & B1 & B2 & B3 & B4 & B5 & B6 & B7 & B8 & B9 & B10 & B11 & B12).
    assert (E : ds = ds' /\ K = K').
    { specialize (A12 [] (repeat 0 (length ds + length ds'))). specialize (B12 [] (repeat 0 (length ds + length ds'))).
      rewrite repeat_length in A12, B12. specialize (A12 ltac:(lia)). specialize (B12 ltac:(lia)).
      rewrite opposite_grisu2, A12 in B12 by assumption. injection B12 as Q1 Q2 Q3.
      split; [|assumption]. assert (L : length ds = length ds') by (unfold zlen in Q2; lia).
      cbn [app] in Q1. apply dval_inj; try assumption. f_equal.
      apply (f_equal (firstn (length ds'))) in Q1. rewrite !firstn_app in Q1.
      rewrite !dchars_length, L, Nat.sub_diag in Q1. cbn [firstn] in Q1. rewrite !app_nil_r in Q1.
      rewrite firstn_all2 in Q1 by (rewrite dchars_length; lia). rewrite firstn_all2 in Q1 by (rewrite dchars_length; lia).
      clear - Q1. revert ds' Q1. induction ds as [|d ds IH]; intros [|d' ds'] Q; try discriminate; [reflexivity|].
      pose proof (f_equal (hd 0) Q) as Q1. apply (f_equal (@tl Z)) in Q. cbn [dchars map hd tl] in *.
      f_equal; [lia|now apply IH]. }
    destruct E as [<- <-].
    unfold sign_of in *. rewrite Hs, S0 in B10. rewrite S0 in A10. cbn [Z.sub Z.add Z.opp Z.eqb Pos.eqb] in *.
    change (1 - 0 =? 1) with true in B10. change (0 =? 1) with false in A10.
    rewrite (prints_unique t v _ _ P A10). rewrite <- shown_opposite. exact B10.
  - pose proof C as (Hp & C1 & C2).
    destruct (opposite_fields t v Hp) as (Hp' & He & Hf & Hs).
    assert (C' : infinite t (opposite t v)) by (split; [assumption|]; rewrite He, Hf; now split).
    assert (S0 : sign_field t v = 0).
    { destruct (pattern_split t v Hp) as [_ B]. unfold negative in N. lia. }
    pose proof (ftoa_inf t v C) as Q. pose proof (ftoa_inf t _ C') as Q'. rewrite Hs, S0 in Q'. rewrite S0 in Q.
    rewrite (prints_unique t v _ _ P Q). exact Q'.
Qed.

(** * C07 *)

Theorem C07_notation : forall t v m, nonzero t v -> well_formed m -> prints t v (written m) ->
  exists D k n, 10 ^ (n - 1) <= D < 10 ^ n /\ D mod 10 <> 0 /\ abs_value m = (IZR D * pow10 k)%R /\
    (n_exp m = None <-> Z.max (n + k) (- k) <= 16) /\
    (n_exp m <> None -> length (n_int m) = 1%nat /\ exponent_value m = n + k - 1).
Proof.
  intros t v m C W P.
  destruct (printed t v m C W P) as (ds & K & lo & hi & A1 & A2 & A3 & A4 & A5 & A6 & A7 & A8 & A9 & A10 & Hn & HK & Em).
  exists (dval ds), K, (zlen ds). pose proof (ds_nonempty ds A2) as N.
  split; [now apply dval_size|].
  split; [rewrite dval_mod10; [exact A3|now apply ne_of_hd|assumption]|].
  split; [rewrite Em; now apply shown_value|].
  pose proof (shown_cases (sign_of t v) ds K A1 A2 A3 Hn HK) as SC. rewrite <- Em in SC.
  destruct SC as [(H & d & ds' & E & H1 & H2 & H3)|(H & H3 & _)].
  - rewrite H3. split; [split; [discriminate|lia]|]. intros _. split; [now rewrite H1|].
    unfold exponent_value. rewrite H3. cbn [x_sign x_digits].
    destruct (exp_digits_ok (Z.abs (zlen ds + K - 1))) as (_ & -> & _); [lia|].
    unfold signed. destruct (Z.ltb_spec (zlen ds + K - 1) 0); cbn [is_minus]; lia.
  - rewrite H3. split; [tauto|]. congruence.
Qed.

(** * C08 *)

Theorem C08_bounded : forall t v m, nonzero t v -> well_formed m -> prints t v (written m) ->
  significant_digits_at_most (match t with Float => 9 | Double => 17 end) m /\
  Z.of_nat (length (written m)) <= match t with Float => 19 | Double => 24 end.
Proof.
  intros t v m C W P.
  destruct (printed t v m C W P) as (ds & K & lo & hi & A1 & A2 & A3 & A4 & A5 & A6 & A7 & A8 & A9 & A10 & Hn & HK & Em).
  split; [|assumption]. pose proof (ds_nonempty ds A2) as N.
  exists (dval ds), (if 0 <=? K then (if 16 <? Z.max (zlen ds + K) (- K) then 0 else K) else 0).
  pose proof (dval_bounds ds A1) as B.
  assert (10 ^ zlen ds <= 10 ^ (match t with Float => 9 | Double => 17 end)).
  { apply Z.pow_le_mono_r; [lia|]. destruct t; exact A4. }
  split; [lia|].
  pose proof (shown_cases (sign_of t v) ds K A1 A2 A3 Hn HK) as SC. rewrite <- Em in SC. unfold coefficient, frac_digits.
  destruct SC as
    [(H' & d & ds' & E & Hi & Hf & Hx)|(H' & Hx & [(H0' & Hi & Hf)|[(H0' & a & b & E & La & Lb & Hi & Hf)|(H0' & H00 & Hi & Hf)]])];
    rewrite Hi, Hf.
  - destruct (Z.ltb_spec 16 (Z.max (zlen ds + K) (- K))); [|lia].
    assert (Q : dval ([d] ++ match (if 1 <? zlen ds then Some ds' else None) with Some f => f | None => [] end) = dval ds).
    { rewrite E. rewrite zlen_cons. destruct (Z.ltb_spec 1 (1 + zlen ds')); [reflexivity|].
      destruct ds'; [reflexivity|]. rewrite zlen_cons in *. pose proof (zlen_nonneg ds'). lia. }
    rewrite Q. destruct (0 <=? K); (split; [lia|]); lia.
  - destruct (Z.ltb_spec 16 (Z.max (zlen ds + K) (- K))); [lia|]. destruct (Z.leb_spec 0 K); [|lia].
    split; [lia|]. rewrite app_nil_r, dval_app, dval_zeros, zlen_repeat, Z2Nat.id by lia. lia.
  - destruct (Z.leb_spec 0 K); [lia|]. split; [lia|]. rewrite <- E. lia.
  - destruct (Z.leb_spec 0 K); [lia|]. split; [lia|]. cbn [app]. rewrite dval_cons, dval_app, dval_zeros. lia.
Qed.
