(** C95: what ftoa prints, exactly. *)
From Coq Require Import String Ascii Reals Lra Lia ZArith List.
From Flocq Require Import Core.
From Verif Require Import Machine MachineFacts StaticPow Format DiyFp KComp Grisu Ftoa Spec ParseSpec Instances Api
  DiyFacts BoundFacts TableFacts DvalFacts DigitGenFacts GrisuFacts PrettifyFacts ShownFacts FtoaFacts RoundFacts CmpFacts ShortFacts WrittenFacts PrintProps Cut ExactSpec ExactFacts PrintSpec PrintFacts.
Import ListNotations.
Open Scope Z_scope.

Lemma layout_shown : forall s ds K, layout s ds K = shown s ds K.
Proof. reflexivity. Qed.

Lemma digits_unique : forall a b, Forall digit a -> Forall digit b -> hd 0 a <> 0 -> hd 0 b <> 0 -> dval a = dval b -> a = b.
Proof.
  intros a b Da Db Ha Hb E. apply dval_inj; try assumption.
  pose proof (dval_size a Da Ha) as A. pose proof (dval_size b Db Hb) as B. rewrite E in A.
  assert (1 <= zlen a) by (destruct a; [cbn in Ha; congruence|rewrite zlen_cons; pose proof (zlen_nonneg a); lia]).
  assert (1 <= zlen b) by (destruct b; [cbn in Hb; congruence|rewrite zlen_cons; pose proof (zlen_nonneg b); lia]).
  assert (zlen a - 1 < zlen b) by (apply (Z.pow_lt_mono_r_iff 10); lia).
  assert (zlen b - 1 < zlen a) by (apply (Z.pow_lt_mono_r_iff 10); lia). unfold zlen in *. lia.
Qed.

Lemma decimal_one : forall D ds z ds' z', decimal D ds z -> decimal D ds' z' -> ds = ds' /\ z = z'.
Proof.
  intros D ds z ds' z' (A1 & A2 & A3 & A4 & A5) (B1 & B2 & B3 & B4 & B5).
  assert (E : (IZR (dval ds) * pow10 z = IZR (dval ds') * pow10 z')%R).
  { rewrite <- !pow10_IZR, <- !mult_IZR by assumption. f_equal. congruence. }
  apply decimal_unique in E as [E ->].
  - split; [|reflexivity]. now apply digits_unique.
  - rewrite dval_mod10; [assumption|now apply ne_of_hd|assumption].
  - rewrite dval_mod10; [assumption|now apply ne_of_hd|assumption].
Qed.

Lemma places_one : forall t v k i i', places t v k i -> places t v k i' -> i = i'.
Proof.
  intros t v k i i' (A1 & A2 & A3) (B1 & B2 & B3).
  destruct (Z.lt_trichotomy i i') as [C|[C|C]]; [|assumption|]; exfalso; [apply (B3 i)|apply (A3 i')]; auto; lia.
Qed.

Lemma printed_parts : forall t v, nonzero t v ->
  exists k i ds z, power_for t v k /\ places t v k i /\ decimal (digits_of t v k i) ds z /\
    prints_tightly t v (written (layout (sign_of_value t v) ds (z - k - i))).
Proof.
  intros t v Nz. pose proof Nz as [Hfin _].
  destruct (ftoa_finite_t t v Nz) as (ds & K & lo & hi & A1 & A2 & A3 & A4 & A5 & _ & _ & _ & _ & A10 & A11 & A12).
  destruct (grisu2_exactly t v Hfin (nonzero_significand t v Nz)) as (ds' & k & i & z & B1 & B2 & B3 & B4 & B5 & B6 & B7 & B8 & B9).
  assert (E : ds = ds' /\ K = z - k - i).
  { specialize (A12 [] (repeat 0 40)). specialize (B9 [] (repeat 0 40)). rewrite repeat_length in A12, B9.
    assert (L : (length ds <= 40)%nat) by (clear - A4; unfold zlen in A4; destruct t; cbn [max_sig] in A4; lia).
    specialize (A12 L). specialize (B9 B4). rewrite A12 in B9. injection B9 as E1 E2 E3. split; [|exact E3]. eapply dchars_prefix; eassumption. }
  destruct E as [<- ->]. exists k, i, ds, z. split; [assumption|]. split; [assumption|]. split; [|exact A10].
  repeat split; assumption.
Qed.

(** C95: the text ftoa writes for a finite non-zero value is determined by its rounding interval
    through integer arithmetic as PrintSpec says, to the last character; it is written into every
    buffer that has room for it and the NUL. *)
Theorem C95_exactly : forall t v k i ds z, nonzero t v ->
  power_for t v k -> places t v k i -> decimal (digits_of t v k i) ds z ->
  prints_tightly t v (written (layout (sign_of_value t v) ds (z - k - i))).
Proof.
  intros t v k i ds z Nz Pw Pl Dc. destruct (printed_parts t v Nz) as (k' & i' & ds' & z' & Pw' & Pl' & Dc' & H).
  pose proof (ten_above_unique _ _ _ Pw Pw') as <-. pose proof (places_one _ _ _ _ _ Pl Pl') as <-.
  destruct (decimal_one _ _ _ _ _ Dc Dc') as [<- <-]. exact H.
Qed.

(** ... and these numbers exist for every value, once each *)
Theorem C95_parts : forall t v, nonzero t v ->
  exists k i ds z, power_for t v k /\ places t v k i /\ decimal (digits_of t v k i) ds z /\
    forall k' i' ds' z', power_for t v k' -> places t v k' i' -> decimal (digits_of t v k' i') ds' z' -> k' = k /\ i' = i /\ ds' = ds /\ z' = z.
Proof.
  intros t v Nz. destruct (printed_parts t v Nz) as (k & i & ds & z & Pw & Pl & Dc & _). exists k, i, ds, z.
  split; [exact Pw|]. split; [exact Pl|]. split; [exact Dc|]. intros k' i' ds' z' Pw' Pl' Dc'.
  pose proof (ten_above_unique _ _ _ Pw Pw') as <-. pose proof (places_one _ _ _ _ _ Pl Pl') as <-.
  destruct (decimal_one _ _ _ _ _ Dc Dc') as [<- <-]. auto.
Qed.

(** Hence the printed number. *)
Theorem C95_number : forall t v k i m, nonzero t v -> power_for t v k -> places t v k i -> well_formed m -> prints t v (written m) ->
  abs_value m = (IZR (digits_of t v k i) * pow10 (- k - i))%R.
Proof.
  intros t v k i m Nz Pw Pl W P. destruct (printed_cut t v m Nz W P) as (ds & K & _ & _ & A1 & A2 & A3 & A4 & _).
  destruct (printed_parts t v Nz) as (k' & i' & ds' & z' & Pw' & Pl' & Dc' & H).
  pose proof (ten_above_unique _ _ _ Pw Pw') as <-. pose proof (places_one _ _ _ _ _ Pl Pl') as <-.
  destruct Dc' as (B1 & B2 & B3 & B4 & B5).
  destruct (ftoa_finite_t t v Nz) as (ds2 & K2 & lo & hi & C1 & C2 & C3 & C4 & C5 & _ & _ & _ & _ & C10 & C11 & C12).
  destruct (grisu2_exactly t v (proj1 Nz) (nonzero_significand t v Nz)) as (ds3 & k3 & i3 & z3 & D1 & D2 & D3 & D4 & D5 & D6 & D7 & D8 & D9).
  pose proof (ten_above_unique _ _ _ Pw D5) as <-. pose proof (places_one _ _ _ _ _ Pl D6) as <-.
  assert (E : ds2 = ds3 /\ K2 = z3 - k - i).
  { specialize (C12 [] (repeat 0 40)). specialize (D9 [] (repeat 0 40)). rewrite repeat_length in C12, D9.
    assert (L : (length ds2 <= 40)%nat) by (clear - C4; unfold zlen in C4; destruct t; cbn [max_sig] in C4; lia).
    specialize (C12 L). specialize (D9 D4). rewrite C12 in D9. injection D9 as E1 E2 E3. split; [|exact E3]. eapply dchars_prefix; eassumption. }
  destruct E as [<- ->].
  assert (HK : -500 <= z3 - k - i <= 500) by (clear - C5; destruct t; cbn [kmin kmax] in C5; lia).
  assert (Hn : zlen ds2 <= 17) by (clear - C4; destruct t; cbn [max_sig] in C4; lia).
  assert (Em : m = shown (sign_of t v) ds2 (z3 - k - i)).
  { apply written_inj; [assumption|now apply shown_wf|]. apply (prints_unique t v); [assumption|]. apply tight_prints; [assumption|]. clear - C11. unfold zlen in C11. destruct t; lia. }
  rewrite Em, shown_value by assumption. rewrite <- D8, mult_IZR, pow10_IZR, Rmult_assoc, <- bpow_plus by assumption. do 2 f_equal. lia.
Qed.
