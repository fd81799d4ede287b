(** C25 for every precision: convert_numerator for any numbers of decimal and binary digits that
    fit a 32-bit integer, not only those the library uses. *)
From Coq Require Import Lia ZArith List Bool.
From Verif Require Import Machine MachineFacts BitOps StaticPow Fraction ArithProps.
Open Scope Z_scope.

Lemma lor_digit : forall x k r, 0 <= x <= 1 -> 0 <= k -> 0 <= r < 2 ^ k -> Z.lor (Z.shiftl x k) r = x * 2 ^ k + r.
Proof. intros x k r Hx Hk Hr. rewrite Z.shiftl_mul_pow2 by lia. apply lor_disjoint; lia. Qed.

Lemma b2z_range : forall x, 0 <= b2z x <= 1. Proof. intros []; cbn; lia. Qed.

(** one step *)
Lemma convert_step : forall d b rem n, 10 ^ Z.of_nat d < 2 ^ 32 -> (rem < b <= 31)%nat -> 0 <= n < 2 ^ 32 ->
  let F := 10 ^ Z.of_nat d / 2 ^ (Z.of_nat b - Z.of_nat rem) in
  let dec := b2z (F <=? n) in
  0 <= F /\ 0 <= n - dec * F < 2 ^ 32 /\
  fraction_convert d b rem n = match rem with O => dec | S r => Z.lor (Z.shiftl dec (Z.of_nat rem)) (fraction_convert d b r (n - dec * F)) end.
Proof.
  intros d b rem n HD HB Hn F dec.
  assert (P : 0 < 2 ^ (Z.of_nat b - Z.of_nat rem)) by (apply Z.pow_pos_nonneg; lia).
  assert (F0 : 0 <= F) by (apply Z.div_pos; [apply Z.pow_nonneg; lia|exact P]).
  assert (R : 0 <= n - dec * F < 2 ^ 32) by (unfold dec; destruct (Z.leb_spec F n); cbn [b2z]; lia).
  split; [exact F0|]. split; [exact R|].
  assert (E10 : static_pow 10 d = 10 ^ Z.of_nat d) by (apply C54_static_pow; lia).
  assert (E2 : static_pow 2 (b - rem) = 2 ^ (Z.of_nat b - Z.of_nat rem)).
  { rewrite C54_static_pow; [f_equal; lia|lia|]. apply Z.pow_lt_mono_r; lia. }
  destruct rem as [|r]; cbn [fraction_convert]; rewrite E10, E2; [reflexivity|].
  fold F. fold dec. rewrite wrap_small by exact R. reflexivity.
Qed.

Lemma convert_range : forall d b rem n, 10 ^ Z.of_nat d < 2 ^ 32 -> (rem < b <= 31)%nat -> 0 <= n < 2 ^ 32 ->
  0 <= fraction_convert d b rem n < 2 ^ (Z.of_nat rem + 1).
Proof.
  intros d b. induction rem as [|r IH]; intros n HD HB Hn; destruct (convert_step d b _ n HD HB Hn) as (F0 & R & ->).
  - pose proof (b2z_range (10 ^ Z.of_nat d / 2 ^ (Z.of_nat b - Z.of_nat 0) <=? n)). change (2 ^ (Z.of_nat 0 + 1)) with 2. lia.
  - pose proof (b2z_range (10 ^ Z.of_nat d / 2 ^ (Z.of_nat b - Z.of_nat (S r)) <=? n)) as Hd.
    specialize (IH _ HD ltac:(lia) R). replace (Z.of_nat r + 1) with (Z.of_nat (S r)) in IH by lia.
    rewrite lor_digit by lia. rewrite Z.pow_add_r by lia. change (2 ^ 1) with 2. nia.
Qed.

Lemma convert_eq : forall d b r n, 10 ^ Z.of_nat d < 2 ^ 32 -> (S r < b <= 31)%nat -> 0 <= n < 2 ^ 32 ->
  let F := 10 ^ Z.of_nat d / 2 ^ (Z.of_nat b - Z.of_nat (S r)) in let dec := b2z (F <=? n) in
  fraction_convert d b (S r) n = dec * 2 ^ Z.of_nat (S r) + fraction_convert d b r (n - dec * F).
Proof.
  intros d b r n HD HB Hn F dec. destruct (convert_step d b _ n HD HB Hn) as (F0 & R & ->). fold F in R |- *. fold dec in R |- *.
  pose proof (convert_range d b r _ HD ltac:(lia) R) as C. replace (Z.of_nat r + 1) with (Z.of_nat (S r)) in C by lia.
  apply lor_digit; [apply b2z_range|lia|exact C].
Qed.

(** the digit is worth a little less than its share *)
Lemma share : forall d b rem, (rem < b)%nat ->
  let F := 10 ^ Z.of_nat d / 2 ^ (Z.of_nat b - Z.of_nat rem) in
  0 <= 2 ^ Z.of_nat rem * 10 ^ Z.of_nat d - F * 2 ^ Z.of_nat b <= 2 ^ Z.of_nat b.
Proof.
  intros d b rem H F. assert (P : 0 < 2 ^ (Z.of_nat b - Z.of_nat rem)) by (apply Z.pow_pos_nonneg; lia).
  assert (Q : 0 < 2 ^ Z.of_nat rem) by (apply Z.pow_pos_nonneg; lia).
  pose proof (Z.div_mod (10 ^ Z.of_nat d) (2 ^ (Z.of_nat b - Z.of_nat rem)) ltac:(lia)) as D. fold F in D.
  pose proof (Z.mod_pos_bound (10 ^ Z.of_nat d) _ P) as M. set (m := 10 ^ Z.of_nat d mod _) in *.
  assert (E : 2 ^ Z.of_nat b = 2 ^ Z.of_nat rem * 2 ^ (Z.of_nat b - Z.of_nat rem)) by (rewrite <- Z.pow_add_r by lia; f_equal; lia).
  rewrite E, D. set (x := 2 ^ Z.of_nat rem) in *. set (y := 2 ^ (Z.of_nat b - Z.of_nat rem)) in *. nia.
Qed.

Lemma convert_upper : forall d b rem n, 10 ^ Z.of_nat d < 2 ^ 32 -> (rem < b <= 31)%nat -> 0 <= n < 2 ^ 32 ->
  fraction_convert d b rem n * 10 ^ Z.of_nat d - n * 2 ^ Z.of_nat b <= (Z.of_nat rem + 1) * 2 ^ Z.of_nat b.
Proof.
  intros d b. induction rem as [|r IH]; intros n HD HB Hn.
  - destruct (convert_step d b _ n HD HB Hn) as (F0 & R & ->). pose proof (share d b 0 ltac:(lia)) as SH. cbv zeta in SH.
    set (F := 10 ^ Z.of_nat d / 2 ^ (Z.of_nat b - Z.of_nat 0)) in *. set (B := 2 ^ Z.of_nat b) in *. assert (0 < B) by (apply Z.pow_pos_nonneg; lia).
    destruct (Z.leb_spec F n); cbn [b2z] in *; change (2 ^ Z.of_nat 0) with 1 in SH; change (Z.of_nat 0) with 0; nia.
  - rewrite convert_eq by assumption. destruct (convert_step d b _ n HD HB Hn) as (F0 & R & _).
    pose proof (share d b (S r) ltac:(lia)) as SH. cbv zeta in SH. set (F := 10 ^ Z.of_nat d / 2 ^ (Z.of_nat b - Z.of_nat (S r))) in *.
    specialize (IH _ HD ltac:(lia) R). set (r' := fraction_convert d b r _) in *. set (B := 2 ^ Z.of_nat b) in *. assert (0 < B) by (apply Z.pow_pos_nonneg; lia).
    replace (Z.of_nat (S r) + 1) with (Z.of_nat r + 2) by lia. pose proof (b2z_range (F <=? n)).
    set (dec := b2z (F <=? n)) in *. assert (dec = 0 \/ dec = 1) as [-> | ->] by lia; lia.
Qed.

Lemma convert_lower : forall d b rem n c, 10 ^ Z.of_nat d < 2 ^ 32 -> (rem < b <= 31)%nat -> 0 <= n < 2 ^ 32 -> 0 <= c ->
  n <= 10 ^ Z.of_nat d / 2 ^ (Z.of_nat b - Z.of_nat rem - 1) - 1 + c ->
  n * 2 ^ Z.of_nat b - fraction_convert d b rem n * 10 ^ Z.of_nat d <= (10 ^ Z.of_nat d / 2 ^ Z.of_nat b + c + Z.of_nat rem) * 2 ^ Z.of_nat b.
Proof.
  intros d b. induction rem as [|r IH]; intros n c HD HB Hn Hc H.
  - destruct (convert_step d b _ n HD HB Hn) as (F0 & R & ->). pose proof (share d b 0 ltac:(lia)) as SH. cbv zeta in SH.
    change (Z.of_nat 0) with 0 in *. rewrite Z.sub_0_r in *. change (2 ^ 0) with 1 in SH.
    set (B := 2 ^ Z.of_nat b) in *. assert (0 < B) by (apply Z.pow_pos_nonneg; lia).
    assert (H2 : 10 ^ Z.of_nat d / 2 ^ (Z.of_nat b - 1) <= 2 * (10 ^ Z.of_nat d / B) + 1).
    { assert (E : B = 2 ^ (Z.of_nat b - 1) * 2) by (unfold B; replace (Z.of_nat b) with (Z.of_nat b - 1 + 1) at 1 by lia; rewrite Z.pow_add_r by lia; reflexivity).
      rewrite E, <- Z.div_div by (try lia; apply Z.pow_nonzero; lia). set (q := _ / 2 ^ _). pose proof (Z.div_mod q 2 ltac:(lia)). pose proof (Z.mod_pos_bound q 2 ltac:(lia)). lia. }
    set (F := 10 ^ Z.of_nat d / B) in *. destruct (Z.leb_spec F n); cbn [b2z] in *; nia.
  - rewrite convert_eq by assumption. destruct (convert_step d b _ n HD HB Hn) as (F0 & R & _).
    pose proof (share d b (S r) ltac:(lia)) as SH. cbv zeta in SH.
    assert (H2 : 10 ^ Z.of_nat d / 2 ^ (Z.of_nat b - Z.of_nat (S r) - 1) <= 2 * (10 ^ Z.of_nat d / 2 ^ (Z.of_nat b - Z.of_nat (S r))) + 1).
    { set (i := Z.of_nat b - Z.of_nat (S r)) in *. assert (E : 2 ^ i = 2 ^ (i - 1) * 2) by (replace i with (i - 1 + 1) at 1 by lia; rewrite Z.pow_add_r by lia; reflexivity).
      rewrite E, <- Z.div_div by (try lia; apply Z.pow_nonzero; lia). set (q := _ / 2 ^ _). pose proof (Z.div_mod q 2 ltac:(lia)). pose proof (Z.mod_pos_bound q 2 ltac:(lia)). lia. }
    set (F := 10 ^ Z.of_nat d / 2 ^ (Z.of_nat b - Z.of_nat (S r))) in *.
    assert (Ei : Z.of_nat b - Z.of_nat r - 1 = Z.of_nat b - Z.of_nat (S r)) by lia.
    assert (H3 : n - b2z (F <=? n) * F <= 10 ^ Z.of_nat d / 2 ^ (Z.of_nat b - Z.of_nat r - 1) - 1 + (c + 1)).
    { rewrite Ei. fold F. destruct (Z.leb_spec F n); cbn [b2z]; lia. }
    specialize (IH _ (c + 1) HD ltac:(lia) R ltac:(lia) H3). set (r' := fraction_convert d b r _) in *. set (B := 2 ^ Z.of_nat b) in *.
    replace (c + Z.of_nat (S r)) with (c + 1 + Z.of_nat r) by lia. pose proof (b2z_range (F <=? n)).
    replace (10 ^ Z.of_nat d / B + c + Z.of_nat (S r)) with (10 ^ Z.of_nat d / B + (c + 1) + Z.of_nat r) by lia.
    set (dec := b2z (F <=? n)) in *. assert (dec = 0 \/ dec = 1) as [-> | ->] by lia; lia.
Qed.

Lemma convert_mono : forall d b rem m n, 10 ^ Z.of_nat d < 2 ^ 32 -> (rem < b <= 31)%nat -> 0 <= m <= n -> n < 2 ^ 32 ->
  fraction_convert d b rem m <= fraction_convert d b rem n.
Proof.
  intros d b. induction rem as [|r IH]; intros m n HD HB Hm Hn.
  - destruct (convert_step d b _ m HD HB ltac:(lia)) as (F0 & R & ->). destruct (convert_step d b _ n HD HB ltac:(lia)) as (_ & R' & ->).
    set (F := _ / _) in *. destruct (Z.leb_spec F m), (Z.leb_spec F n); cbn [b2z]; lia.
  - rewrite !convert_eq by lia. destruct (convert_step d b _ m HD HB ltac:(lia)) as (F0 & R & _). destruct (convert_step d b _ n HD HB ltac:(lia)) as (_ & R' & _).
    set (F := _ / _) in *. destruct (Z.leb_spec F m), (Z.leb_spec F n); cbn [b2z] in *; try lia.
    + apply Z.add_le_mono_l. apply IH; try assumption; lia.
    + pose proof (convert_range d b r _ HD ltac:(lia) R) as C. pose proof (convert_range d b r _ HD ltac:(lia) R') as C'.
      replace (Z.of_nat r + 1) with (Z.of_nat (S r)) in C by lia. lia.
    + apply Z.add_le_mono_l. apply IH; try assumption; lia.
Qed.

(** C25 for any precision that fits: [d] decimal digits with 10^d below 2^32 and [b] binary
    digits, 1 to 31.  The numerator found has at most [b] bits; against the exact quotient
    n * 2^b / 10^d it is at most b * 2^b / 10^d above and 1 + (b - 1) * 2^b / 10^d below
    (both sides multiplied by 10^d here, to stay in the integers). *)
Theorem C25_any_precision : forall d b n, 10 ^ Z.of_nat d < 2 ^ 32 -> (1 <= b <= 31)%nat -> 0 <= n < 10 ^ Z.of_nat d ->
  let r := convert_numerator d b n in
  0 <= r < 2 ^ Z.of_nat b /\
  - (10 ^ Z.of_nat d + (Z.of_nat b - 1) * 2 ^ Z.of_nat b) <= r * 10 ^ Z.of_nat d - n * 2 ^ Z.of_nat b <= Z.of_nat b * 2 ^ Z.of_nat b.
Proof.
  intros d b n HD HB Hn r. unfold convert_numerator in r. pose proof (convert_range d b (b - 1) n HD ltac:(lia) ltac:(lia)) as C.
  pose proof (convert_upper d b (b - 1) n HD ltac:(lia) ltac:(lia)) as U.
  pose proof (convert_lower d b (b - 1) n 0 HD ltac:(lia) ltac:(lia) ltac:(lia)) as L. fold r in C, U, L.
  replace (Z.of_nat (b - 1) + 1) with (Z.of_nat b) in C, U by lia. split; [exact C|].
  replace (Z.of_nat b - Z.of_nat (b - 1) - 1) with 0 in L by lia. change (2 ^ 0) with 1 in L. rewrite Z.div_1_r in L. specialize (L ltac:(lia)).
  set (B := 2 ^ Z.of_nat b) in *. assert (0 < B) by (apply Z.pow_pos_nonneg; lia).
  pose proof (Z.mul_div_le (10 ^ Z.of_nat d) B ltac:(lia)) as Q. replace (Z.of_nat (b - 1)) with (Z.of_nat b - 1) in L by lia. split; [|exact U].
  set (q := 10 ^ Z.of_nat d / B) in *. lia.
Qed.

(** and it never decreases when the decimal numerator grows *)
Theorem C25_any_monotone : forall d b m n, 10 ^ Z.of_nat d < 2 ^ 32 -> (1 <= b <= 31)%nat -> 0 <= m <= n -> n < 2 ^ 32 ->
  convert_numerator d b m <= convert_numerator d b n.
Proof. intros d b m n HD HB Hm Hn. unfold convert_numerator. apply convert_mono; try assumption; lia. Qed.

(** two thirds, with nine decimal and twenty binary digits *)
Example C25_any_meets : 10 ^ Z.of_nat 9 < 2 ^ 32 /\ (1 <= 20 <= 31)%nat /\ 0 <= 666666666 < 10 ^ Z.of_nat 9 /\
  convert_numerator 9 20 666666666 = 699050.
Proof. repeat split; try (vm_compute; congruence); lia. Qed.
