(** C119: a fallback that returns a wider type (std::strtold, say, for atof<double>): atof.h:110 converts what it returns. *)
From Coq Require Import Reals Lra Lia ZArith List String Ascii.
From Flocq Require Import Core.
From Verif Require Import Machine MachineFacts BitOps StaticPow Fraction Format DiyFp KComp Chars Krosh Atof Spec ParseSpec Api ParseApi Instances
  DiyFacts BoundFacts TableFacts GrisuFacts ShownFacts RoundFacts ArithProps WrittenFacts PrintProps DvalFacts CmpFacts GapFacts KroshNum ShortFacts ParseProps GoodFallback RoundTrip CrossType Narrow.
Import ListNotations.
Open Scope Z_scope.

(** A binary floating-point type: the exponent of its smallest denormal, and its precision in bits.  (-16445, 64) is the long double of
    x86, (-16494, 113) that of 64-bit ARM on Linux, (-1074, 53) is double. *)
Record binary_type := { b_min_exp : Z; b_precision : Z }.
Definition rnd_in (w : binary_type) (x : R) : R := round radix2 (FLT_exp (b_min_exp w) (b_precision w)) ZnearestE x.
(** it has at least one bit more than [t], and the smallest number of [t] is a normal number of it *)
Definition wider (w : binary_type) (t : ftype) : Prop := precision t < b_precision w /\ b_min_exp w + b_precision w - 1 <= min_exp t.

(** What such a function returns: a number with a sign, and the end it finds; its errno.  It is good if it rounds correctly; what it
    does beyond the range of [t] is left open.  (Numbers in the range of [t] are normal numbers of the wider type, so nothing is wrong
    with them and errno stays.) *)
Record wide_result := { w_number : R; w_negative : bool; w_end : Z; w_errno : Z }.
Definition wide_function := list Z -> Z -> res wide_result.
Definition good_wide (w : binary_type) (t : ftype) (g : wide_function) : Prop :=
  forall n c rest errno, well_formed n -> ends_number c -> in_range t (value n) ->
    g (written n ++ c :: rest) errno = Ok {| w_number := rnd_in w (value n); w_negative := is_minus (n_sign n); w_end := len (written n); w_errno := errno |}.
Definition sign_agrees (r : wide_result) : Prop := if w_negative r then (w_number r <= 0)%R else (0 <= w_number r)%R.
(** atof.h:110: [g] where a number of type [t] is wanted; the conversion rounds correctly (infinity beyond the largest number: IEEE 754;
    C++ leaves this case undefined) *)
Definition converted (t : ftype) (g : wide_function) (fb : fallback) : Prop := forall s errno,
  match g s errno with
  | Ok r => exists u, (sign_agrees r -> correctly_rounded t (w_negative r) (w_number r) u) /\ fb s errno = Ok {| fb_value := u; fb_str_end := w_end r; fb_errno := w_errno r |}
  | Fault x => fb s errno = Fault x
  end.

Section Twice.
Variable w : binary_type.
Variable t : ftype.
Hypothesis H : wider w t.

Lemma w_valid : Valid_exp (FLT_exp (b_min_exp w) (b_precision w)).
Proof. apply FLT_exp_valid. unfold Prec_gt_0. destruct H as [H1 _]. pose proof (width_facts t). lia. Qed.
Lemma w_mono : forall x y, (x <= y)%R -> (rnd_in w x <= rnd_in w y)%R.
Proof. intros x y L. unfold rnd_in. pose proof w_valid. apply round_le; [exact w_valid|apply valid_rnd_N|exact L]. Qed.
Lemma w_opp : forall x, rnd_in w (- x) = (- rnd_in w x)%R.
Proof. intros x. unfold rnd_in. apply round_NE_opp. Qed.
Lemma w_0 : rnd_in w 0 = 0%R.
Proof. unfold rnd_in. apply round_0, valid_rnd_N. Qed.
Lemma w_nonneg : forall x, (0 <= x)%R -> (0 <= rnd_in w x)%R.
Proof. intros x L. rewrite <- w_0. now apply w_mono. Qed.

(** the points half way between numbers of [t] are numbers of the wider type, and so are the numbers of [t] *)
Lemma w_format : forall m e, 0 <= m <= 2 ^ precision t * 2 -> min_exp t - 1 <= e -> rnd_in w (IZR m * bpow radix2 e) = (IZR m * bpow radix2 e)%R.
Proof.
  intros m e M E. destruct H as [H1 H2]. pose proof (width_facts t) as W. unfold rnd_in. apply round_generic; [apply valid_rnd_N|].
  assert (P : 2 ^ precision t * 2 <= 2 ^ b_precision w) by (replace (2 ^ precision t * 2) with (2 ^ (precision t + 1)) by (rewrite Z.pow_add_r by lia; reflexivity); apply Z.pow_le_mono_r; lia).
  destruct (Z.eq_dec m (2 ^ b_precision w)) as [Q|Q].
  - subst m. change (2 ^ b_precision w) with (radix2 ^ b_precision w). rewrite <- (bpow_IZR radix2 (b_precision w)) by lia. rewrite <- bpow_plus.
    apply generic_format_bpow. unfold FLT_exp. lia.
  - apply generic_format_FLT. exists (Defs.Float radix2 m e); [reflexivity| |cbn [Fexp]; lia]. cbn [Fnum]. rewrite Z.abs_eq by lia. change (Zpower radix2 (b_precision w)) with (2 ^ b_precision w). lia.
Qed.
Lemma w_midpoint : forall v, rnd_in w (midpoint_above t v) = midpoint_above t v.
Proof.
  intros v. pose proof (significand_range t v) as S. pose proof (exponent_ge t v) as G.
  assert (E : midpoint_above t v = (IZR (2 * significand t v + 1) * bpow radix2 (exponent t v - 1))%R).
  { unfold midpoint_above, magnitude, ulp_of. rewrite plus_IZR, mult_IZR. replace (exponent t v) with (1 + (exponent t v - 1)) at 1 2 by lia. rewrite bpow_plus. change (bpow radix2 1) with 2%R. field. }
  rewrite E. apply w_format; lia.
Qed.
Lemma w_next : forall v, rnd_in w (magnitude t v + ulp_of t v) = (magnitude t v + ulp_of t v)%R.
Proof.
  intros v. pose proof (significand_range t v) as S. pose proof (exponent_ge t v) as G.
  assert (E : (magnitude t v + ulp_of t v = IZR (significand t v + 1) * bpow radix2 (exponent t v))%R) by (unfold magnitude, ulp_of; rewrite plus_IZR; ring).
  rewrite E. apply w_format; lia.
Qed.
Lemma t_next : forall v, rnd t (magnitude t v + ulp_of t v) = (magnitude t v + ulp_of t v)%R.
Proof.
  intros v. rewrite <- succ_any. unfold rnd. apply round_generic; [apply valid_rnd_N|]. apply generic_format_succ; [apply fexp_valid|apply format_mag].
Qed.
Lemma t_up : forall v a, (magnitude t v < rnd t a)%R -> (a <= magnitude t v + ulp_of t v)%R -> rnd t a = (magnitude t v + ulp_of t v)%R.
Proof.
  intros v a L U. apply Rle_antisym; [rewrite <- t_next; now apply rnd_mono|]. rewrite <- succ_any.
  apply succ_le_lt; [apply fexp_valid|apply format_mag|apply format_rnd|exact L].
Qed.

Definition split_in (v : Z) (y p q : R) : Prop :=
  y = midpoint_above t v /\ (p = magnitude t v /\ q = (magnitude t v + ulp_of t v)%R \/ q = magnitude t v /\ p = (magnitude t v + ulp_of t v)%R).
Lemma w_twice : forall a, (0 <= a)%R -> (rnd t a < bpow radix2 (max_exp t))%R ->
  rnd t (rnd_in w a) = rnd t a \/ exists v, finite t v /\ split_in v (rnd_in w a) (rnd t (rnd_in w a)) (rnd t a).
Proof.
  intros a A M. assert (Y : (0 <= rnd_in w a)%R) by now apply w_nonneg.
  assert (U : forall v, (midpoint_above t v < magnitude t v + ulp_of t v)%R).
  { intros v. unfold midpoint_above, ulp_of. pose proof (bpow_gt_0 radix2 (exponent t v)). lra. }
  destruct (Rtotal_order (rnd t (rnd_in w a)) (rnd t a)) as [L|[E|L]]; [right| now left |right].
  - assert (C : (rnd_in w a <= a)%R) by (apply Rnot_lt_le; intros C; apply Rlt_le, (rnd_mono t) in C; lra).
    destruct (rnd_gap t (rnd_in w a) a (conj Y C) L) as (v & V1 & V4 & V2 & V3); [lra|].
    assert (E : rnd_in w a = midpoint_above t v) by (apply Rle_antisym; [exact V2|rewrite <- w_midpoint; now apply w_mono]).
    exists v. split; [exact V1|]. split; [exact E|]. left. split; [now symmetry|]. apply t_up; [rewrite V4; exact L|].
    apply Rnot_lt_le. intros C1. apply Rlt_le, w_mono in C1. rewrite w_next, E in C1. specialize (U v). lra.
  - assert (C : (a <= rnd_in w a)%R) by (apply Rnot_lt_le; intros C; apply Rlt_le, (rnd_mono t) in C; lra).
    destruct (rnd_gap t a (rnd_in w a) (conj A C) L) as (v & V1 & V4 & V2 & V3); [lra|].
    assert (E : rnd_in w a = midpoint_above t v) by (apply Rle_antisym; [rewrite <- w_midpoint; now apply w_mono|exact V3]).
    exists v. split; [exact V1|]. split; [exact E|]. right. split; [now symmetry|]. apply t_up; [rewrite V4; exact L|]. rewrite E. specialize (U v). lra.
Qed.
Lemma w_twice_signed : forall x, (Rabs (rnd t x) < bpow radix2 (max_exp t))%R ->
  rnd t (rnd_in w x) = rnd t x \/
  exists v, finite t v /\ split_in v (Rabs (rnd_in w x)) (Rabs (rnd t (rnd_in w x))) (Rabs (rnd t x)).
Proof.
  intros x M. destruct (Rle_or_lt 0 x) as [P|P].
  - pose proof (rnd_nonneg t x P). pose proof (w_nonneg x P) as Q. pose proof (rnd_nonneg t _ Q). rewrite Rabs_pos_eq in M by assumption.
    destruct (w_twice x P M) as [E|(v & V & E)]; [now left|right]. exists v. split; [exact V|]. rewrite !Rabs_pos_eq by assumption. exact E.
  - assert (P' : (0 <= - x)%R) by lra. pose proof (rnd_nonneg t (- x) P') as Q. pose proof (w_nonneg (- x) P') as Q2. pose proof (rnd_nonneg t _ Q2) as Q3.
    rewrite <- (Ropp_involutive x) in M |- *. set (a := (- x)%R) in *. clearbody a.
    rewrite rnd_opp, Rabs_Ropp, Rabs_pos_eq in M by assumption. rewrite !w_opp, !rnd_opp.
    destruct (w_twice a P' M) as [E|(v & V & E)]; [left; now rewrite E|right]. exists v. split; [exact V|]. rewrite !Rabs_Ropp, !Rabs_pos_eq by assumption. exact E.
Qed.
End Twice.

Lemma agrees : forall w t, wider w t -> forall n errno, well_formed n ->
  sign_agrees {| w_number := rnd_in w (value n); w_negative := is_minus (n_sign n); w_end := len (written n); w_errno := errno |}.
Proof.
  intros w t H n errno W. unfold sign_agrees. cbn [w_negative w_number]. pose proof (abs_value_nonneg n W) as A. apply (w_nonneg w t H) in A.
  unfold value. destruct (is_minus (n_sign n)); [rewrite w_opp; lra|exact A].
Qed.

(** C119: With a good fallback of a wider type: as with one of the type itself; or the fallback's answer is half way between two
    neighbouring numbers of the type, and the wrong one of them may be returned. *)
Theorem C119_wider_fallback : forall t w n c rest want g fb errno, wider w t -> well_formed n -> ends_number c -> within_limits n ->
  short_decimal t n -> in_range t (value n) -> ~ carries t (value n) -> good_wide w t g -> converted t g fb -> errno <> ERANGE ->
  exists v slow, atof (fmt_of t) (written n ++ c :: rest) want fb errno =
      Ok {| at_value := v; at_status := success; at_str_end := if want then Some (len (written n)) else None; at_errno := errno; at_used_fallback := slow |} /\
    (correctly_rounded t (is_minus (n_sign n)) (value n) v \/
     slow = true /\ correctly_rounded t (is_minus (n_sign n)) (rnd_in w (value n)) v /\
     exists f, finite t f /\ Rabs (rnd_in w (value n)) = midpoint_above t f /\
       (Rabs (rnd t (rnd_in w (value n))) = magnitude t f /\ Rabs (rnd t (value n)) = (magnitude t f + ulp_of t f)%R \/
        Rabs (rnd t (value n)) = magnitude t f /\ Rabs (rnd t (rnd_in w (value n))) = (magnitude t f + ulp_of t f)%R)).
Proof.
  intros t w n c rest want g fb errno WD W Hc L S R NC G A NE.
  destruct (C29_correct_or_deferred t n c rest want fb errno W Hc L S R NC) as [(v & E & V)|E]; rewrite E.
  { exists v, false. split; [reflexivity|]. left. exact V. }
  specialize (A (written n ++ c :: rest) errno). rewrite (G n c rest errno W Hc R) in A. destruct A as (u & U1 & U2). cbn [w_number w_negative w_end w_errno] in *.
  specialize (U1 (agrees w t WD n errno W)).
  exists u, true. split.
  { unfold fallback_answer. rewrite U2. cbn [fb_value fb_str_end fb_errno]. unfold check_errno. destruct (Z.eqb_spec errno ERANGE); [contradiction|reflexivity]. }
  destruct R as [_ R]. destruct (w_twice_signed w t WD (value n) R) as [Q|(f & F & Q1 & Q2)].
  - left. unfold correctly_rounded in *. now rewrite <- Q.
  - right. split; [reflexivity|]. split; [exact U1|]. exists f. tauto.
Qed.
