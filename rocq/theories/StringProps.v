(** from_string, and to_string followed by from_string: C67. *)
From Coq Require Import Reals Lra Lia ZArith List String Ascii.
From Flocq Require Import Core.
From Verif Require Import Machine MachineFacts BitOps StaticPow Fraction Format DiyFp KComp Krosh Atof Ftoa Print Spec ParseSpec ParseApi Api Instances
  DiyFacts BoundFacts TableFacts GrisuFacts FtoaFacts RoundFacts DownFacts DvalFacts CmpFacts ArithProps ScanFacts LoopFacts ParseFacts GapFacts KroshNum ShortFacts FracFacts LongFacts RangeFacts ScaledFacts ParseProps RangeProps
  PrintProps PrintProps2 PrintProps3 RoundTrip PowerTrip Tokens LocalFacts LocalProps.
Import ListNotations.
Open Scope Z_scope.

(** a fallback that, like strtod, does not look behind the terminating NUL *)
Definition stops_at_nul (fb : fallback) : Prop :=
  forall a b b' errno, fb (a ++ 0 :: b) errno = fb (a ++ 0 :: b') errno.

(** What is behind a NUL does not matter: for a C string in a larger buffer, and for a
    std::string with a NUL inside. *)
Theorem C67_stops_at_nul : forall t a b b' want fb errno, stops_at_nul fb ->
  atof (fmt_of t) (a ++ 0 :: b) want fb errno = atof (fmt_of t) (a ++ 0 :: b') want fb errno.
Proof.
  intros t a b b' want fb errno S. destruct (C27_terminator t a) as [(f & _ & _ & H)|[(v & st & e & _ & H)|H]]; rewrite !H; [reflexivity|reflexivity|].
  unfold fallback_answer. now rewrite (S a b b').
Qed.

Theorem C67_from_string : forall t a b fb errno, stops_at_nul fb ->
  from_string (fmt_of t) (a ++ 0 :: b) fb errno = from_string (fmt_of t) a fb errno /\
  from_string (fmt_of t) a fb errno = atof (fmt_of t) (a ++ 0 :: b) false fb errno.
Proof.
  intros t a b fb errno S. unfold from_string. rewrite <- app_assoc. cbn [app].
  split; now apply C67_stops_at_nul.
Qed.

(** without the fallback, whatever that is *)
Theorem C67_from_string_sure : forall t a b fb errno r, from_string (fmt_of t) a fb errno = Ok r -> at_used_fallback r = false ->
  forall fb', from_string (fmt_of t) (a ++ 0 :: b) fb' errno = Ok r.
Proof.
  intros t a b fb errno r E U fb'. unfold from_string in *. rewrite <- app_assoc. cbn [app].
  destruct (C27_terminator t a) as [(f & _ & _ & H)|[(v & st & e & _ & H)|H]]; rewrite H in E |- *; [discriminate E|exact E|].
  unfold fallback_answer in E. destruct (fb _ _); [|discriminate E]. injection E as <-. discriminate U.
Qed.

Lemma prints_unique : forall t v s s', prints t v s -> prints t v s' -> s = s'.
Proof.
  intros t v s s' P P'. set (buf := repeat 0 (Z.to_nat (max_buffer_size (fmt_of t)))).
  assert (B : max_buffer_size (fmt_of t) <= Z.of_nat (length buf)) by (unfold buf; rewrite repeat_length; lia).
  pose proof (P buf B) as E. rewrite (P' buf B) in E. injection E as E1 E2. apply Nat2Z.inj in E2.
  apply (f_equal (firstn (length s))) in E1. rewrite <- E2 in E1 at 1. rewrite !firstn_app, !Nat.sub_diag, !firstn_all in E1.
  cbn in E1. now rewrite !app_nil_r in E1.
Qed.

(** The full circle through strings, for every value of the type. *)
Theorem C67_string_circle : forall t v fb errno, pattern t v -> good_fallback t fb ->
  exists s r, to_basic_string (fmt_of t) v = Ok s /\ from_string (fmt_of t) s fb errno = Ok r /\
    (nan t v -> nan t (at_value r)) /\
    (infinite t v -> at_value r = v) /\
    (zero t v -> at_value r = zero_of t false) /\
    (nonzero t v -> ~ normal_power t v -> at_value r = v) /\
    (nonzero t v -> at_value r = v \/ finite t (at_value r) /\
       exists k, min_exp t + precision t - 1 <= k /\ Rabs (real_of t v) = bpow radix2 k /\
         Rabs (real_of t (at_value r)) = (if k =? min_exp t + precision t - 1 then 0 else bpow radix2 (k - 1))%R) /\
    (at_used_fallback r = false -> at_status r = success /\ at_errno r = errno).
Proof.
  intros t v fb errno Hp G. destruct (C15_to_string t v Hp) as (s & P & T). exists s.
  destruct (C05_special_values t v Hp) as (S1 & S2 & S3 & S4 & S5).
  assert (Z0 : ends_number 0) by (repeat split; vm_compute; intuition congruence).
  unfold from_string.
  assert (D : nan t v \/ infinite t v \/ zero t v \/ nonzero t v).
  { unfold nan, infinite, zero, nonzero, finite, zero. 
    destruct (Z.eq_dec (exp_field t v) (all_ones t)), (Z.eq_dec (frac_field t v) 0), (Z.eq_dec (exp_field t v) 0); intuition congruence. }
  assert (X1 : nan t v -> ~ infinite t v /\ ~ zero t v /\ ~ nonzero t v).
  { unfold nan, infinite, zero, nonzero, finite, zero. intuition congruence. }
  assert (AZ : all_ones t <> 0) by (destruct t; vm_compute; congruence).
  assert (X2 : infinite t v -> ~ zero t v /\ ~ nonzero t v).
  { unfold infinite, zero, nonzero, finite, zero. intuition congruence. }
  assert (X3 : zero t v -> ~ nonzero t v) by (unfold nonzero; intuition).
  assert (IV : infinite t v -> v = infinity_of t false \/ v = infinity_of t true).
  { intros (_ & I2 & I3). revert Hp I2 I3. unfold pattern, exp_field, frac_field. intros Hp I2 I3.
    pose proof (width_facts t) as W. pose proof (pow2_pos (precision t - 1) ltac:(lia)) as PP.
    pose proof (Z.div_mod v (2 ^ (precision t - 1)) ltac:(lia)) as D1. set (q := v / 2 ^ (precision t - 1)) in *.
    pose proof (pow2_pos (width t - precision t) ltac:(lia)) as PQ.
    pose proof (Z.div_mod q (2 ^ (width t - precision t)) ltac:(lia)) as D2. set (g := q / 2 ^ (width t - precision t)) in *.
    rewrite I2 in D2. rewrite I3 in D1.
    assert (E2 : 2 ^ width t = 2 * (2 ^ (width t - precision t) * 2 ^ (precision t - 1))) by (destruct t; reflexivity).
    assert (E1 : 2 ^ (width t - 1) = 2 ^ (width t - precision t) * 2 ^ (precision t - 1)) by (destruct t; reflexivity).
    assert (A1 : 0 <= all_ones t < 2 ^ (width t - precision t)) by (unfold all_ones; lia).
    set (A := 2 ^ (width t - precision t)) in *. set (B := 2 ^ (precision t - 1)) in *.
    assert (G0 : 0 <= g < 2).
    { assert (q < 2 * A) by nia. assert (0 <= q) by nia. split; nia. }
    unfold infinity_of, zero_of. rewrite E1. fold A B. destruct (Z.eq_dec g 0) as [->|]; [left|right; replace g with 1 in * by lia]; nia. }
  assert (ZV : zero t v -> v = zero_of t false \/ v = zero_of t true).
  { intros (_ & I2 & I3). revert Hp I2 I3. unfold pattern, exp_field, frac_field. intros Hp I2 I3.
    pose proof (width_facts t) as W. pose proof (pow2_pos (precision t - 1) ltac:(lia)) as PP.
    pose proof (Z.div_mod v (2 ^ (precision t - 1)) ltac:(lia)) as D1. set (q := v / 2 ^ (precision t - 1)) in *.
    pose proof (pow2_pos (width t - precision t) ltac:(lia)) as PQ.
    pose proof (Z.div_mod q (2 ^ (width t - precision t)) ltac:(lia)) as D2. set (g := q / 2 ^ (width t - precision t)) in *.
    rewrite I2 in D2. rewrite I3 in D1.
    assert (E2 : 2 ^ width t = 2 * (2 ^ (width t - precision t) * 2 ^ (precision t - 1))) by (destruct t; reflexivity).
    assert (E1 : 2 ^ (width t - 1) = 2 ^ (width t - precision t) * 2 ^ (precision t - 1)) by (destruct t; reflexivity).
    set (A := 2 ^ (width t - precision t)) in *. set (B := 2 ^ (precision t - 1)) in *.
    assert (G0 : 0 <= g < 2).
    { assert (q < 2 * A) by nia. assert (0 <= q) by nia. split; nia. }
    unfold zero_of. rewrite E1. fold A B. destruct (Z.eq_dec g 0) as [->|]; [left|right; replace g with 1 in * by lia]; nia. }
  destruct D as [D|[D|[D|D]]].
  - (* nan *)
    assert (s = text "nan") as -> by (apply prints_unique with t v; auto).
    eexists. split; [exact T|]. split.
    { change (text "nan" ++ [0])%list with (sign_text NoSign ++ text "nan" ++ 0 :: [])%list. apply C37_nan; [|vm_compute; congruence].
      repeat constructor; left; reflexivity. }
    cbn [at_value at_status at_used_fallback at_errno answer]. destruct (X1 D) as (N1 & N2 & N3).
    repeat split; try tauto; apply nan_of_nan.
  - destruct (X2 D) as (N2 & N3). assert (N1 : ~ nan t v) by tauto.
    destruct (IV D) as [E|E].
    + assert (s = text "inf") as -> by (apply prints_unique with t v; auto).
      eexists. split; [exact T|]. split.
      { change (text "inf" ++ [0])%list with (sign_text NoSign ++ text "inf" ++ [] ++ 0 :: [])%list. eapply C37_inf with (w1 := []).
        - repeat constructor; left; reflexivity.
        - reflexivity.
        - constructor.
        - vm_compute. intuition congruence. }
      cbn [at_value at_status at_used_fallback at_errno answer is_minus]. rewrite <- E. repeat split; tauto.
    + assert (s = text "-inf") as -> by (apply prints_unique with t v; auto).
      eexists. split; [exact T|]. split.
      { change (text "-inf" ++ [0])%list with (sign_text Minus ++ text "inf" ++ [] ++ 0 :: [])%list. eapply C37_inf with (w1 := []).
        - repeat constructor; left; reflexivity.
        - reflexivity.
        - constructor.
        - vm_compute. intuition congruence. }
      cbn [at_value at_status at_used_fallback at_errno answer is_minus]. rewrite <- E. repeat split; tauto.
  - specialize (X3 D). assert (N1 : ~ nan t v) by tauto. assert (N2 : ~ infinite t v) by tauto.
    assert (s = text "0") as -> by (destruct (ZV D); apply prints_unique with t v; auto).
    set (m := {| n_sign := NoSign; n_int := [0]; n_frac := None; n_exp := None |}).
    assert (Wm : well_formed m) by (repeat split; repeat constructor; cbn; try lia; congruence).
    eexists. split; [exact T|]. split.
    { change (text "0" ++ [0])%list with (written m ++ 0 :: [])%list. apply (C55_zero t m 0 [] false fb errno); auto.
      split; vm_compute; lia. }
    cbn [at_value at_status at_used_fallback at_errno answer]. repeat split; tauto.
  - assert (N0 : ~ zero t v) by tauto. assert (N1 : ~ nan t v) by tauto. assert (N2 : ~ infinite t v) by tauto.
    destruct (C04_grammar t v D) as (m & Pm & Wm & _).
    assert (s = written m) as -> by (apply prints_unique with t v; auto).
    assert (Cs : ~ normal_power t v \/ (Rabs (real_of t v) <= Rabs (value m))%R \/
                 (normal_power t v /\ (Rabs (value m) < Rabs (real_of t v))%R)).
    { destruct (Rlt_or_le (Rabs (value m)) (Rabs (real_of t v))) as [L|L]; [|auto].
      destruct (Classical_Prop.classic (normal_power t v)); auto. }
    assert (OK : ~ normal_power t v \/ (Rabs (real_of t v) <= Rabs (value m))%R ->
       exists r, atof (fmt_of t) (written m ++ [0]) false fb errno = Ok r /\ at_value r = v /\
         (at_used_fallback r = false -> at_status r = success /\ at_errno r = errno)).
    { intros C. destruct (C46_full_circle t v m 0 [] fb errno D Wm Pm Z0 C G) as (r & E & Ev & _).
      destruct (C46_full_circle_or_deferred t v m 0 [] false fb errno D Wm Pm Z0 C) as [E'|E'].
      - eexists. split; [exact E'|]. cbn. auto.
      - destruct (C46_full_circle_or_deferred t v m 0 [] true fb errno D Wm Pm Z0 C) as [E2|E2].
        + rewrite E2 in E. injection E as <-. exfalso. revert E2 E'. clear. unfold atof, fallback_answer, answer.
          destruct (krosh _ _) as [cr|]; cbn [bind]; [|discriminate]. destruct (negb _); [|intros _; destruct (fb _ _); discriminate].
          destruct (kr_is_accurate cr); [intros _; destruct (fb _ _); discriminate|]. destruct (fb _ _); cbn [bind]; discriminate.
        + rewrite E2 in E. unfold fallback_answer in *. destruct (fb (written m ++ [0]) errno) as [q|]; [|discriminate E].
          injection E as <-. cbn in Ev. eexists. split; [exact E'|]. cbn. split; [assumption|discriminate]. }
    destruct Cs as [C|[C|[C1 C2]]].
    + destruct (OK (or_introl C)) as (r & E & Ev & Ef). exists r. split; [exact T|]. split; [exact E|]. repeat split; tauto.
    + destruct (OK (or_intror C)) as (r & E & Ev & Ef). exists r. split; [exact T|]. split; [exact E|]. repeat split; tauto.
    + destruct (power_outcome t v m 0 [] false fb errno (proj1 D) C1 Wm Pm Z0 C2) as (w & E & P1 & P2).
      eexists. split; [exact T|]. split; [exact E|]. cbn [at_value at_status at_used_fallback at_errno answer].
      split; [tauto|]. split; [tauto|]. split; [tauto|]. split; [tauto|]. split; [|auto]. intros _.
      destruct (Rlt_or_le (Rabs (real_of t v) * (1 - bpow radix2 (2 - width t))) (Rabs (value m))) as [L|L]; [left; auto|right].
      destruct C1 as (k & K1 & K2).
      destruct (C46_power_lost t v m 0 [] false fb errno k (proj1 D) K1 K2 Wm Pm Z0 L) as (w' & E' & F & Rw).
      rewrite E in E'. injection E' as <-. split; [assumption|]. exists k. auto.
Qed.
