(** What a status tells about the number in the text. *)
From Coq Require Import Reals Lra Lia ZArith Bool List String Ascii.
From Flocq Require Import Core.
From Verif Require Import Machine MachineFacts BitOps StaticPow Fraction Format DiyFp KComp Krosh Atof Spec ParseSpec ParseApi Instances
  DiyFacts BoundFacts TableFacts GrisuFacts FtoaFacts RoundFacts DownFacts DvalFacts CmpFacts ArithProps ScanFacts LoopFacts ParseFacts GapFacts
  KroshNum ShortFacts FracFacts LongFacts RangeFacts ScaledFacts ParseProps RangeProps.
From Verif Require Import TextSpec ReadSpec MeanSpec Refuted LocalProps Defined Ends Reading Meaning.
Open Scope Z_scope.

(** C83: for every readable non-zero number text atof has one of these outcomes; a reported
    underflow or overflow is true of the number, up to the relative accuracy of the type. *)
Theorem C83_status : forall t n c rest want fb errno, well_formed n -> ends_number c -> within_limits n -> readable_exponent n ->
  coefficient n <> 0 ->
  let s := written n ++ c :: rest in
  let x := Rabs (value n) in
  let u := bpow radix2 (- precision t) in
  let least := bpow radix2 (min_exp t) in
  let far := bpow radix2 (max_exp t + width t - 1) in
  (exists v st, atof (fmt_of t) s want fb errno = Ok (answer want errno v st (len (written n))) /\
     match st with
     | underflow => zero t v /\ (x < least * (1 + u) \/ t = Float /\ x < pow10 (-42))
     | overflow => infinite t v /\ far * (1 - u) < x
     | success => least * (1 - u) < x < far * (1 + u)
     end%R) \/
  atof (fmt_of t) s want fb errno = fallback_answer t s want fb errno /\ (least * (1 - u) < x < far * (1 + u))%R.
Proof.
  intros t n c rest want fb errno W Hc L SE CN s x u least far. pose proof (width_facts t) as Ww.
  unfold x. rewrite value_abs by assumption. clear x.
  assert (Pm : (0 < least)%R) by apply bpow_gt_0. assert (Pf : (0 < far)%R) by apply bpow_gt_0.
  assert (Pu : (0 < u)%R) by apply bpow_gt_0.
  assert (Pu1 : (u <= / 4)%R) by (apply (bpow_le radix2 _ (-2)); lia).
  destruct (point_moved_exists t n W L CN) as (d & K & PM). pose proof (pow10_le_moved t n d K PM) as [PA PB].
  destruct (Z.lt_ge_cases K (- largest_power t)) as [G1|G1].
  { left. exists (zero_of t false), underflow. split; [now apply C34_below_tables with d K|]. split; [apply zero_signed|].
    destruct t.
    - right. split; [reflexivity|]. apply Rlt_le_trans with (1 := PB). apply bpow_le. cbn [largest_power exact_digits] in *. lia.
    - left. assert (pow10 (K + exact_digits Double) <= pow10 (-325))%R by (apply bpow_le; cbn [largest_power exact_digits] in *; lia).
      assert (1 * pow10 (-325) < 1 * bpow radix2 (-1074))%R by (apply dec_lt_bin; vm_compute; reflexivity).
      assert (E0 : least = bpow radix2 (-1074)) by reflexivity. rewrite !Rmult_1_l, <- E0 in *.
      assert (least <= least * (1 + u))%R by nra. lra. }
  destruct (Z.lt_ge_cases (largest_power t) K) as [G2|G2].
  { left. exists (infinity_of t false), overflow. split; [now apply C34_above_tables with d K|]. split; [apply infinite_signed|].
    assert (X : (far < pow10 (largest_power t + 1))%R).
    { unfold far. rewrite <- (Rmult_1_l (bpow radix2 _)), <- (Rmult_1_l (pow10 _)). apply bin_lt_dec. destruct t; vm_compute; reflexivity. }
    assert (pow10 (largest_power t + 1) <= pow10 K)%R by (apply bpow_le; lia). nra. }
  destruct (krosh_scaled t n c rest d K W Hc L SE PM) as (_ & _ & A). destruct A as (q & y & A1 & A2 & A3 & A4); [lia|].
  pose proof (pow2_pos (width t - 2) ltac:(lia)).
  destruct (scaled_relative t q y (abs_value n) ltac:(lia) A4) as ([B1 B2] & B3). fold u in B1, B2.
  destruct (finish_norm t (is_minus (n_sign n)) (zlen (written n)) q y ltac:(lia) A3) as (f & e & F1 & F2 & F3).
  rewrite <- F2 in B1, B2, B3. set (z := (IZR f * bpow radix2 e)%R) in *. fold s in A1.
  destruct (Rlt_or_le z least) as [Z1|Z1].
  { rewrite (downsample_small t f e F1 Z1) in F3. cbn [bind ds_value ds_status ds_is_accurate] in F3. rewrite F3, apply_sign_zero in A1.
    left. eexists _, underflow. split; [exact (atof_fast _ _ _ _ _ _ _ _ A1 (written_nonempty n W))|]. split; [apply zero_signed|].
    left. nra. }
  destruct (Rlt_or_le z far) as [Z2|Z2].
  2:{ rewrite (downsample_huge t f e F1 Z2) in F3. cbn [bind ds_value ds_status ds_is_accurate] in F3. rewrite F3, apply_sign_inf in A1.
    left. eexists _, overflow. split; [exact (atof_fast _ _ _ _ _ _ _ _ A1 (written_nonempty n W))|]. split; [apply infinite_signed|]. nra. }
  destruct (downsample_band t f e F1 (conj Z1 Z2)) as (v & acc & D). rewrite D in F3. cbn [bind ds_value ds_status ds_is_accurate] in F3.
  rewrite F3 in A1. assert (least * (1 - u) < abs_value n < far * (1 + u))%R by (split; nra).
  destruct acc.
  - left. eexists _, success. split; [exact (atof_fast _ _ _ _ _ _ _ _ A1 (written_nonempty n W))|assumption].
  - right. split; [exact (atof_slow _ _ _ _ _ _ _ _ A1 (written_nonempty n W))|assumption].
Qed.

Lemma number_readable : forall t a m, meaning_of t a = Number m -> readable_exponent m.
Proof.
  intros t a m H. unfold meaning_of in H. destruct (split_bare a) as [n b] eqn:E. destruct (split_bare_ok a n b E) as (X & _ & _).
  assert (PN : n = m -> readable_exponent m).
  { intros ->. apply small_readable. unfold small_exponent, exponent_value. rewrite (proj1 X). reflexivity. }
  destruct (no_digits n && negb (snd (word_at b) =? 0)); [discriminate|].
  destruct b as [|mk r]; [injection H as H; auto|].
  destruct ((lower mk =? code "e") && negb (coefficient n =? 0) && (List.length (mantissa_text n) <=? parser_limit)%nat) eqn:B; [|injection H as H; auto].
  apply andb_true_iff in B as [B B3]. apply andb_true_iff in B as [B1 B2]. apply negb_true_iff, Z.eqb_neq in B2. apply Nat.leb_le in B3.
  destruct (applied t n r) as [E0|]; [|discriminate]. injection H as <-. apply small_readable.
  destruct (with_exponent_ok n E0 X B2 B3) as (_ & SM & _). exact SM.
Qed.

(** The same for whatever number a text means. *)
Theorem C83_any_text : forall t a m rest want fb errno, meaning_of t a = Number m -> (List.length (mantissa_text m) <= parser_limit)%nat ->
  coefficient m <> 0 ->
  let s := a ++ 0 :: rest in
  let x := Rabs (value m) in
  let u := bpow radix2 (- precision t) in
  let least := bpow radix2 (min_exp t) in
  let far := bpow radix2 (max_exp t + width t - 1) in
  (exists v st, atof (fmt_of t) s want fb errno = Ok (answer want errno v st (text_length a)) /\
     match st with
     | underflow => zero t v /\ (x < least * (1 + u) \/ t = Float /\ x < pow10 (-42))
     | overflow => infinite t v /\ far * (1 - u) < x
     | success => least * (1 - u) < x < far * (1 + u)
     end%R) \/
  atof (fmt_of t) s want fb errno = fallback_answer t s want fb errno /\ (least * (1 - u) < x < far * (1 + u))%R.
Proof.
  intros t a m rest want fb errno HM L CN s x u least far.
  assert (V0 : value m <> 0%R).
  { intros V. unfold value in V.
    assert (P : (0 < abs_value m \/ abs_value m < 0)%R).
    { unfold abs_value. pose proof (bpow_gt_0 radix10 (scale m)). destruct (Z.lt_trichotomy (coefficient m) 0) as [N|[N|N]]; [|lia|].
      - right. apply IZR_lt in N. nra.
      - left. apply IZR_lt in N. nra. }
    destruct (is_minus _); lra. }
  destruct (number_ok t a m HM V0 L) as [W WL].
  pose proof (C79_meaning t a rest) as G. rewrite HM in G. destruct G as [(v & st & G)|G].
  - left. destruct (G [] want fb errno) as [G1 _]. destruct (G [] true (fun _ _ => Fault OutOfFuel) 0) as [_ G2].
    destruct (C83_status t m 0 [] true (fun _ _ => Fault OutOfFuel) 0 W ends_zero WL (number_readable t a m HM) CN) as [(v' & st' & C1 & C2)|[C1 _]].
    + rewrite G2 in C1. injection C1 as -> -> _. exists v', st'. auto.
    + rewrite G2 in C1. discriminate C1.
  - right. split; [exact (proj1 (G [] want fb errno))|]. pose proof (proj2 (G [] true (fun _ _ => Fault OutOfFuel) 0)) as G2.
    destruct (C83_status t m 0 [] true (fun _ _ => Fault OutOfFuel) 0 W ends_zero WL (number_readable t a m HM) CN) as [(v' & st' & C1 & C2)|[_ C2]].
    + cbv zeta in G2. rewrite G2 in C1. discriminate C1.
    + exact C2.
Qed.
