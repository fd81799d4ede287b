(** Exponent parts the parser cannot take: C40. *)
From Coq Require Import Reals Lra Lia ZArith List String Ascii.
From Flocq Require Import Core.
From Verif Require Import Machine MachineFacts BitOps StaticPow Fraction Format DiyFp KComp Krosh Atof Spec ParseSpec ParseApi Instances
  DiyFacts BoundFacts TableFacts GrisuFacts FtoaFacts RoundFacts DownFacts DvalFacts CmpFacts ArithProps ScanFacts LoopFacts ParseFacts GapFacts KroshNum ShortFacts FracFacts LongFacts ParseProps Refuted LocalFacts LocalProps.
Open Scope Z_scope.

(** the number written in the exponent part, without its sign *)
Definition unreadable (D : Z) : Prop := D <> 0 /\ (D mod 10000 = 0 \/ 10 ^ 12 <= D).

Lemma unreadable_scan : forall D P t R, unreadable D -> 0 <= t -> D = P * 10 ^ t + R -> 0 <= R < 10 ^ t -> 0 <= P < 10 ^ 9 ->
  (P = 0 -> t = 0) -> (P <> 0 -> R = 0 -> P mod 10 <> 0) -> 4 <= t.
Proof.
  intros D P t R (N & H) Ht E HR HP H0 Hm. destruct (Z.le_gt_cases 4 t) as [L|L]; [assumption|exfalso].
  assert (P0 : P <> 0).
  { intros P0. specialize (H0 P0). subst. rewrite Z.pow_0_r in *. lia. }
  specialize (Hm P0). destruct H as [M|B].
  - assert (DD : 0 = D mod 10 ^ t).
    { replace 10000 with (10 ^ (4 - t) * 10 ^ t) in M by (rewrite <- Z.pow_add_r by lia; replace (4 - t + t) with 4 by lia; reflexivity).
      pose proof (pow10_pos t Ht). pose proof (pow10_pos (4 - t) ltac:(lia)).
      apply Z.mod_divide in M; [|nia]. destruct M as (q & M). rewrite M, Z.mul_assoc. symmetry. apply Z.mod_mul. lia. }
    rewrite E, Z.add_comm, Z.mod_add, Z.mod_small in DD by lia. symmetry in DD. specialize (Hm DD). rewrite DD, Z.add_0_r in E.
    apply Hm. assert (C : t = 0 \/ t = 1 \/ t = 2 \/ t = 3) by lia. apply Z.mod_divide in M; [|lia]. destruct M as (q & M).
    rewrite M in E. destruct C as [-> |[-> |[-> | ->]]];
      [change (10 ^ 0) with 1 in E|change (10 ^ 1) with 10 in E|change (10 ^ 2) with 100 in E|change (10 ^ 3) with 1000 in E].
    + replace P with (q * 1000 * 10) by lia. apply Z.mod_mul. lia.
    + replace P with (q * 100 * 10) by lia. apply Z.mod_mul. lia.
    + replace P with (q * 10 * 10) by lia. apply Z.mod_mul. lia.
    + replace P with (q * 10) by lia. apply Z.mod_mul. lia.
  - assert (10 ^ t <= 10 ^ 3) by (apply Z.pow_le_mono_r; lia). change (10 ^ 3) with 1000 in *. change (10 ^ 9) with 1000000000 in *.
    change (10 ^ 12) with 1000000000000 in *.
    assert (P * 10 ^ t <= 999999999 * 1000) by (apply Z.mul_le_mono_nonneg; lia). lia.
Qed.

(** C40: an exponent that is a multiple of 10000 (zero excepted) or has more than twelve
    digits makes atof index beyond its table of powers of ten, whatever the number. *)
Theorem C40_refuted_unreadable : forall t n x c rest want fb errno, well_formed n -> ends_number c -> within_limits n ->
  coefficient n <> 0 -> n_exp n = Some x -> unreadable (dval (x_digits x)) ->
  atof (fmt_of t) (written n ++ c :: rest) want fb errno = Fault TableOverrun.
Proof.
  intros t n x c rest want fb errno W Hc [L1 L2] CN Hx HU. pose proof W as (W1 & W2 & W3 & W4).
  unfold atof. rewrite krosh_by_parts.
  destruct (first_after_mantissa n c rest Hc) as (c' & r' & E' & N' & D').
  set (s := written n ++ c :: rest).
  assert (Es : s = mant (n_sign n) (n_int n) (n_frac n) ++ c' :: r').
  { unfold s, written. now rewrite <- app_assoc, E', mant_text. }
  rewrite mant_text in L1.
  destruct (parse_digits_ok t s (n_sign n) (n_int n) (n_frac n) c' r' W1 W2 Es) as (st & Hi & Hp).
  { apply stops_numeral; assumption. }
  { unfold zlen, parser_limit in *. lia. }
  rewrite Hp. cbn [bind digit_result dp_special dp_value dp_frac dp_str_end].
  pose proof (scan_value _ _ _ _ _ _ Hi) as (tt & R & T1 & T2 & T3 & T4 & T5).
  assert (Z0 : dval (pd_digits st) <> 0).
  { intros Z0. apply CN. unfold coefficient. rewrite frac_odig. now apply T5. }
  pose proof Hi as (_ & _ & _ & _ & _ & D1 & D2 & D3 & D4 & _). pose proof (dval_bounds _ D1) as BP.
  destruct (Z.eqb_spec (dval (pd_digits st)) 0); [contradiction|].
  destruct (parse_digits_same s s (written n) c c rest rest eq_refl eq_refl (ends_breaks _ Hc) (ends_breaks _ Hc)
    (or_intror (begins_plain _ (proj1 (written_self_contained n W)))) t) as (dp & P1 & _ & _ & Q2 & Q3 & Q4 & _).
  rewrite Hp in P1. injection P1 as <-. cbn [digit_result dp_value dp_frac] in Q2, Q3, Q4.
  destruct (mantissa_total t (dval (pd_digits st)) (pd_frac st) ltac:(lia) Q3 Q4) as (f & e & M1 & M2 & _).
  pose proof (width_facts t). pose proof (pow2_pos (width t - 1) ltac:(lia)).
  rewrite M1. cbn [bind m_f]. assert (f <> 0) by lia. destruct (Z.eqb_spec f 0); [lia|].
  rewrite Es, skipn_zlen, <- E'.
  destruct (exponent_scan n x c rest W Hc Hx L2) as (P & q & RR & G1 & G2 & G3 & G4 & G5 & G6 & G7 & ->).
  assert (4 <= q) by (apply (unreadable_scan _ P q RR HU); try assumption; lia).
  destruct (C54_seq_pow 10 3 q) as [_ S]; [cbn; lia|]. rewrite S by (left; cbn; lia). reflexivity.
Qed.
