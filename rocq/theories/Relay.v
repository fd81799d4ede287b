(** C111: the text of a float that is read and printed again as a double. *)
From Coq Require Import Reals Lra Lia ZArith List String Ascii.
From Flocq Require Import Core.
From Verif Require Import Machine MachineFacts BitOps StaticPow Fraction Format DiyFp KComp Chars Grisu Ftoa Krosh Atof Spec ParseSpec Api ParseApi Instances
  DiyFacts BoundFacts TableFacts GrisuFacts ShownFacts FtoaFacts RoundFacts WrittenFacts PrintProps PrintProps2 PrintProps3 DownFacts DvalFacts CmpFacts ArithProps ScanFacts LoopFacts ParseFacts GapFacts KroshNum ShortFacts FracFacts LongFacts ParseProps Refuted RoundTrip FineFacts CrossType PrintExact DecimalTrip.
Import ListNotations.
Open Scope Z_scope.

(** C111: The text depends on the printed decimal number only, not on the type or on the bits: numbers printed as the same
    decimal number with the same sign have the same text. *)
Theorem C111_same_text : forall t u v w m n, nonzero t v -> nonzero u w -> well_formed m -> well_formed n ->
  prints t v (written m) -> prints u w (written n) -> abs_value m = abs_value n -> (negative t v <-> negative u w) -> written m = written n.
Proof.
  intros t u v w m n Nv Nw Wm Wn Pm Pn EV ES.
  destruct (printed t v m Nv Wm Pm) as (ds & K & _ & _ & A1 & A2 & A3 & _ & _ & _ & _ & _ & _ & _ & A4 & A5 & Em).
  destruct (printed u w n Nw Wn Pn) as (ds' & K' & _ & _ & B1 & B2 & B3 & _ & _ & _ & _ & _ & _ & _ & B4 & B5 & En).
  rewrite Em, En in EV. rewrite !shown_value in EV by assumption.
  assert (C1 : dval ds mod 10 <> 0) by (rewrite dval_mod10; [exact A3|now apply ne_of_hd|assumption]).
  assert (C2 : dval ds' mod 10 <> 0) by (rewrite dval_mod10; [exact B3|now apply ne_of_hd|assumption]).
  destruct (decimal_unique _ _ _ _ C1 C2 EV) as [E1 <-].
  assert (ds = ds') as <- by now apply digits_unique.
  rewrite Em, En. do 2 f_equal. unfold sign_of. unfold negative in ES.
  destruct (Z.eqb_spec (sign_field t v) 1), (Z.eqb_spec (sign_field u w) 1); tauto.
Qed.

(** C111: The text of a float, read as a double, is printed again as it was, if it is not within 1/512 of a unit (of double) of a
    point half way between two doubles; the fallback is not called. *)
Theorem C111_relayed : forall v n c rest want fb errno, nonzero Float v -> well_formed n -> prints Float v (written n) -> ends_number c ->
  clear_of_ties Double (/ 512) (value n) ->
  exists y, atof (fmt_of Double) (written n ++ c :: rest) want fb errno = Ok (answer want errno y success (len (written n))) /\
    prints Double y (written n).
Proof.
  intros v n c rest want fb errno Nv W P Hc CT.
  destruct (printed_short Float v n Nv W P) as ((d & j & S1 & S2 & S3 & _) & L & _).
  destruct (printed_twice v n Nv W P) as (NC & R & RR).
  assert (A0 : (bpow radix2 (-150) <= Rabs (value n))%R).
  { destruct R as [R _]. destruct (C01_reads_back Float v n Nv W P) as ((X & _) & _). rewrite value_abs by exact W.
    assert (S : 0 < significand Float v) by now apply nonzero_significand.
    pose proof (nonzero_above Float v Nv) as MB. cbn [min_exp] in MB.
    assert (E : (bpow radix2 (-149) = 2 * bpow radix2 (-150))%R) by (change 2%R with (bpow radix2 1); rewrite <- bpow_plus; reflexivity).
    assert (M2 : (/ 2 * magnitude Float v <= midpoint_below Float v)%R).
    { unfold midpoint_below. assert (gap_below Float v <= magnitude Float v)%R; [|lra].
      assert (G : (gap_below Float v <= ulp_of Float v)%R).
      { unfold gap_below. pose proof (bpow_gt_0 radix2 (exponent Float v)). fold (ulp_of Float v) in *. destruct (_ && _); lra. }
      apply Rle_trans with (1 := G). unfold magnitude. fold (ulp_of Float v). assert (1 <= IZR (significand Float v))%R by (apply IZR_le; lia).
      assert (0 < ulp_of Float v)%R by apply bpow_gt_0. nra. }
    lra. }
  destruct (C86_short_decimals Double n c rest want fb errno W Hc L) as (y & n' & Y1 & Y2 & Y3 & Y4 & Y5).
  - exists d, j. split; [|split; [exact S2|exact S3]]. cbn [safe_digits exact_digits] in *. split; [lia|]. apply Z.lt_trans with (1 := proj2 S1). vm_compute. reflexivity.
  - apply Rle_trans with (2 := A0). apply bpow_le. vm_compute. discriminate.
  - apply R.
  - exact NC.
  - exact CT.
  - exists y. split; [exact Y1|].
    assert (Ny : nonzero Double y).
    { destruct Y2 as [(_ & F & RV & _)|[C _]]; [|exfalso; destruct R as [_ R]; lra]. split; [exact F|].
      intros (_ & Z1 & Z2). assert (real_of Double y = 0%R) as Z0.
      { unfold real_of, magnitude, significand. rewrite Z1, Z2. cbn [Z.eqb]. destruct (_ =? 1); ring. }
      rewrite RV in Z0. apply (f_equal Rabs) in Z0. rewrite rnd_value_abs, Rabs_R0 in Z0 by exact W. rewrite Z0 in RR.
      assert (S : 0 < significand Float v) by now apply nonzero_significand. pose proof (magnitude_pos Float v S).
      unfold rnd in RR. rewrite round_0 in RR by typeclasses eauto. lra. }
    replace (written n) with (written n'); [exact Y4|].
    symmetry. apply (C111_same_text Float Double v y n n' Nv Ny W Y3 P Y4).
    + rewrite <- !value_abs by assumption. now rewrite Y5.
    + destruct (C01_reads_back Float v n Nv W P) as (_ & _ & CR).
      assert (NF : negative Float v <-> is_minus (n_sign n) = true).
      { destruct CR as [(_ & _ & _ & X)|[X1 X2]]; [exact X|]. exfalso. rewrite X2 in Nv. destruct Nv as [[_ F] _]. revert F. destruct (is_minus (n_sign n)); vm_compute; congruence. }
      rewrite NF. destruct Y2 as [(_ & _ & _ & X)|[C _]]; [symmetry; exact X|exfalso; destruct R as [_ R]; lra].
Qed.
