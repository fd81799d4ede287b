(** C84, C85: which decimal number ftoa prints, and how near it is. *)
From Coq Require Import String Ascii Reals Lra Lia ZArith List.
From Flocq Require Import Core.
From Verif Require Import Machine MachineFacts StaticPow Format DiyFp KComp Grisu Ftoa Spec Instances Api
  DiyFacts BoundFacts TableFacts DvalFacts DigitGenFacts GrisuFacts PrettifyFacts ShownFacts FtoaFacts RoundFacts CmpFacts WrittenFacts PrintProps PrintProps2 PrintProps3 CutFacts.
Import ListNotations.
Open Scope Z_scope.

Lemma dchars_prefix : forall a b ra rb, dchars a ++ ra = dchars b ++ rb -> zlen a = zlen b -> a = b.
Proof.
  induction a as [|x a IH]; intros [|y b] ra rb E L; [reflexivity| | |].
  - rewrite zlen_cons in L. change (zlen []) with 0 in L. pose proof (zlen_nonneg b). lia.
  - rewrite zlen_cons in L. change (zlen []) with 0 in L. pose proof (zlen_nonneg a). lia.
  - rewrite !zlen_cons in L. unfold dchars in E. cbn [map app] in E. pose proof (f_equal (hd 0) E) as E1. pose proof (f_equal (@tl Z) E) as E2. cbn [hd tl] in E1, E2. f_equal; [lia|]. apply (IH b ra rb); [exact E2|lia].
Qed.

Lemma printed_cut : forall t v m, nonzero t v -> well_formed m -> prints t v (written m) ->
  exists ds K hi p, Forall digit ds /\ hd 0 ds <> 0 /\ last_nonzero ds /\ abs_value m = (IZR (dval ds) * pow10 K)%R /\
    (mplus t v * (1 - bpow radix2 (3 - width t)) < hi < mplus t v)%R /\
    p <= K /\ cut_off hi p (dval ds * 10 ^ (K - p)) /\
    (p = K /\ 2 ^ (width t / 2 - 5) <= significand t v \/ 10 ^ (tiny_digits t - 1) <= dval ds * 10 ^ (K - p) < 10 ^ (tiny_digits t + 1)).
Proof.
  intros t v m Nz W P. pose proof Nz as [Hfin _].
  destruct (ftoa_finite_t t v Nz) as (ds & K & lo & hi0 & A1 & A2 & A3 & A4 & A5 & _ & _ & _ & _ & A10 & A11 & A12).
  assert (HK : -500 <= K <= 500) by (clear - A5; destruct t; cbn [kmin kmax] in A5; lia).
  assert (Hn : zlen ds <= 17) by (clear - A4; destruct t; cbn [max_sig] in A4; lia).
  destruct (grisu2_cut t v Hfin (nonzero_significand t v Nz)) as (ds' & K' & hi & p & B1 & B2 & B3 & B4 & B5 & B6 & B7 & B8 & B9).
  assert (E : ds = ds' /\ K = K').
  { specialize (A12 [] (repeat 0 40)). specialize (B9 [] (repeat 0 40)). rewrite repeat_length in A12, B9.
    assert (L : (length ds <= 40)%nat) by (unfold zlen in Hn; lia).
    assert (L' : (length ds' <= 40)%nat) by (clear - B4; unfold zlen in B4; destruct t; cbn [max_sig] in B4; lia).
    specialize (A12 L). specialize (B9 L'). rewrite A12 in B9. injection B9 as E1 E2 E3. split; [|exact E3]. eapply dchars_prefix; eassumption. }
  destruct E as [<- <-].
  exists ds, K, hi, p. split; [assumption|]. split; [assumption|]. split; [assumption|]. split; [|auto].
  assert (Em : m = shown (sign_of t v) ds K).
  { apply written_inj; [assumption|now apply shown_wf|]. apply (prints_unique t v); [assumption|]. apply tight_prints; [assumption|]. clear - A11. unfold zlen in A11. destruct t; lia. }
  rewrite Em. now apply shown_value.
Qed.

(** C84: the printed number is [hi], which is just below the upper end of the rounding interval, cut off
    behind some digit.  If there are zeros in front of the place of the cut they are not written;
    then it is cut off behind nine or ten digits (float: four or five), and so are all numbers
    with small significands, be there shorter ones in the interval or not. *)
Theorem C84_cut : forall t v m, nonzero t v -> well_formed m -> prints t v (written m) ->
  exists hi p d, (midpoint_above t v * (1 - bpow radix2 (3 - width t)) < hi < midpoint_above t v)%R /\
    cut_off hi p d /\ abs_value m = (IZR d * pow10 p)%R /\
    (d mod 10 <> 0 /\ 2 ^ (width t / 2 - 5) <= significand t v \/
     10 ^ (tiny_digits t - 1) <= d < 10 ^ (tiny_digits t + 1)).
Proof.
  intros t v m Nz W P. destruct (printed_cut t v m Nz W P) as (ds & K & hi & p & A1 & A2 & A3 & A4 & A5 & A6 & A7 & A8).
  exists hi, p, (dval ds * 10 ^ (K - p)). rewrite midpoint_above_mplus. split; [exact A5|]. split; [exact A7|]. split.
  - rewrite A4, mult_IZR. change (10 ^ (K - p)) with (radix10 ^ (K - p)). rewrite <- bpow_IZR by lia.
    rewrite Rmult_assoc, <- bpow_plus. do 2 f_equal. lia.
  - destruct A8 as [[-> A8]|A8]; [left|right; exact A8]. split; [|exact A8]. rewrite Z.sub_diag, Z.mul_1_r.
    rewrite dval_mod10; [exact A3|now apply ne_of_hd|assumption].
Qed.

(** So no number with the same last place between the printed one and the upper end was passed over. *)
Theorem C84_last : forall t v m D k, nonzero t v -> well_formed m -> prints t v (written m) ->
  abs_value m = (IZR D * pow10 k)%R -> D mod 10 <> 0 ->
  forall d, (midpoint_below t v < IZR d * pow10 k <= midpoint_above t v * (1 - bpow radix2 (3 - width t)))%R -> d <= D.
Proof.
  intros t v m D k Nz W P E HD d [_ Hd]. destruct (printed_cut t v m Nz W P) as (ds & K & hi & p & A1 & A2 & A3 & A4 & A5 & A6 & A7 & A8).
  assert (Hd10 : dval ds mod 10 <> 0) by (rewrite dval_mod10; [exact A3|now apply ne_of_hd|assumption]).
  rewrite A4 in E. destruct (decimal_unique _ _ _ _ Hd10 HD E) as [<- <-].
  rewrite midpoint_above_mplus in Hd. destruct A7 as [_ A7].
  assert (X : (pow10 p <= pow10 K)%R) by (apply bpow_le; exact A6).
  assert (Y : (IZR (dval ds * 10 ^ (K - p)) * pow10 p = IZR (dval ds) * pow10 K)%R).
  { rewrite mult_IZR. change (10 ^ (K - p)) with (radix10 ^ (K - p)). rewrite <- bpow_IZR by lia.
    rewrite Rmult_assoc, <- bpow_plus. do 2 f_equal. lia. }
  pose proof (bpow_gt_0 radix10 K).
  assert (Z0 : (IZR d * pow10 K < (IZR (dval ds) + 1) * pow10 K)%R) by lra.
  apply Rmult_lt_reg_r in Z0; [|assumption]. rewrite <- (plus_IZR _ 1) in Z0. apply lt_IZR in Z0. lia.
Qed.

(** C85: it is nearer than half a unit in the last place of the value ... *)
Theorem C85_distance : forall t v m, nonzero t v -> well_formed m -> prints t v (written m) ->
  (Rabs (value m - real_of t v) < / 2 * ulp_of t v)%R.
Proof.
  intros t v m Nz W P. destruct (printed t v m Nz W P) as (ds & K & lo & hi & A1 & A2 & A3 & A4 & A5 & A6 & A7 & A8 & _ & _ & Hn & HK & Em).
  assert (V : (Rabs (value m - real_of t v) = Rabs (abs_value m - magnitude t v))%R).
  { unfold value, real_of. assert (S : is_minus (n_sign m) = (sign_field t v =? 1)).
    { rewrite Em. unfold shown, sign_of. cbv zeta. destruct (sign_field t v =? 1); repeat (match goal with |- context [if ?c then _ else _] => destruct c end); reflexivity. }
    rewrite S. destruct (sign_field t v =? 1); [|reflexivity]. rewrite <- Rabs_Ropp. f_equal. ring. }
  rewrite V. assert (AV : abs_value m = (IZR (dval ds) * pow10 K)%R) by (rewrite Em; now apply shown_value).
  rewrite AV. pose proof (midpoint_above_mplus t v) as MP. unfold midpoint_above in MP.
  assert (MM : (magnitude t v - / 2 * ulp_of t v <= mminus t v)%R).
  { unfold mminus, magnitude, ulp_of. pose proof (bpow_gt_0 radix2 (exponent t v)). destruct (_ =? _); lra. }
  apply Rabs_def1; lra.
Qed.

(** ... but not always the nearest of its length: 2^-26 = 1.490116119384765625e-8 is printed as
    1.4901161193847657e-8 although 1.4901161193847656e-8 is nearer. *)
Theorem C85_refuted_not_nearest :
  exists v m D k, normal Double v /\ well_formed m /\ prints Double v (written m) /\
    abs_value m = (IZR D * pow10 k)%R /\ D mod 10 <> 0 /\
    exists d, 0 < d < D /\ (Rabs (IZR d * pow10 k - magnitude Double v) < Rabs (abs_value m - magnitude Double v))%R.
Proof.
  set (m := {| n_sign := NoSign; n_int := [1]; n_frac := Some [4;9;0;1;1;6;1;1;9;3;8;4;7;6;5;7];
               n_exp := Some {| x_upper := false; x_sign := Minus; x_digits := [0;8] |} |}).
  set (v := 4490088828488384512).
  exists v, m, 14901161193847657, (-24).
  split; [repeat split; try (vm_compute; congruence)|].
  split. { unfold well_formed, m. cbn [n_int frac_digits n_frac n_exp x_digits]. repeat split; try discriminate; repeat constructor; unfold digit; lia. }
  split. { apply prints_eval; [split; [discriminate|reflexivity]|]. vm_compute. reflexivity. }
  split; [reflexivity|]. split; [vm_compute; discriminate|].
  exists 14901161193847656. split; [lia|].
  assert (M : magnitude Double v = (149011611938476562.5 * pow10 (-25))%R).
  { unfold magnitude. replace (significand Double v) with 4503599627370496 by (vm_compute; reflexivity).
    replace (exponent Double v) with (-78) by (vm_compute; reflexivity). cbn [bpow]. change (Z.pow_pos radix2 78) with (2 ^ 78). change (Z.pow_pos radix10 25) with (10 ^ 25).
    change (2 ^ 78) with 302231454903657293676544. change (10 ^ 25) with 10000000000000000000000000. lra. }
  replace (abs_value m) with (IZR 14901161193847657 * pow10 (-24))%R by reflexivity. rewrite M.
  replace (pow10 (-24)) with (10 * pow10 (-25))%R by (change 10%R with (pow10 1); rewrite <- bpow_plus; reflexivity).
  pose proof (bpow_gt_0 radix10 (-25)). rewrite (Rabs_left (IZR 14901161193847656 * _ - _)), Rabs_pos_eq; lra.
Qed.

(** The smallest denormal, 4.94e-324: its rounding interval ends at 7.4109846876e-324, and that is
    printed with nine digits, 5e-324 would do.  And 2^-26 from above. *)
Example ex_C84 : nonzero Double 1 /\ significand Double 1 < 2 ^ (width Double / 2 - 5) /\ prints Double 1 (text "7.41098468e-324") /\
  nonzero Double 4490088828488384512 /\ prints Double 4490088828488384512 (text "1.4901161193847657e-08").
Proof.
  split; [repeat split; try (vm_compute; congruence); intros (_ & _ & C); revert C; vm_compute; congruence|].
  split; [vm_compute; reflexivity|]. split; [apply prints_eval; [split; [discriminate|reflexivity]|vm_compute; reflexivity]|].
  split; [repeat split; try (vm_compute; congruence); intros (_ & C & _); revert C; vm_compute; congruence|].
  apply prints_eval; [split; [discriminate|reflexivity]|vm_compute; reflexivity].
Qed.
