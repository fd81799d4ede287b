(** The text of a double read as a float, powers of two (C90); examples for C89 and C90. *)
From Coq Require Import Reals Lra Lia ZArith List String Ascii.
From Flocq Require Import Core.
From Verif Require Import Machine MachineFacts BitOps StaticPow Fraction Format DiyFp KComp Chars Grisu Ftoa Krosh Atof Spec ParseSpec Api ParseApi Instances
  DiyFacts BoundFacts TableFacts GrisuFacts ShownFacts FtoaFacts RoundFacts WrittenFacts PrintProps PrintProps2 PrintProps3 PrintExamples DownFacts DvalFacts CmpFacts ArithProps ScanFacts LoopFacts ParseFacts GapFacts KroshNum ShortFacts FracFacts LongFacts ParseProps Refuted RoundTrip LocalFacts LocalProps ParseExamples DigitGenFacts PrettifyFacts CutFacts Cut FineFacts CrossType.
Import ListNotations.
Open Scope Z_scope.

(** the bits of [2^k] *)
Definition double_power (k : Z) : Z := (k + 1023) * 2 ^ 52.
Definition float_power (k : Z) : Z := if k <? -126 then 2 ^ (k + 149) else (k + 127) * 2 ^ 23.

(** the text of the double [2^k] *)
Definition power_text (k : Z) : list Z :=
  match ftoa (fmt_of Double) (double_power k) (repeat 0 40) with Ok (b, n) => firstn (Z.to_nat n) b | Fault _ => [] end.

Definition is_power (t : ftype) (v : Z) (k : Z) : bool :=
  (0 <=? v) && (v <? 2 ^ width t) && negb (exp_field t v =? all_ones t) && (exponent t v <=? k) && (significand t v =? 2 ^ (k - exponent t v)) && (sign_field t v =? 0).

Lemma is_power_ok : forall t v k, is_power t v k = true -> nonzero t v /\ real_of t v = bpow radix2 k.
Proof.
  intros t v k H. unfold is_power in H. repeat (apply andb_prop in H as [H ?]).
  apply Z.eqb_eq in H0, H1. assert (E : real_of t v = bpow radix2 k).
  { unfold real_of, magnitude. rewrite H0, H1. cbn [Z.eqb]. change 2 with (radix_val radix2). rewrite IZR_Zpower by lia. rewrite <- bpow_plus. f_equal. lia. }
  split; [|exact E]. split; [split; [unfold pattern; lia|]|].
  - destruct (Z.eqb_spec (exp_field t v) (all_ones t)); [discriminate|assumption].
  - intros (_ & Z1 & Z2). unfold significand in H1. rewrite Z1, Z2 in H1. cbn [Z.eqb] in H1. pose proof (Z.pow_pos_nonneg 2 (k - exponent t v) ltac:(lia) ltac:(lia)). lia.
Qed.

(** The exponents for which the double [2^k], printed and read as a float, is not [2^k]. *)
Definition lost_powers : list Z :=
  [-149; -148; -147; -146; -145; -144; -143; -142; -141; -140; -126; -119; -118; -117; -96; 87; 100].

Definition power_read (k : Z) : bool :=
  is_power Double (double_power k) k && is_power Float (float_power k) k &&
  match krosh (fmt_of Float) (power_text k ++ [0]) with
  | Ok r => kr_is_accurate r && (kr_str_end r =? len (power_text k)) && (0 <? kr_str_end r) && (0 <=? kr_value r) && (kr_value r <? 2 ^ 32) && Bool.eqb (kr_value r =? float_power k) (negb (existsb (Z.eqb k) lost_powers)) &&
            (match kr_status r with success => negb (k <? -139) | underflow => k <? -139 | overflow => false end)
  | Fault _ => false
  end.

Lemma powers_read : forallb power_read (zrange (-149) 127) = true.
Proof. vm_compute. reflexivity. Qed.

(** C90, powers of two: the double 2^k, for every k a float can hold, is printed, and read as a
    float it gives 2^k unless k is one of seventeen exponents. *)
Theorem C90_powers : forall k v w n c rest, -149 <= k <= 127 -> finite Float v -> nonzero Double w ->
  real_of Float v = bpow radix2 k -> real_of Double w = bpow radix2 k ->
  well_formed n -> prints Double w (written n) -> ends_number c ->
  exists u st, (forall want fb errno, atof (fmt_of Float) (written n ++ c :: rest) want fb errno = Ok (answer want errno u st (len (written n)))) /\
    pattern Float u /\ (u = v <-> ~ In k lost_powers) /\ (st = success <-> -139 <= k).
Proof.
  intros k v w n c rest Hk Fv Nw Ev Ew W P Hc.
  pose proof (zrange_forall _ _ _ powers_read k Hk) as B. unfold power_read in B. apply andb_prop in B as [B B3]. apply andb_prop in B as [B1 B2].
  apply is_power_ok in B1 as [Dn Dv], B2 as [Sn Sv].
  assert (Nv : nonzero Float v).
  { split; [exact Fv|]. intros (_ & Z1 & Z2). assert (X : Rabs (real_of Float v) = 0%R).
    { rewrite abs_real. unfold magnitude, significand. rewrite Z1, Z2. cbn [Z.eqb]. ring. }
    rewrite Ev, Rabs_pos_eq in X by apply bpow_ge_0. pose proof (bpow_gt_0 radix2 k). lra. }
  assert (w = double_power k) as -> by (apply (real_of_inj Double); congruence).
  assert (v = float_power k) as -> by (apply (real_of_inj Float); congruence).
  assert (T : written n = power_text k).
  { apply (prints_unique Double (double_power k)); [exact P|]. apply prints_eval; [apply Dn|reflexivity]. }
  rewrite <- T in B3. set (v0 := float_power k) in *.
  destruct (krosh (fmt_of Float) (written n ++ [0])) as [r|] eqn:Ek; [|discriminate]. repeat (apply andb_prop in B3 as [B3 ?]).
  assert (N0 : ends_number 0) by (repeat split; vm_compute; intuition congruence).
  destruct (krosh_local Float (written n) 0 c [] rest N0 Hc (self_contained_closed _ 0 c (written_self_contained n W))) as [E' _]. rewrite Ek in E'.
  destruct r as [rv re rs ra]. cbn [kr_value kr_str_end kr_status kr_is_accurate] in *. subst ra. apply Z.eqb_eq in H4. subst re. symmetry in E'.
  exists rv, rs. split; [|split; [unfold pattern; cbn [width]; lia|split]].
  - intros want fb errno. refine (atof_fast _ _ _ _ _ _ _ _ E' _). exact (written_nonempty n W).
  - apply Bool.eqb_prop in H0. assert (EX : existsb (Z.eqb k) lost_powers = true <-> In k lost_powers).
    { rewrite existsb_exists. split; [intros (x & X1 & X2); apply Z.eqb_eq in X2; now subst x|intros X; exists k; split; [exact X|apply Z.eqb_refl]]. }
    rewrite <- EX. destruct (existsb (Z.eqb k) lost_powers), (Z.eqb_spec rv v0); try discriminate; split; intros; try congruence; exfalso; auto.
  - destruct rs; try discriminate; destruct (Z.ltb_spec k (-139)); try discriminate; split; intros; try reflexivity; try discriminate; lia.
Qed.

(** ... so 2^100 is lost, and so is the smallest float, the latter with an underflow. *)
Theorem C90_refuted : exists v w n u v' w' n', nonzero Float v /\ nonzero Double w /\ real_of Float v = real_of Double w /\ real_of Float v = bpow radix2 100 /\
  well_formed n /\ prints Double w (written n) /\ written n = text "1.2676506002282295e30" /\
  (forall want fb errno, atof (fmt_of Float) (written n ++ [0]) want fb errno = Ok (answer want errno u success (len (written n)))) /\ real_of Float u = bpow radix2 99 /\
  nonzero Float v' /\ nonzero Double w' /\ real_of Float v' = real_of Double w' /\ prints Double w' (written n') /\ well_formed n' /\ written n' = text "1.401298464324817e-45" /\
  (forall want fb errno, atof (fmt_of Float) (written n' ++ [0]) want fb errno = Ok (answer want errno 0 underflow (len (written n')))).
Proof.
  exists (float_power 100), (double_power 100), (nume NoSign [1] (Some [2;6;7;6;5;0;6;0;0;2;2;8;2;2;9;5]) NoSign [3;0]), (float_power 99).
  exists (float_power (-149)), (double_power (-149)), (nume NoSign [1] (Some [4;0;1;2;9;8;4;6;4;3;2;4;8;1;7]) Minus [4;5]).
  destruct (is_power_ok Float (float_power 100) 100 eq_refl) as [A1 A2]. destruct (is_power_ok Double (double_power 100) 100 eq_refl) as [A3 A4].
  destruct (is_power_ok Float (float_power 99) 99 eq_refl) as [_ A5].
  destruct (is_power_ok Float (float_power (-149)) (-149) eq_refl) as [B1 B2]. destruct (is_power_ok Double (double_power (-149)) (-149) eq_refl) as [B3 B4].
  split; [exact A1|]. split; [exact A3|]. split; [now rewrite A2, A4|]. split; [exact A2|]. split; [wfn|]. split; [pr|]. split; [reflexivity|].
  split; [run|]. split; [exact A5|]. split; [exact B1|]. split; [exact B3|]. split; [now rewrite B2, B4|]. split; [pr|]. split; [wfn|]. split; [reflexivity|]. run.
Qed.

(** * The hypotheses are met *)

(** 0.1f prints "0.1"; read as a double that is 0.1, which narrows to 0.1f *)
Example C89_meets : nonzero Float v2 /\ well_formed ex2 /\ prints Float v2 (written ex2) /\ written ex2 = text "0.1" /\ ends_number (code ",").
Proof. destruct ex2_meets as (A & _ & B & C & D). repeat split; try assumption; try apply A; try apply B; vm_compute; intuition congruence. Qed.

(** the double next to 0.1f prints "1.0000000149011612e-01" *)
Definition v2_wide : Z := 4591870180174331904.
Definition ex2_wide : numeral := nume NoSign [1] (Some [0;0;0;0;0;0;0;1;4;9;0;1;1;6;1;2]) Minus [0;1].
Example C90_meets : finite Float v2 /\ nonzero Double v2_wide /\ real_of Double v2_wide = real_of Float v2 /\
  (pow10 (-42) <= Rabs (real_of Float v2))%R /\ (forall k, Rabs (real_of Float v2) <> bpow radix2 k) /\
  well_formed ex2_wide /\ prints Double v2_wide (written ex2_wide) /\ written ex2_wide = text "1.0000000149011612e-01".
Proof.
  assert (M : real_of Float v2 = (IZR 13421773 * bpow radix2 (-27))%R) by reflexivity.
  split; [fin|]. split; [split; [fin|intros (_ & C & _); vm_compute in C; discriminate]|]. split.
  { rewrite M. replace (real_of Double v2_wide) with (IZR 7205759511166976 * bpow radix2 (-56))%R by reflexivity.
    change (-27) with (29 + -56). rewrite bpow_plus. change (bpow radix2 29) with (IZR (2 ^ 29)). rewrite <- Rmult_assoc, <- mult_IZR. reflexivity. }
  split.
  { rewrite abs_real. apply Rle_trans with (IZR 1 * pow10 (-42))%R; [lra|]. apply Rlt_le. apply dec_lt_bin. vm_compute. reflexivity. }
  split.
  { intros k K. rewrite abs_real in K. destruct (Z.le_gt_cases (min_exp Float + precision Float - 1) k) as [L|L].
    - apply power_significand in K; [|exact L]. vm_compute in K. discriminate.
    - rewrite <- abs_real, M, Rabs_pos_eq in K by (apply Rmult_le_pos; [apply IZR_le; lia|apply bpow_ge_0]). cbn [min_exp precision] in L.
      assert (bpow radix2 k < bpow radix2 (-27))%R by (apply bpow_lt; lia). pose proof (bpow_gt_0 radix2 (-27)). lra. }
  split; [unfold ex2_wide; wfn|]. split; [pr|reflexivity].
Qed.
