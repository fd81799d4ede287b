(** C102: rounding mode, excess precision and fused multiply-add do not change what is printed. *)
From Coq Require Import Reals Lra Lia ZArith Bool List.
From Flocq Require Import Core Relative.
From Verif Require Import ArithProps DownFacts GrisuFacts  Machine MachineFacts Format DiyFp KComp Grisu Ftoa Evaluation Spec EvalSpec Api Instances DiyFacts BoundFacts TableFacts FtoaFacts PrintProps ArithProps.
Open Scope Z_scope.

(** the product is nowhere near an integer *)
Definition clear_ok (alpha pe : Z) : bool :=
  let x := alpha - pe - 1 in
  match k_comp_exp alpha pe with
  | Ok k => (Z.abs x <=? 1200) && (Z.abs k <=? 400) &&
            if x =? 0 then k =? 0 else
            ((k - 1) * 2 ^ 54 + 2 ^ 34 <=? x * 5422874305198590) && (x * 5422874305198590 <=? k * 2 ^ 54 - 2 ^ 34) && (if 0 <? x then 0 <? k else k <=? 0)
  | Fault _ => false
  end.
Lemma clear_ok_all : forall t, forallb (clear_ok (grisu_alpha (fmt_of t))) (zrange (pe_min t) (pe_max t)) = true.
Proof. destruct t; vm_compute; reflexivity. Qed.

Lemma k_comp_same : forall t pe c mul add, pe_min t <= pe <= pe_max t -> converted c -> rounding mul -> rounding add ->
  k_comp_as c mul add (grisu_alpha (fmt_of t)) pe = k_comp_exp (grisu_alpha (fmt_of t)) pe.
Proof.
  intros t pe c mul add H HC [M0 HM] [A0 HA]. pose proof (zrange_forall _ _ _ (clear_ok_all t) pe H) as C. unfold clear_ok in C. cbv zeta in C.
  set (alpha := grisu_alpha (fmt_of t)) in *. set (x := alpha - pe - 1) in *.
  destruct (k_comp_exp alpha pe) as [k|] eqn:EK; [|discriminate]. apply andb_prop in C as [C C3]. apply andb_prop in C as [C1 C2]. apply Z.leb_le in C1, C2.
  assert (SI : forall z, Z.abs z <= 1200 -> sint z = Ok z).
  { intros z Hz. unfold sint. destruct (Z.leb_spec (- 2 ^ 31) z); [|lia]. destruct (Z.ltb_spec z (2 ^ 31)); [reflexivity|lia]. }
  unfold k_comp_as. fold x. rewrite SI by lia. cbn [bind].
  assert (EB : (pe + 1 <? alpha) = (0 <? x)) by (unfold x; destruct (Z.ltb_spec (pe + 1) alpha); destruct (Z.ltb_spec 0 (alpha - pe - 1)); lia || reflexivity). rewrite EB.
  enough (ET : Ztrunc (add (mul (IZR x * c) + IZR (b2z (0 <? x)))%R) = k) by (rewrite ET; apply SI; lia).
  destruct (Z.eqb_spec x 0) as [X0|X0].
  { apply Z.eqb_eq in C3. subst k. rewrite X0. rewrite Rmult_0_l, M0. change (IZR (b2z (0 <? 0))) with 0%R. rewrite Rplus_0_r, A0. exact (Ztrunc_IZR 0). }
  apply andb_prop in C3 as [C3 C6]. apply andb_prop in C3 as [C4 C5]. apply Z.leb_le in C4, C5.
  (* the exact product with the double constant *)
  set (c0 := (5422874305198590 / 18014398509481984)%R).
  set (P := (IZR x * c0)%R).
  assert (EP : (IZR (x * 5422874305198590) = P * 18014398509481984)%R) by (unfold P, c0; rewrite mult_IZR; field).
  apply IZR_le in C4, C5. rewrite EP in C4, C5. rewrite plus_IZR, mult_IZR, minus_IZR in C4. rewrite minus_IZR, mult_IZR in C5.
  change (2 ^ 54) with 18014398509481984 in C4, C5. change (2 ^ 34) with 17179869184 in C4, C5.
  assert (AX : (Rabs (IZR x) <= 1200)%R) by (rewrite <- abs_IZR; apply IZR_le; lia).
  assert (AX1 : (1 <= Rabs (IZR x))%R) by (rewrite <- abs_IZR; apply IZR_le; lia).
  assert (HC0 : (Rabs (c - c0) <= / 4503599627370496)%R).
  { unfold converted in HC. change (bpow radix2 (-54)) with (/ 18014398509481984)%R in HC. unfold c0. apply Rabs_le_inv in HC. apply Rabs_le. lra. }
  assert (D1 : (Rabs (IZR x * c - P) <= 1200 * / 4503599627370496)%R).
  { unfold P. rewrite <- Rmult_minus_distr_l, Rabs_mult. apply Rmult_le_compat; [apply Rabs_pos..|exact AX|exact HC0]. }
  assert (CB : (3/10 <= c <= 31/100)%R) by (apply Rabs_le_inv in HC0; unfold c0 in HC0; lra).
  assert (Y1 : (3/10 <= Rabs (IZR x * c) <= 372)%R) by (rewrite Rabs_mult, (Rabs_pos_eq c) by lra; nra).
  assert (D2 : (Rabs (mul (IZR x * c) - IZR x * c) <= 372 * / 4503599627370496)%R).
  { eapply Rle_trans; [apply HM|]; [change (bpow radix2 (-2)) with (/ 4)%R; change (bpow radix2 10) with 1024%R; lra|]. change (bpow radix2 (-52)) with (/ 4503599627370496)%R. lra. }
  set (y := mul (IZR x * c)%R) in *. set (z := (y + IZR (b2z (0 <? x)))%R).
  assert (B : (IZR (b2z (0 <? x)) = 0 \/ IZR (b2z (0 <? x)) = 1)%R) by (destruct (0 <? x); [right|left]; reflexivity).
  assert (YZ : (Rabs (y - P) <= 1572 * / 4503599627370496)%R).
  { replace (y - P)%R with ((y - IZR x * c) + (IZR x * c - P))%R by ring. eapply Rle_trans; [apply Rabs_triang|]. lra. }
  assert (K400 : (-400 <= IZR k <= 400)%R) by (split; apply IZR_le; lia).
  apply Rabs_le_inv in YZ.
  assert (Z1 : (/ 4 <= Rabs z <= 1024)%R).
  { unfold z. destruct (Z.ltb_spec 0 x) as [G|G]; cbn [b2z].
    - assert (0 < P)%R by (unfold P, c0; apply Rmult_lt_0_compat; [apply IZR_lt; lia|lra]). rewrite Rabs_pos_eq by lra. lra.
    - assert (P <= -30/100)%R by (assert (IZR x <= -1)%R by (apply IZR_le; lia); unfold P, c0; lra). rewrite Rabs_left by lra. lra. }
  assert (D3 : (Rabs (add z - z) <= 1024 * / 4503599627370496)%R).
  { eapply Rle_trans; [apply HA|]; [change (bpow radix2 (-2)) with (/ 4)%R; change (bpow radix2 10) with 1024%R; lra|]. change (bpow radix2 (-52)) with (/ 4503599627370496)%R. lra. }
  apply Rabs_le_inv in D3. fold z.
  destruct (Z.ltb_spec 0 x) as [G|G]; cbn [b2z] in *.
  - apply Z.ltb_lt in C6. assert (1 <= IZR k)%R by (apply IZR_le; lia). rewrite Ztrunc_floor by (unfold z in *; lra). apply Zfloor_imp. rewrite plus_IZR. unfold z in *. lra.
  - apply Z.leb_le, IZR_le in C6. rewrite Ztrunc_ceil by (unfold z in *; lra). apply Zceil_imp. rewrite minus_IZR. unfold z in *. lra.
Qed.

Lemma grisu2_same : forall t v c mul add, nonzero t v -> converted c -> rounding mul -> rounding add ->
  forall buf base, grisu2_with (k_comp_as c mul add) (fmt_of t) v buf base = grisu2 (fmt_of t) v buf base.
Proof.
  intros t v c mul add H HC HM HA buf base. unfold grisu2_with, grisu2.
  pose proof (nonzero_significand t v H) as Hs. destruct H as [Hfin _].
  destruct (boundaries_ok t v Hs) as (s & S1 & S2 & ->). cbn [bind m_e].
  pose proof (finite_exponent t v Hfin) as He1. pose proof (exponent_ge t v) as He2. pose proof (width_facts t) as W.
  assert (Hs2 : s <= width t - 2).
  { destruct (Z.le_gt_cases s (width t - 2)) as [|G]; [assumption|].
    assert (2 ^ (width t - 1) <= 2 ^ s) by (apply Z.pow_le_mono_r; lia).
    pose proof (pow2_half (width t) ltac:(lia)).
    assert (3 * 2 ^ (width t - 1) <= (2 * significand t v + 1) * 2 ^ s) by (apply Z.mul_le_mono_nonneg; lia).
    pose proof (pow2_pos (width t - 1) ltac:(lia)). lia. }
  rewrite k_comp_same; [reflexivity|unfold pe_min, pe_max; lia|assumption..].
Qed.

(** C102 *)
Theorem C102_same_text : forall t v buf c mul add, pattern t v -> converted c -> rounding mul -> rounding add ->
  ftoa_with (k_comp_as c mul add) (fmt_of t) v buf = ftoa (fmt_of t) v buf.
Proof.
  intros t v buf c mul add P HC HM HA. unfold ftoa_with, ftoa.
  destruct (is_nan (fmt_of t) v) eqn:E1; [reflexivity|]. destruct (is_inf (fmt_of t) v) eqn:E2; [reflexivity|]. destruct (is_zero (fmt_of t) v) eqn:E3; [reflexivity|].
  assert (N : nonzero t v).
  { destruct (classify t v P) as [C|[C|[C|C]]]; [apply is_nan_spec in C; [congruence|exact P]|apply is_inf_spec in C; [congruence|exact P]|apply is_zero_spec in C; [congruence|exact P]|exact C]. }
  destruct (write buf 0 _) as [b|]; [|reflexivity]. cbn [bind]. cbv zeta. rewrite (grisu2_same t v c mul add N HC HM HA). reflexivity.
Qed.
Theorem C102_same_string : forall t v c mul add, pattern t v -> converted c -> rounding mul -> rounding add ->
  to_basic_string_with (k_comp_as c mul add) (fmt_of t) v = to_basic_string (fmt_of t) v.
Proof. intros t v c mul add P HC HM HA. unfold to_basic_string_with, to_basic_string. rewrite C102_same_text by assumption. reflexivity. Qed.

(** C102: the roundings of IEEE 754 are such roundings: to 53 or more bits, in every direction, and
    so is no rounding (the product in a fused multiply-add) *)
Theorem C102_roundings : (forall p emin rnd, Valid_rnd rnd -> 53 <= p -> emin + p - 1 <= -2 -> rounding (round radix2 (FLT_exp emin p) rnd)) /\ rounding (fun y => y).
Proof.
  split.
  - intros p emin rnd V Hp He. split; [now apply round_0|]. intros y [Y _].
    assert (P : Prec_gt_0 p) by (unfold Prec_gt_0; lia).
    apply Rlt_le. eapply Rlt_le_trans; [apply (relative_error_FLT radix2 emin p P rnd)|].
    + eapply Rle_trans; [|exact Y]. apply bpow_le. lia.
    + apply Rmult_le_compat_r; [apply Rabs_pos|]. apply bpow_le. lia.
  - split; [reflexivity|]. intros y _. rewrite Rminus_diag_eq, Rabs_R0 by reflexivity. apply Rmult_le_pos; [apply bpow_ge_0|apply Rabs_pos].
Qed.
(** C102: and so are the conversions of the constant *)
Theorem C102_constants : forall p emin rnd, Valid_rnd rnd -> 53 <= p -> emin + p - 1 <= -2 ->
  converted (round radix2 (FLT_exp emin p) rnd (30102999566398114 / 100000000000000000)).
Proof.
  intros p emin rnd V Hp He. unfold converted. set (l := (30102999566398114 / 100000000000000000)%R).
  assert (P : Prec_gt_0 p) by (unfold Prec_gt_0; lia).
  eapply Rle_trans; [apply Rlt_le, (error_lt_ulp radix2 (FLT_exp emin p) rnd l); unfold l; lra|].
  rewrite ulp_neq_0 by (unfold l; lra). apply bpow_le. unfold cexp, FLT_exp.
  assert (M : mag radix2 l = (-1)%Z :> Z).
  { apply mag_unique_pos. change (bpow radix2 (-1 - 1)) with (/ 4)%R. change (bpow radix2 (-1)) with (/ 2)%R. unfold l. lra. }
  rewrite M. lia.
Qed.
