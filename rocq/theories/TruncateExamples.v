(** Concrete texts that meet the hypotheses of the theorems about long mantissas (C52). *)
From Coq Require Import Reals Lra Lia ZArith List String Ascii.
From Flocq Require Import Core.
From Verif Require Import Machine MachineFacts TableFacts Format DiyFp Krosh Atof Ftoa Print Spec ParseSpec Api ParseApi Instances
  DvalFacts BoundFacts CmpFacts LoopFacts ShortFacts KroshNum ScanFacts Refuted Protocol ParseExamples Truncate.
Import ListNotations.
Open Scope Z_scope.

Lemma digits_repeat : forall d k, digit d -> Forall digit (repeat d k).
Proof. intros d k H. induction k; constructor; auto. Qed.

(** 1 and 2100 zeros and e-2100: the exponent is ignored *)
Example C52_rest_ignored_meets : well_formed long_one /\ (parser_limit < List.length (mantissa_text long_one))%nat /\
  written long_one = mantissa_text long_one ++ code "e" :: text "-2100" /\ ~ between "0" "9" (code "e") /\ code "e" <> code ".".
Proof.
  split; [apply C52_refuted_truncated|]. split; [apply Nat.ltb_lt; vm_compute; reflexivity|].
  split; [vm_compute; reflexivity|]. unfold between. split; vm_compute; intuition congruence.
Qed.

(** the same number has an integer part of 2101 digits *)
Example C52_long_integer_meets : n_int long_one = [] ++ 1 :: repeat 0 2100 /\ (List.length (@nil Z) <= Z.to_nat 1680)%nat /\
  (Z.to_nat 2050 <= List.length (n_int long_one))%nat.
Proof. split; [reflexivity|]. split; apply Nat.leb_le; vm_compute; reflexivity. Qed.

(** -0.000...0001 with 2100 zeros behind the point, and e2101: that is minus one, read as minus zero *)
Definition late_one : numeral := nume Minus [0] (Some (repeat 0 2100 ++ [1])) NoSign [2;1;0;1].
Example C52_late_digits_meets : well_formed late_one /\
  mantissa_text late_one = firstn 2050 (mantissa_text late_one) ++ skipn 2050 (mantissa_text late_one) /\
  List.length (firstn 2050 (mantissa_text late_one)) = Z.to_nat 2050 /\
  Forall (fun x => ~ between "1" "9" x) (firstn 2050 (mantissa_text late_one)) /\ coefficient late_one = 1 /\ scale late_one = 0.
Proof.
  split. { unfold well_formed, late_one, nume. cbn [n_int n_frac frac_digits n_exp x_digits]. split; [repeat constructor; unfold digit; lia|].
    split; [apply Forall_app; split; [apply digits_repeat; unfold digit; lia|repeat constructor; unfold digit; lia]|]. split; [discriminate|].
    split; [repeat constructor; unfold digit; lia|discriminate]. }
  split; [symmetry; apply firstn_skipn|]. split; [vm_compute; reflexivity|]. split; [|split; vm_compute; reflexivity].
  apply Forall_forall. intros x H.
  assert (B : forallb (fun x => negb ((49 <=? x) && (x <=? 57))) (firstn 2050 (mantissa_text late_one)) = true) by (vm_compute; reflexivity).
  rewrite forallb_forall in B. specialize (B x H). unfold between. change (code "1") with 49. change (code "9") with 57.
  destruct (Z.leb_spec 49 x), (Z.leb_spec x 57); cbn in B; try discriminate; lia.
Qed.

(** 3.3333333333333333333333000... with 2100 digits behind the point *)
Definition threes : list Z := repeat 3 22.
Definition thirds : numeral := num NoSign [3] (Some ((threes ++ repeat 0 2026) ++ repeat 0 52)).
Definition few_thirds : numeral := num NoSign [3] (Some threes).
Definition thirds_bits (t : ftype) : Z := match t with Float => 1079334229 | Double => 4614688418178968235 end.

Lemma thirds_coefficient : forall k, dval ((3 :: threes) ++ repeat 0 k) = 33333333333333333333333 * 10 ^ Z.of_nat k.
Proof.
  intros k. rewrite dval_app, dval_zeros. unfold zlen. rewrite repeat_length.
  replace (dval (3 :: threes)) with 33333333333333333333333 by (vm_compute; reflexivity). lia.
Qed.

Lemma same_value : value thirds = value few_thirds.
Proof.
  unfold value. change (is_minus (n_sign thirds)) with false. change (is_minus (n_sign few_thirds)) with false. unfold abs_value.
  replace (coefficient few_thirds) with 33333333333333333333333 by (vm_compute; reflexivity). change (scale few_thirds) with (-22).
  assert (C : coefficient thirds = 33333333333333333333333 * 10 ^ Z.of_nat (2026 + 52)).
  { unfold coefficient. change (frac_digits thirds) with ((threes ++ repeat 0 2026) ++ repeat 0 52). change (n_int thirds) with [3].
    rewrite <- thirds_coefficient, (repeat_app 0 2026 52), !app_assoc. reflexivity. }
  assert (S : scale thirds = - 2100) by (vm_compute; reflexivity).
  rewrite C, S, mult_IZR, pow10_IZR, Rmult_assoc, <- bpow_plus by lia. f_equal.
Qed.

Example C52_long_fraction_meets : forall t, well_formed thirds /\ n_exp thirds = None /\ n_frac thirds = Some ((threes ++ repeat 0 2026) ++ repeat 0 52) /\
  List.length (sign_text (n_sign thirds) ++ dchars (n_int thirds) ++ code "." :: dchars (threes ++ repeat 0 2026)) = Z.to_nat 2050 /\
  ~ (exists d j, 0 <= d < 10 ^ exact_digits t /\ 0 <= j /\ dval (n_int thirds ++ threes ++ repeat 0 2026) = d * 10 ^ j) /\
  in_range t (value thirds) /\ (t = Float -> (pow10 (-42) <= Rabs (value thirds))%R) /\
  clear_of_ties t (any_length_margin t) (value thirds) /\ ~ carries t (value thirds) /\ ~ just_above_power t (any_length_margin t) (value thirds).
Proof.
  intros t. assert (W : well_formed thirds).
  { unfold well_formed, thirds, num. cbn [n_int n_frac frac_digits n_exp]. split; [repeat constructor; unfold digit; lia|].
    split; [apply Forall_app; split; [apply Forall_app; split|]; apply digits_repeat; unfold digit; lia|]. split; [discriminate|exact Logic.I]. }
  assert (W' : well_formed few_thirds) by wfn.
  assert (F : finite t (thirds_bits t)) by (destruct t; fin).
  split; [exact W|]. split; [reflexivity|]. split; [reflexivity|]. split; [vm_compute; reflexivity|].
  split.
  { intros (d & j & D1 & D2 & D3). change (n_int thirds) with [3] in D3. rewrite app_assoc in D3. change ([3] ++ threes) with (3 :: threes) in D3.
    rewrite thirds_coefficient in D3. set (z := Z.of_nat 2026) in *. assert (Z0 : 0 <= z) by (unfold z; lia). clearbody z.
    assert (P : 10 ^ exact_digits t <= 10 ^ 19) by (apply Z.pow_le_mono_r; destruct t; cbn; lia). change (10 ^ 19) with 10000000000000000000 in P.
    destruct (Z.le_gt_cases j z) as [J|J].
    - replace z with ((z - j) + j) in D3 by lia. rewrite Z.pow_add_r, Z.mul_assoc in D3 by lia.
      apply Z.mul_reg_r in D3; [|pose proof (pow10_pos j D2); lia]. pose proof (pow10_pos (z - j) ltac:(lia)). nia.
    - replace j with ((j - z - 1) + 1 + z) in D3 by lia. rewrite !Z.pow_add_r, Z.mul_assoc in D3 by lia.
      apply Z.mul_reg_r in D3; [|pose proof (pow10_pos z Z0); lia]. change (10 ^ 1) with 10 in D3. rewrite Z.mul_assoc in D3. lia. }
  rewrite same_value.
  assert (V : (3 < abs_value few_thirds < 3.5)%R).
  { unfold abs_value. split.
    - replace 3%R with (3 * bpow radix2 0)%R by (cbn; ring). apply bin_lt_dec. vm_compute. reflexivity.
    - replace 3.5%R with (7 * bpow radix2 (-1))%R by (cbn; lra). apply dec_lt_bin. vm_compute. reflexivity. }
  destruct (meets_range t few_thirds (thirds_bits t) W' F) as [A B]; [destruct t; vm_compute; reflexivity|destruct t; vm_compute; congruence|destruct t; vm_compute; congruence|].
  split; [exact A|]. split.
  { intros _. rewrite value_abs by assumption. assert (pow10 (-42) <= pow10 0)%R by (apply bpow_le; lia). change (pow10 0) with 1%R in H. lra. }
  split.
  { apply (meets_clear t few_thirds (thirds_bits t) (match t with Float => 4 | Double => 8 end) _ W' F); [destruct t; lia|destruct t; vm_compute; reflexivity|].
    destruct t; unfold any_length_margin; cbn; lra. }
  split; [exact B|].
  intros (k & _ & K1 & K2). rewrite value_abs in * by assumption.
  assert (M : (any_length_margin t * bpow radix2 (1 - precision t) <= / 4)%R).
  { assert (bpow radix2 (1 - precision t) <= bpow radix2 (-2))%R by (apply bpow_le; destruct t; cbn; lia). change (bpow radix2 (-2)) with (/ 4)%R in H.
    pose proof (bpow_gt_0 radix2 (1 - precision t)). destruct t; unfold any_length_margin; lra. }
  destruct (Z.le_gt_cases k 1) as [L|L].
  - assert (bpow radix2 k <= bpow radix2 1)%R by (apply bpow_le; lia). change (bpow radix2 1) with 2%R in H. pose proof (bpow_gt_0 radix2 k). nra.
  - assert (bpow radix2 2 <= bpow radix2 k)%R by (apply bpow_le; lia). change (bpow radix2 2) with 4%R in H. lra.
Qed.
