(** Arithmetic facts about the diy_fp operations of the model. *)
From Verif Require Import Machine MachineFacts BitOps Format DiyFp Spec Instances.
Open Scope Z_scope.

Lemma fw_width : forall t, fw (fmt_of t) = width t.
Proof. destruct t; reflexivity. Qed.
Lemma fdig_precision : forall t, fdig (fmt_of t) = precision t.
Proof. destruct t; reflexivity. Qed.

(** * Multiplication *)

Lemma mul_core : forall B a b c d,
  0 < B -> B mod 2 = 0 -> 0 <= a < B -> 0 <= b < B -> 0 <= c < B -> 0 <= d < B ->
  let tmp := b * d / B + (a * d) mod B + (b * c) mod B + B / 2 in
  a * c + a * d / B + b * c / B + tmp / B
  = ((a * B + b) * (c * B + d) + B * B / 2) / (B * B)
  /\ 0 <= tmp < 4 * B
  /\ 0 <= ((a * B + b) * (c * B + d) + B * B / 2) / (B * B) < B * B.
Proof.
  intros B a b c d HB HB2 Ha Hb Hc Hd tmp.
  assert (E2 : B = 2 * (B / 2)) by (pose proof (Z.div_mod B 2); lia).
  set (H := B / 2) in *.
  assert (EH : B * B / 2 = H * B).
  { rewrite E2 at 1. replace (2 * H * B) with (H * B * 2) by ring. now rewrite Z.div_mul. }
  rewrite EH.
  pose proof (Z.div_mod (b * d) B ltac:(lia)) as Dbd.
  pose proof (Z.div_mod (a * d) B ltac:(lia)) as Dad.
  pose proof (Z.div_mod (b * c) B ltac:(lia)) as Dbc.
  pose proof (Z.mod_pos_bound (b * d) B HB) as Mbd.
  pose proof (Z.mod_pos_bound (a * d) B HB) as Mad.
  pose proof (Z.mod_pos_bound (b * c) B HB) as Mbc.
  assert (0 <= b * d / B < B).
  { split; [apply Z.div_pos; nia|apply Z.div_lt_upper_bound; nia]. }
  pose proof (Z.div_mod tmp B ltac:(lia)) as Dt.
  pose proof (Z.mod_pos_bound tmp B HB) as Mt.
  assert (Q : a * c + a * d / B + b * c / B + tmp / B
            = ((a * B + b) * (c * B + d) + H * B) / (B * B)).
  { apply Z.div_unique with (tmp mod B * B + (b * d) mod B); [left; nia|].
    unfold tmp in *. fold H in Dt |- *. nia. }
  split; [exact Q|]. split.
  - unfold tmp; fold H. lia.
  - split; [apply Z.div_pos; nia|apply Z.div_lt_upper_bound; [nia|]].
    assert (X1 : a * B + b <= B * B - 1) by nia.
    assert (X2 : c * B + d <= B * B - 1) by nia.
    assert (X3 : (a * B + b) * (c * B + d) <= (B * B - 1) * (B * B - 1)) by (apply Z.mul_le_mono_nonneg; nia).
    assert (X4 : 2 * (H * B) = B * B) by (rewrite E2 at 2; ring).
    assert (X5 : 2 * B <= B * B) by (apply Z.mul_le_mono_nonneg_r; lia).
    clear - X3 X4 X5 E2 HB. set (X := (a * B + b) * (c * B + d)) in *. clearbody X.
    assert (2 <= B) by lia.
    set (U := B * B) in *. clearbody U. lia.
Qed.

(** rounded product: [x * y / 2^w], halves up *)
Definition mulr (w x y : Z) : Z := (x * y + 2 ^ (w - 1)) / 2 ^ w.

Lemma width_cases : forall t, width t = 32 \/ width t = 64.
Proof. destruct t; auto. Qed.

Lemma diy_mul_f : forall t x y,
  0 <= m_f x < 2 ^ width t -> 0 <= m_f y < 2 ^ width t ->
  m_f (diy_mul (fmt_of t) x y) = mulr (width t) (m_f x) (m_f y)
  /\ 0 <= mulr (width t) (m_f x) (m_f y) < 2 ^ width t.
Proof.
  intros t [x xe] [y ye]. cbn [m_f m_e]. intros Hx Hy.
  unfold diy_mul, mulr. cbn [m_f m_e]. rewrite fw_width.
  assert (exists h, 16 <= h /\ width t = 2 * h) as (h & Hh & Ew).
  { destruct (width_cases t) as [-> | ->]; [exists 16|exists 32]; split; lia. }
  rewrite Ew in *. clear Ew t.
  replace (2 * h / 2) with h by (rewrite Z.mul_comm, Z.div_mul; lia).
  rewrite mask_eq by lia. rewrite !land_mask by lia. rewrite !Z.shiftr_div_pow2 by lia.
  rewrite raised_bit_c_pow by lia.
  assert (EB : 2 ^ (2 * h) = 2 ^ h * 2 ^ h) by (rewrite <- Z.pow_add_r by lia; f_equal; lia).
  assert (EH : 2 ^ (2 * h - 1) = 2 ^ h * 2 ^ h / 2).
  { rewrite <- EB. replace (2 * h) with (2 * h - 1 + 1) at 2 by lia.
    rewrite Z.pow_add_r by lia. now rewrite Z.div_mul. }
  assert (EH1 : 2 ^ (h - 1) = 2 ^ h / 2).
  { replace h with (h - 1 + 1) at 2 by lia. rewrite Z.pow_add_r by lia. now rewrite Z.div_mul. }
  assert (HB : 16 <= 2 ^ h).
  { change 16 with (2 ^ 4). apply Z.pow_le_mono_r; lia. }
  assert (HB2 : 2 ^ h mod 2 = 0).
  { replace h with (h - 1 + 1) by lia. rewrite Z.pow_add_r by lia. apply Z.mod_mul. lia. }
  rewrite EB, EH, EH1 in *. unfold wrap. rewrite EB.
  set (B := 2 ^ h) in *. clearbody B.
  pose proof (Z.div_mod x B ltac:(lia)) as Dx. pose proof (Z.mod_pos_bound x B ltac:(lia)) as Mx.
  pose proof (Z.div_mod y B ltac:(lia)) as Dy. pose proof (Z.mod_pos_bound y B ltac:(lia)) as My.
  assert (Qx : 0 <= x / B < B) by (split; [apply Z.div_pos; lia|apply Z.div_lt_upper_bound; lia]).
  assert (Qy : 0 <= y / B < B) by (split; [apply Z.div_pos; lia|apply Z.div_lt_upper_bound; lia]).
  set (a := x / B) in *. set (b := x mod B) in *. set (c := y / B) in *. set (d := y mod B) in *.
  destruct (mul_core B a b c d) as (Q1 & Q2 & Q3); try assumption; try lia.
  replace (a * B + b) with x in * by lia. replace (c * B + d) with y in * by lia.
  split; [|assumption].
  assert (forall u v, 0 <= u < B -> 0 <= v < B -> (u * v) mod (B * B) = u * v) as MM.
  { intros u v Hu Hv. apply Z.mod_small. nia. }
  rewrite !MM by assumption.
  rewrite (Z.mod_small (b * d / B + (a * d) mod B + (b * c) mod B + B / 2)) by nia.
  rewrite Q1. apply Z.mod_small. assumption.
Qed.

Lemma diy_mul_e : forall t x y,
  - 2 ^ 31 <= m_e x + (m_e y + width t) < 2 ^ 31 ->
  m_e (diy_mul (fmt_of t) x y) = m_e x + m_e y + width t.
Proof.
  intros t x y H. unfold diy_mul; cbn [m_e]. rewrite fw_width, narrow_wrap64 by assumption. lia.
Qed.

(** * Normalization *)

Lemma normalize_loop_ok : forall w fuel f e, 1 <= w -> 0 < f < 2 ^ w ->
  2 ^ (w - 1) <= f * 2 ^ Z.of_nat fuel -> - 2 ^ 31 + Z.of_nat fuel <= e < 2 ^ 31 ->
  exists n, 0 <= n <= Z.of_nat fuel /\ 2 ^ (w - 1) <= f * 2 ^ n < 2 ^ w /\
    normalize_loop w fuel (mk_diy f e) = Ok (mk_diy (f * 2 ^ n) (e - n)).
Proof.
  intros w. induction fuel as [|k IH]; intros f e Hw Hf Hk He.
  - exists 0. rewrite Z.pow_0_r, Z.mul_1_r, Z.sub_0_r in *.
    split; [lia|]. split; [cbn in Hk; lia|]. cbn. unfold highest_bit.
    rewrite nth_bit_testbit, testbit_top by (try replace (w - 1 + 1) with w by lia; lia).
    cbn in Hk. destruct (Z.leb_spec (2 ^ (w - 1)) f); [reflexivity|lia].
  - cbn [normalize_loop]. unfold highest_bit. cbn [m_f m_e].
    rewrite nth_bit_testbit, testbit_top by (try replace (w - 1 + 1) with w by lia; lia).
    destruct (Z.leb_spec (2 ^ (w - 1)) f) as [Hb|Hb].
    + exists 0. rewrite Z.pow_0_r, Z.mul_1_r, Z.sub_0_r. repeat split; lia.
    + assert (E2 : 2 ^ w = 2 * 2 ^ (w - 1)).
      { replace w with (1 + (w - 1)) at 1 by lia. rewrite Z.pow_add_r by lia. lia. }
      rewrite sint_ok by lia. cbn [bind].
      rewrite Z.shiftl_mul_pow2, Z.pow_1_r, wrap_small by lia.
      replace (Z.of_nat (S k)) with (1 + Z.of_nat k) in * by lia.
      rewrite Z.pow_add_r in Hk by lia.
      destruct (IH (f * 2) (e - 1)) as (n & N1 & N2 & N3); try lia.
      exists (n + 1). rewrite Z.pow_add_r by lia. split; [lia|]. split; [lia|].
      rewrite N3. f_equal. f_equal; lia.
Qed.

Lemma normalize_ok : forall t f e, 0 < f < 2 ^ width t -> - 2 ^ 31 + 64 <= e < 2 ^ 31 ->
  exists n, 0 <= n < width t /\ 2 ^ (width t - 1) <= f * 2 ^ n < 2 ^ width t /\
    normalize (fmt_of t) (mk_diy f e) = Ok (mk_diy (f * 2 ^ n) (e - n)).
Proof.
  intros t f e Hf He. unfold normalize. cbn [m_f]. rewrite fw_width.
  destruct (Z.eqb_spec f 0) as [?|_]; [lia|]. cbn [negb assert_ bind].
  assert (Hw : 1 <= width t <= 64) by (destruct t; cbn; lia).
  destruct (normalize_loop_ok (width t) (Z.to_nat (width t)) f e) as (n & N1 & N2 & N3); try lia.
  { rewrite Z2Nat.id by lia. assert (2 ^ width t = 2 * 2 ^ (width t - 1)).
    { replace (width t) with (1 + (width t - 1)) at 1 by lia. rewrite Z.pow_add_r by lia. lia. }
    assert (0 < 2 ^ (width t - 1)) by (apply Z.pow_pos_nonneg; lia). nia. }
  exists n. split; [|split; assumption].
  split; [lia|]. destruct (Z.lt_ge_cases n (width t)); [assumption|].
  assert (2 ^ width t <= 2 ^ n) by (apply Z.pow_le_mono_r; lia). nia.
Qed.

Lemma normalize_loop_id : forall t fuel f e, 2 ^ (width t - 1) <= f < 2 ^ width t ->
  normalize_loop (width t) fuel (mk_diy f e) = Ok (mk_diy f e).
Proof.
  intros t fuel f e H. assert (Hw : 1 <= width t <= 64) by (destruct t; cbn; lia).
  destruct fuel; cbn [normalize_loop]; unfold highest_bit; cbn [m_f];
  rewrite nth_bit_testbit, testbit_top by (try replace (width t - 1 + 1) with (width t) by lia; lia);
  destruct (Z.leb_spec (2 ^ (width t - 1)) f); (reflexivity || lia).
Qed.
