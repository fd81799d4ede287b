(** Properties C77, C78: comparison, subtraction and printing of [diy_fp] values. *)
From Coq Require Import Reals Lra Lia ZArith String Ascii List.
From Flocq Require Import Core.
From Verif Require Import Machine MachineFacts BitOps Chars Format DiyFp Print Show Spec Instances
  DiyFacts BoundFacts TableFacts GrisuFacts FtoaFacts RoundFacts DownFacts ArithProps.
Import ListNotations.
Open Scope Z_scope.

(** ** C77 *)
Lemma diy_eqb_spec : forall x y, diy_eqb x y = true <-> x = y.
Proof.
  intros [f e] [g h]. unfold diy_eqb. cbn [m_f m_e]. rewrite Bool.andb_true_iff, !Z.eqb_eq. split; [intros [-> ->]; reflexivity|].
  intros E. injection E as -> ->. auto.
Qed.

Lemma mag_normalized : forall t d, normalized t d -> mag_val radix2 _ (mag radix2 (diy_value d)) = width t + m_e d.
Proof.
  intros t [f e] [L H]. unfold diy_value. cbn [m_f m_e] in *. pose proof (width_facts t). pose proof (pow2_pos (width t - 1) ltac:(lia)).
  rewrite mag_mult_bpow by (intros E; apply eq_IZR in E; lia). f_equal.
  apply mag_unique_pos. replace (width t - 1) with (width t - 1) by lia.
  rewrite !bpow_IZR by lia. change (radix_val radix2) with 2. split; [now apply IZR_le|now apply IZR_lt].
Qed.

(** equality is equality of both components; for normalized values this is equality of the numbers *)
Theorem C77_equality : forall x y,
  (diy_eqb x y = true <-> m_f x = m_f y /\ m_e x = m_e y) /\ diy_neqb x y = negb (diy_eqb x y) /\
  (forall t, normalized t x -> normalized t y -> (diy_eqb x y = true <-> diy_value x = diy_value y)).
Proof.
  intros x y. split; [|split; [reflexivity|]].
  - rewrite diy_eqb_spec. split; [intros ->; auto|]. destruct x, y. cbn. intros [-> ->]. reflexivity.
  - intros t Nx Ny. rewrite diy_eqb_spec. split; [intros ->; reflexivity|]. intros E.
    pose proof (mag_normalized t x Nx) as Mx. pose proof (mag_normalized t y Ny) as My. rewrite E, My in Mx.
    destruct x as [f e], y as [g h]. unfold diy_value in E. cbn [m_f m_e] in *. assert (e = h) by lia. subst h.
    apply Rmult_eq_reg_r in E; [|pose proof (bpow_gt_0 radix2 e); lra]. apply eq_IZR in E. congruence.
Qed.

(** subtraction of values with the same exponent is exact if the result is not negative; anything
    else breaks the documented precondition *)
Theorem C77_subtraction : forall t x y, diy_ok t x -> diy_ok t y ->
  (m_e x = m_e y -> m_f y <= m_f x -> exists z, diy_sub (fmt_of t) x y = Ok z /\ diy_ok t z /\ m_e z = m_e x /\
     diy_value z = (diy_value x - diy_value y)%R) /\
  (m_e x <> m_e y \/ m_f x < m_f y -> diy_sub (fmt_of t) x y = Fault AssertFailed).
Proof.
  intros t [f e] [g h] [H1 H2] [H3 H4]. cbn [m_f m_e] in *. split.
  - intros <- L. unfold diy_sub. cbn [m_f m_e]. rewrite Z.eqb_refl. destruct (Z.leb_spec g f); [|lia]. cbn [andb assert_ bind].
    eexists. split; [reflexivity|]. rewrite fw_width, wrap_small by lia. split; [split; cbn; lia|]. split; [reflexivity|].
    unfold diy_value. cbn [m_f m_e]. rewrite minus_IZR. ring.
  - intros N. unfold diy_sub. cbn [m_f m_e]. destruct (Z.eqb_spec e h), (Z.leb_spec g f); cbn [andb assert_ bind]; try reflexivity. lia.
Qed.

(** increment undoes decrement and the other way round, unless the mantissa is at its end *)
Theorem C77_step_back : forall t d, diy_ok t d ->
  (m_f d < 2 ^ width t - 1 -> 0 < m_f d -> bind (diy_inc (fmt_of t) d) (diy_dec (fmt_of t)) = Ok d) /\
  (1 < m_f d -> bind (diy_dec (fmt_of t) d) (diy_inc (fmt_of t)) = Ok d) /\
  (m_f d = 2 ^ width t - 1 -> exists d', bind (diy_inc (fmt_of t) d) (diy_dec (fmt_of t)) = Ok d' /\
     diy_value d' = (diy_value d - bpow radix2 (m_e d))%R).
Proof.
  intros t [f e] [H1 H2]. cbn [m_f m_e] in *. unfold diy_inc, diy_dec. cbn [m_f m_e]. rewrite fw_width.
  pose proof (width_facts t) as W. split; [|split].
  - intros L P. destruct (Z.ltb_spec f (2 ^ width t - 1)); [|lia]. cbn [bind m_f m_e]. destruct (Z.ltb_spec 1 (f + 1)); [|lia].
    do 2 f_equal. lia.
  - intros L. destruct (Z.ltb_spec 1 f); [|lia]. cbn [bind m_f m_e]. destruct (Z.ltb_spec (f - 1) (2 ^ width t - 1)); [|lia]. do 2 f_equal. lia.
  - intros ->. destruct (Z.ltb_spec (2 ^ width t - 1) (2 ^ width t - 1)); [lia|]. rewrite sint_ok by lia. cbn [bind m_f m_e].
    pose proof (pow2_half (width t) ltac:(lia)) as E2. pose proof (pow2_half (width t - 1) ltac:(lia)) as E3. pose proof (pow2_pos (width t - 1 - 1) ltac:(lia)).
    rewrite Z.shiftr_div_pow2 by lia. change (2 ^ 1) with 2.
    assert (D : (2 ^ width t - 1) / 2 = 2 ^ (width t - 1) - 1) by (symmetry; apply Z.div_unique with 1; lia).
    rewrite D. replace (2 ^ (width t - 1) - 1 + 1) with (2 ^ (width t - 1)) by lia. rewrite wrap_small by lia.
    assert (1 < 2 ^ (width t - 1)) by (apply Z.pow_gt_1; lia).
    destruct (Z.ltb_spec 1 (2 ^ (width t - 1))); [|lia]. eexists. split; [reflexivity|].
    unfold diy_value. cbn [m_f m_e]. rewrite E2, !minus_IZR, mult_IZR, bpow_plus. change (bpow radix2 1) with 2%R. ring.
Qed.

(** ** C78 *)

(** decimal notation of an integer: a minus if it is negative, then its digits without leading zeros *)
Definition integer_text (v : Z) (s : list Z) : Prop :=
  exists ds, s = ((if v <? 0 then text "-" else []) ++ dchars ds)%list /\ Forall digit ds /\ dval ds = Z.abs v /\
    ds <> [] /\ (hd 0 ds = 0 -> ds = [0]).

Lemma dval_snoc : forall l d, dval (l ++ [d]) = 10 * dval l + d.
Proof. intros l d. unfold dval. rewrite fold_left_app. cbn [fold_left]. lia. Qed.

Lemma decimal_digits_ok : forall n v, 0 <= v < 10 ^ Z.of_nat n -> (0 < n)%nat ->
  exists ds, decimal_digits n v = dchars ds /\ Forall digit ds /\ dval ds = v /\ ds <> [] /\ (hd 0 ds = 0 -> ds = [0]).
Proof.
  induction n; intros v Hv Hn; [lia|]. cbn [decimal_digits]. destruct (Z.ltb_spec v 10) as [L|L].
  - exists [v]. split; [reflexivity|]. split; [constructor; [unfold digit; lia|constructor]|]. split; [unfold dval; cbn; lia|].
    split; [discriminate|]. cbn. intros ->. reflexivity.
  - rewrite Nat2Z.inj_succ, Z.pow_succ_r in Hv by lia.
    assert (0 < n)%nat by (destruct n; [cbn in Hv; lia|lia]).
    pose proof (Z.div_mod v 10 ltac:(lia)) as DM. pose proof (Z.mod_pos_bound v 10 ltac:(lia)).
    destruct (IHn (v / 10)) as (ds & E & F & V & NE & HZ); [split; [apply Z.div_pos; lia|apply Z.div_lt_upper_bound; lia]|lia|].
    exists (ds ++ [v mod 10]). split; [|split; [|split; [|split]]].
    + rewrite E. unfold dchars. rewrite map_app. reflexivity.
    + apply Forall_app. split; [exact F|]. constructor; [unfold digit; lia|constructor].
    + rewrite dval_snoc, V. lia.
    + destruct ds; discriminate.
    + intros Z0. exfalso. destruct ds as [|a ds]; [contradiction|]. cbn in Z0. specialize (HZ Z0). rewrite HZ in V. unfold dval in V. cbn in V. lia.
Qed.

Lemma show_int_ok : forall v, - 2 ^ 31 <= v < 2 ^ 31 -> integer_text v (show_int v).
Proof.
  intros v Hv. unfold show_int, integer_text. destruct (Z.ltb_spec v 0) as [L|L].
  - destruct (decimal_digits_ok 10 (- v)) as (ds & E & F & V & R); [cbn; lia|lia|]. exists ds. rewrite E. split; [reflexivity|]. split; [exact F|]. split; [lia|exact R].
  - destruct (decimal_digits_ok 10 v) as (ds & E & F & V & R); [cbn; lia|lia|]. exists ds. rewrite E. split; [reflexivity|]. split; [exact F|]. split; [lia|exact R].
Qed.

Theorem C78_shown : forall t d, 0 <= m_f d < 2 ^ width t -> - 2 ^ 31 <= m_e d < 2 ^ 31 ->
  exists b e, diy_show (fmt_of t) d = (text "(f = " ++ b ++ text ", e = " ++ e ++ text ")")%list /\
    bits_text b /\ Z.of_nat (List.length b) = width t /\ bval (bdigits b) = m_f d /\ integer_text (m_e d) e.
Proof.
  intros t d Hf He. pose proof (width_facts t). exists (print_binary (Z.to_nat (width t)) (m_f d)), (show_int (m_e d)).
  destruct (C53_print_binary (Z.to_nat (width t)) (m_f d)) as (B1 & B2 & B3); [rewrite Z2Nat.id by lia; exact Hf|].
  split; [unfold diy_show; rewrite fw_width; reflexivity|]. split; [exact B1|]. split; [rewrite B2; lia|].
  split; [exact B3|]. now apply show_int_ok.
Qed.

(** concrete cases *)
Example C77_meets : normalized Float (mk_diy (2 ^ 31 + 5) (-7)) /\ normalized Float (mk_diy (2 ^ 31 + 5) (-8)) /\
  diy_eqb (mk_diy (2 ^ 31 + 5) (-7)) (mk_diy (2 ^ 31 + 5) (-8)) = false /\
  (* without normalization the same number can compare unequal *)
  diy_value (mk_diy 2 0) = diy_value (mk_diy 1 1) /\ diy_eqb (mk_diy 2 0) (mk_diy 1 1) = false /\
  diy_sub double (mk_diy 7 3) (mk_diy 5 3) = Ok (mk_diy 2 3) /\ diy_sub double (mk_diy 7 3) (mk_diy 5 4) = Fault AssertFailed.
Proof.
  repeat split; try (cbn; lia). unfold diy_value. cbn [m_f m_e]. change (bpow radix2 1) with 2%R. change (bpow radix2 0) with 1%R. lra.
Qed.

Example C78_at_work : diy_show single (mk_diy 0xA0000001 (-17)) = text "(f = 10100000000000000000000000000001, e = -17)" /\
  diy_show single (mk_diy 1 0) = text "(f = 00000000000000000000000000000001, e = 0)" /\ show_int (- 2 ^ 31) = text "-2147483648".
Proof. repeat split; reflexivity. Qed.
