(** The digit generator: which digits it writes. *)
From Coq Require Import Ascii.
From Verif Require Import Machine MachineFacts BitOps StaticPow Format DiyFp Chars Grisu Spec Instances DiyFacts DvalFacts.
Open Scope Z_scope.

Ltac kappa_fin k :=
  exists k; split; [reflexivity|]; split; [lia|];
  let a := eval vm_compute in (10 ^ (Z.of_nat k - 1)) in
  let b := eval vm_compute in (10 ^ Z.of_nat k) in
  change (10 ^ (Z.of_nat k - 1)) with a; change (10 ^ Z.of_nat k) with b; lia.

Lemma calculate_kappa_div_ok : forall n, 0 < n < 2 ^ 32 ->
  exists kappa, calculate_kappa_div n = (kappa, 10 ^ (Z.of_nat kappa - 1)) /\
    (1 <= kappa <= 10)%nat /\ 10 ^ (Z.of_nat kappa - 1) <= n < 10 ^ Z.of_nat kappa.
Proof.
  intros n H. change (2 ^ 32) with 4294967296 in H. unfold calculate_kappa_div.
  change (static_pow 10 1) with 10. change (static_pow 10 2) with 100.
  change (static_pow 10 3) with 1000. change (static_pow 10 4) with 10000.
  change (static_pow 10 5) with 100000. change (static_pow 10 6) with 1000000.
  change (static_pow 10 7) with 10000000. change (static_pow 10 8) with 100000000.
  change (static_pow 10 9) with 1000000000.
  destruct (Z.ltb_spec n 10); [kappa_fin 1%nat|].
  destruct (Z.ltb_spec n 100); [kappa_fin 2%nat|].
  destruct (Z.ltb_spec n 1000); [kappa_fin 3%nat|].
  destruct (Z.ltb_spec n 10000); [kappa_fin 4%nat|].
  destruct (Z.ltb_spec n 100000); [kappa_fin 5%nat|].
  destruct (Z.ltb_spec n 1000000); [kappa_fin 6%nat|].
  destruct (Z.ltb_spec n 10000000); [kappa_fin 7%nat|].
  destruct (Z.ltb_spec n 100000000); [kappa_fin 8%nat|].
  destruct (Z.ltb_spec n 1000000000); [kappa_fin 9%nat|].
  kappa_fin 10%nat.
Qed.

(** [xs] written over the beginning of [rest] *)
Lemma skipn_cons_split : forall (rest : list Z) n, (n < length rest)%nat ->
  exists x, skipn n rest = x :: skipn (S n) rest.
Proof.
  induction rest as [|r rest IH]; intros n H; [cbn in H; lia|].
  destruct n; [exists r; reflexivity|]. cbn [length] in H. cbn [skipn].
  destruct (IH n) as [x E]; [lia|]. exists x. exact E.
Qed.

(** last element of a non-empty digit list is non-zero *)
Definition last_nonzero (ds : list Z) : Prop := last ds 0 <> 0.

Lemma last_app_nonempty : forall a b : list Z, b <> [] -> last (a ++ b) 0 = last b 0.
Proof.
  induction a as [|x a IH]; intros b Hb; [reflexivity|]. cbn [app].
  destruct (a ++ b) eqn:E.
  - apply app_eq_nil in E as [_ ->]. congruence.
  - change (last (x :: z :: l) 0) with (last (z :: l) 0). rewrite <- E. apply IH, Hb.
Qed.

(** the integral part *)
Lemma integral_digits_ok : forall kappa p1, 0 < p1 < 10 ^ Z.of_nat kappa ->
  exists ds rem, (rem <= kappa)%nat /\ length ds = (kappa - rem)%nat /\ (ds <> []) /\
    Forall digit ds /\ dval ds * 10 ^ Z.of_nat rem = p1 /\ last_nonzero ds /\
    forall pre rest base len, base + len = zlen pre -> (length ds <= length rest)%nat ->
      integral_digits kappa p1 (10 ^ (Z.of_nat kappa - 1)) (pre ++ rest) base len
      = Ok (pre ++ dchars ds ++ skipn (length ds) rest, len + zlen ds, rem).
Proof.
  induction kappa as [|kappa IH]; intros p1 H; [cbn in H; lia|].
  replace (Z.of_nat (S kappa)) with (1 + Z.of_nat kappa) in * by lia.
  rewrite Z.pow_add_r in H by lia. change (10 ^ 1) with 10 in H.
  replace (1 + Z.of_nat kappa - 1) with (Z.of_nat kappa) by lia.
  set (div := 10 ^ Z.of_nat kappa) in *.
  assert (Hdiv : 0 < div) by (unfold div; apply pow10_pos; lia).
  pose proof (Z.div_mod p1 div ltac:(lia)) as D. pose proof (Z.mod_pos_bound p1 div Hdiv) as M.
  assert (Hd : 0 <= p1 / div <= 9).
  { split; [apply Z.div_pos; lia|]. assert (p1 / div < 10) by (apply Z.div_lt_upper_bound; lia). lia. }
  destruct (Z.eq_dec (p1 mod div) 0) as [E0|E0].
  - (* all remaining digits are zero *)
    exists [p1 / div], kappa. split; [lia|]. split; [cbn [length]; lia|]. split; [discriminate|].
    split; [repeat constructor; lia|]. rewrite dval_one. fold div.
    split; [lia|]. split; [unfold last_nonzero; cbn [last]; nia|].
    intros pre rest base len Hb Hl. destruct rest as [|x rest]; [cbn in Hl; lia|].
    cbn [integral_digits]. destruct (Z.eqb_spec p1 0); [lia|]. destruct (Z.eqb_spec div 0); [lia|].
    rewrite write_app by lia. cbn [bind]. rewrite E0.
    replace (ch_0 + p1 / div) with (48 + p1 / div) by reflexivity.
    cbn [dchars map length skipn app].
    replace (len + zlen [p1 / div]) with (len + 1) by (rewrite zlen_cons, zlen_nil; lia).
    destruct kappa; cbn [integral_digits]; [reflexivity|]. reflexivity.
  - destruct (IH (p1 mod div)) as (ds & rem & R1 & R2 & R3 & R4 & R5 & R6 & R7); [lia|].
    exists (p1 / div :: ds), rem. split; [lia|]. split; [cbn [length]; lia|]. split; [discriminate|].
    split; [constructor; [split; lia|assumption]|].
    split. { rewrite dval_cons.
      assert (EZ : div = 10 ^ zlen ds * 10 ^ Z.of_nat rem).
      { unfold div, zlen. rewrite <- Z.pow_add_r by lia. f_equal. lia. }
      replace ((p1 / div * 10 ^ zlen ds + dval ds) * 10 ^ Z.of_nat rem)
        with (p1 / div * (10 ^ zlen ds * 10 ^ Z.of_nat rem) + dval ds * 10 ^ Z.of_nat rem) by ring.
      rewrite <- EZ, R5. lia. }
    split. { unfold last_nonzero in *. destruct ds; [congruence|]. exact R6. }
    intros pre rest base len Hb Hl. destruct rest as [|x rest]; [cbn in Hl; lia|].
    cbn [integral_digits]. destruct (Z.eqb_spec p1 0); [lia|]. destruct (Z.eqb_spec div 0); [lia|].
    rewrite write_app by lia. cbn [bind].
    assert (Ediv : kappa <> O -> div / 10 = 10 ^ (Z.of_nat kappa - 1)).
    { intros. unfold div. replace (Z.of_nat kappa) with (Z.of_nat kappa - 1 + 1) at 1 by lia.
      rewrite Z.pow_add_r by lia. now rewrite Z.div_mul. }
    rewrite Ediv.
    2:{ intros ->. cbn in R2. destruct ds; [congruence|]. cbn in R2; lia. }
    specialize (R7 (pre ++ [ch_0 + p1 / div]) rest base (len + 1)).
    rewrite <- !app_assoc in R7. cbn [app] in R7. rewrite R7.
    + cbn [dchars map length skipn app]. do 2 f_equal. f_equal. rewrite zlen_cons. lia.
    + rewrite zlen_app, zlen_cons, zlen_nil. lia.
    + cbn [length] in Hl. lia.
Qed.

(** the fractional part *)
Lemma fraction_digits_ok : forall w sh, 4 <= sh -> sh + 4 <= w ->
  forall fuel p2 delta kappa, 0 <= p2 < 2 ^ sh -> 0 < delta -> 2 ^ sh <= delta * 10 ^ Z.of_nat fuel ->
  0 <= kappa -> kappa + Z.of_nat fuel < 256 ->
  exists ds r, (length ds <= fuel)%nat /\ Forall digit ds /\
    10 ^ zlen ds * p2 = dval ds * 2 ^ sh + r /\ 0 <= r < 2 ^ sh /\ r <= 10 ^ zlen ds * delta /\
    (ds <> [] -> last_nonzero ds /\
       10 ^ (zlen ds - 1) * delta < (10 ^ (zlen ds - 1) * p2) mod 2 ^ sh) /\
    (ds = [] -> p2 <= delta) /\
    forall pre rest base len, base + len = zlen pre -> (length ds <= length rest)%nat ->
      fraction_digits w fuel sh p2 delta true kappa (pre ++ rest) base len
      = Ok (pre ++ dchars ds ++ skipn (length ds) rest, len + zlen ds, kappa + zlen ds).
Proof.
  intros w sh Hsh Hw.
  assert (H16 : 16 * 2 ^ sh <= 2 ^ w).
  { change 16 with (2 ^ 4). rewrite <- Z.pow_add_r by lia. apply Z.pow_le_mono_r; lia. }
  assert (Hpsh : 0 < 2 ^ sh) by (apply Z.pow_pos_nonneg; lia).
  induction fuel as [|fuel IH]; intros p2 delta kappa Hp Hd Hf Hk Hk2.
  - exists [], p2. cbn [length]. split; [lia|]. split; [constructor|].
    rewrite zlen_nil. change (10 ^ 0) with 1. change (10 ^ Z.of_nat 0) with 1 in Hf. rewrite dval_nil.
    repeat split; try lia; try congruence.
    intros. cbn [fraction_digits]. destruct (Z.ltb_spec delta p2); [lia|].
    cbn [dchars map app length skipn]. do 3 f_equal; lia.
  - destruct (Z.lt_ge_cases delta p2) as [C|C].
    2:{ exists [], p2. cbn [length]. split; [lia|]. split; [constructor|].
        rewrite zlen_nil. change (10 ^ 0) with 1. rewrite dval_nil.
        repeat split; try lia; try congruence.
        intros. cbn [fraction_digits]. destruct (Z.ltb_spec delta p2); [lia|].
        cbn [dchars map app length skipn]. do 3 f_equal; lia. }
    set (q := p2 * 10). assert (Hq : 0 <= q < 10 * 2 ^ sh) by (unfold q; lia).
    pose proof (Z.div_mod q (2 ^ sh) ltac:(lia)) as D.
    pose proof (Z.mod_pos_bound q (2 ^ sh) Hpsh) as M.
    assert (Hdig : 0 <= q / 2 ^ sh <= 9).
    { split; [apply Z.div_pos; lia|]. assert (q / 2 ^ sh < 10) by (apply Z.div_lt_upper_bound; lia). lia. }
    replace (Z.of_nat (S fuel)) with (1 + Z.of_nat fuel) in * by lia.
    rewrite Z.pow_add_r in Hf by lia. change (10 ^ 1) with 10 in Hf.
    destruct (IH (q mod 2 ^ sh) (delta * 10) (kappa + 1)) as (ds & r & R1 & R2 & R3 & R4 & R5 & R6 & R6' & R7);
      try lia.
    exists (q / 2 ^ sh :: ds), r. split; [cbn [length]; lia|].
    split; [constructor; [split; lia|assumption]|].
    rewrite zlen_cons, dval_cons.
    rewrite !Z.pow_add_r by (try apply zlen_nonneg; lia). change (10 ^ 1) with 10.
    set (T := 10 ^ zlen ds) in *.
    assert (HT : 0 < T) by (unfold T; apply pow10_pos, zlen_nonneg).
    split. { unfold q in *. nia. }
    split; [assumption|]. split; [lia|].
    split.
    { intros _. replace (1 + zlen ds - 1) with (zlen ds) by lia.
      fold T.
      destruct (list_eq_dec Z.eq_dec ds []) as [Eds|Eds].
      - assert (ET1 : T = 1) by (unfold T; rewrite Eds; reflexivity). rewrite ET1, !Z.mul_1_l. subst ds.
        rewrite Z.mod_small by lia. split; [|assumption].
        unfold last_nonzero. cbn [last]. specialize (R6' eq_refl).
        intros E. rewrite E in D. unfold q in *. lia.
      - destruct (R6 Eds) as (L & R6b). split.
        + unfold last_nonzero in *. destruct ds as [|d ds']; [congruence|]. exact L.
        + set (U := 10 ^ (zlen ds - 1)) in *.
          assert (ET : T = U * 10).
          { unfold T, U. destruct ds as [|d ds']; [congruence|]. rewrite zlen_cons.
            pose proof (zlen_nonneg ds').
            replace (1 + zlen ds') with (1 + zlen ds' - 1 + 1) at 1 by lia.
            rewrite Z.pow_add_r by lia. reflexivity. }
          rewrite Z.mul_mod_idemp_r in R6b by lia.
          rewrite ET. unfold q in R6b.
          replace (U * 10 * p2) with (U * (p2 * 10)) by ring.
          replace (U * 10 * delta) with (U * (delta * 10)) by ring. exact R6b. }
    split; [discriminate|].
    intros pre rest base len Hb Hl. destruct rest as [|x rest]; [cbn in Hl; lia|].
    cbn [fraction_digits]. destruct (Z.ltb_spec delta p2); [|lia].
    fold q. rewrite (wrap_small w q) by lia. rewrite shr_ok by lia. cbn [bind orb].
    rewrite (wrap_small 8) by (change (2 ^ 8) with 256; lia).
    rewrite write_app by lia. cbn [bind]. rewrite raised_bit_ok by lia. cbn [bind fst snd].
    rewrite land_mask by lia. rewrite (wrap_small w) by nia.
    rewrite (wrap_small 8) by (change (2 ^ 8) with 256; lia).
    specialize (R7 (pre ++ [ch_0 + q / 2 ^ sh]) rest base (len + 1)).
    rewrite <- !app_assoc in R7. cbn [app] in R7. rewrite R7.
    + cbn [dchars map length skipn app]. change (code "0"%char) with 48. change ch_0 with 48. okeq.
    + rewrite zlen_app, zlen_cons, zlen_nil. lia.
    + cbn [length] in Hl. lia.
Qed.

(** * The whole digit generator *)

(** [ds] are the decimal digits of [Pm / 2^sh], cut off at the decimal position [j],
    the first position at which what is cut off is at most [delta]. *)
Definition cut (Pm delta sh : Z) (ds : list Z) (j : Z) : Prop :=
  (0 <= j /\ dval ds * 10 ^ j = Pm / 2 ^ sh /\ Pm mod 2 ^ sh <= delta)
  \/ (j < 0 /\ delta < Pm mod 2 ^ sh /\
      exists r, 10 ^ (- j) * Pm = dval ds * 2 ^ sh + r /\ 0 <= r < 2 ^ sh /\
        r <= 10 ^ (- j) * delta /\
        10 ^ (- j - 1) * delta < (10 ^ (- j - 1) * Pm) mod 2 ^ sh).

Lemma digit_gen_ok : forall t Pm Mm E,
  grisu_alpha (fmt_of t) <= E <= grisu_gamma (fmt_of t) ->
  2 ^ (- E) <= Pm < 2 ^ width t -> 0 <= Mm < Pm ->
  exists ds j, Forall digit ds /\ hd 0 ds <> 0 /\ last_nonzero ds /\
    -25 <= j <= 25 /\
    cut Pm (Pm - Mm) (- E) ds j /\
    forall pre rest K, -100000 <= K <= 100000 -> (length ds <= length rest)%nat ->
      digit_gen (fmt_of t) (mk_diy Pm E) (mk_diy Mm E) (pre ++ rest) (zlen pre) K
      = Ok (pre ++ dchars ds ++ skipn (length ds) rest, zlen ds, K + j).
Proof.
  intros t Pm Mm E HE HP HM.
  set (sh := - E) in *. set (w := width t) in *.
  assert (Hsh : 4 <= sh /\ sh + 4 <= w /\ sh <= 35 /\ w <= sh + 32 /\ w <= 64).
  { unfold sh, w. destruct t; cbn in *; lia. }
  destruct Hsh as (S1 & S2 & S3 & S4 & S5).
  assert (Hpsh : 0 < 2 ^ sh) by (apply Z.pow_pos_nonneg; lia).
  set (p1 := Pm / 2 ^ sh). set (p2 := Pm mod 2 ^ sh). set (delta := Pm - Mm).
  pose proof (Z.div_mod Pm (2 ^ sh) ltac:(lia)) as D. fold p1 p2 in D.
  pose proof (Z.mod_pos_bound Pm (2 ^ sh) Hpsh) as M2. fold p2 in M2.
  assert (Hw : 2 ^ w <= 2 ^ sh * 2 ^ 32).
  { rewrite <- Z.pow_add_r by lia. apply Z.pow_le_mono_r; lia. }
  assert (H1 : 0 < p1 < 2 ^ 32).
  { split; [apply Z.div_str_pos; lia|apply Z.div_lt_upper_bound; lia]. }
  assert (Hdl : 0 < delta) by (unfold delta; lia).
  destruct (calculate_kappa_div_ok p1 H1) as (kappa & K1 & K2 & K3).
  destruct (integral_digits_ok kappa p1) as (di & rem & I1 & I2 & I3 & I4 & I5 & I6 & I7); [lia|].
  assert (Hhd : hd 0 di <> 0).
  { destruct di as [|d di]; [congruence|]. cbn [hd]. intros ->.
    rewrite dval_cons, Z.mul_0_l, Z.add_0_l in I5.
    inversion_clear I4 as [|? ? _ I4']. pose proof (dval_bounds di I4') as B.
    assert (EZ : 10 ^ (Z.of_nat kappa - 1) = 10 ^ zlen di * 10 ^ Z.of_nat rem).
    { rewrite <- Z.pow_add_r by (unfold zlen; lia). f_equal. unfold zlen. cbn [length] in I2. lia. }
    assert (0 < 10 ^ Z.of_nat rem) by (apply pow10_pos; lia). nia. }
  assert (Hcommon : forall pre rest K,
    digit_gen (fmt_of t) (mk_diy Pm E) (mk_diy Mm E) (pre ++ rest) (zlen pre) K =
    ('(buf1, len1, kp) <- integral_digits kappa p1 (10 ^ (Z.of_nat kappa - 1)) (pre ++ rest) (zlen pre) 0 ;;
     if p2 <=? delta then K' <- sint (K + Z.of_nat kp) ;; Ok (buf1, len1, K')
     else buf2 <- memset buf1 (zlen pre + len1) ch_0 (Z.of_nat kp) ;;
          '(buf', len', k) <- fraction_digits w (Z.to_nat w) sh p2 delta (0 <? len1 + Z.of_nat kp) 0 buf2 (zlen pre) (len1 + Z.of_nat kp) ;;
          K' <- sint (K - k) ;; Ok (buf', len', K'))).
  { intros pre rest K. unfold digit_gen. cbn [m_e m_f].
    destruct (Z.leb_spec E 0) as [_|?]; [|unfold sh in *; lia]. cbn [assert_ bind].
    unfold diy_sub. cbn [m_e m_f]. rewrite Z.eqb_refl.
    destruct (Z.leb_spec Mm Pm) as [_|?]; [|lia]. cbn [andb assert_ bind m_f].
    rewrite fw_width. fold w sh. rewrite raised_bit_ok by lia. cbn [bind].
    rewrite shr_ok by lia. cbn [bind].
    rewrite land_mask by lia. fold p1 p2. rewrite (wrap_small w (Pm - Mm)) by lia. fold delta.
    rewrite (wrap_small 32 p1) by lia.
    destruct (Z.eqb_spec p1 0) as [?|_]; [lia|]. cbn [negb orb assert_ bind].
    rewrite K1. cbn [fst snd]. reflexivity. }
  destruct (Z.leb_spec p2 delta) as [C|C].
  - (* stop at the integral part *)
    exists di, (Z.of_nat rem). split; [assumption|]. split; [assumption|]. split; [assumption|].
    split; [lia|]. split. { left. split; [lia|]. split; [exact I5|exact C]. }
    intros pre rest K HK Hl. rewrite Hcommon, I7 by lia. cbn [bind].
    rewrite sint_ok by lia. reflexivity.
  - destruct (fraction_digits_ok w sh S1 S2 (Z.to_nat w) p2 delta 0) as (df & r & F1 & F2 & F3 & F4 & F5 & F6 & F6' & F7); try lia.
    { rewrite Z2Nat.id by lia. assert (2 ^ sh <= 10 ^ w).
      { etransitivity; [apply (Z.pow_le_mono_r 2 sh w); lia|]. apply Z.pow_le_mono_l; lia. }
      assert (1 * 10 ^ w <= delta * 10 ^ w) by (apply Z.mul_le_mono_nonneg_r; lia). lia. }
    assert (Hdf : df <> []) by (intros ->; specialize (F6' eq_refl); lia).
    destruct (F6 Hdf) as (L & F6b).
    assert (Hdl1 : 1 <= zlen df). { destruct df; [congruence|]. rewrite zlen_cons. pose proof (zlen_nonneg df). lia. }
    assert (Hk25 : zlen df <= 25).
    { destruct (Z.le_gt_cases (zlen df) 25) as [|G]; [assumption|].
      pose proof (Z.mod_pos_bound (10 ^ (zlen df - 1) * p2) (2 ^ sh) Hpsh).
      assert (2 ^ sh <= 10 ^ (zlen df - 1)).
      { etransitivity; [apply (Z.pow_le_mono_r 2 sh 35); lia|].
        etransitivity; [|apply (Z.pow_le_mono_r 10 25); lia]. vm_compute; congruence. }
      assert (10 ^ (zlen df - 1) * 1 <= 10 ^ (zlen df - 1) * delta) by (apply Z.mul_le_mono_nonneg_l; lia). lia. }
    exists (di ++ repeat 0 rem ++ df), (- zlen df).
    split. { apply Forall_app; split; [assumption|]. apply Forall_app; split; [apply digits_zeros|assumption]. }
    split. { destruct di; [congruence|]. exact Hhd. }
    split. { unfold last_nonzero in *. rewrite last_app_nonempty, last_app_nonempty; [assumption|assumption|].
             intros X. apply app_eq_nil in X. tauto. }
    split; [lia|].
    split.
    { right. split; [lia|]. split; [exact C|]. exists r. rewrite Z.opp_involutive.
      assert (EV : dval (di ++ repeat 0 rem ++ df) = p1 * 10 ^ zlen df + dval df).
      { rewrite !dval_app, dval_zeros, zlen_app, zlen_repeat.
        rewrite Z.pow_add_r by lia. rewrite <- I5. ring. }
      split. { rewrite EV, D. replace (10 ^ zlen df * (2 ^ sh * p1 + p2)) with
          (p1 * 10 ^ zlen df * 2 ^ sh + 10 ^ zlen df * p2) by ring. rewrite F3. ring. }
      split; [assumption|]. split; [assumption|].
      replace ((10 ^ (zlen df - 1) * Pm) mod 2 ^ sh) with ((10 ^ (zlen df - 1) * p2) mod 2 ^ sh); [assumption|].
      rewrite <- (Z.mul_mod_idemp_r _ Pm) by lia. reflexivity. }
    intros pre rest K HK Hl. rewrite !app_length, repeat_length in Hl.
    rewrite Hcommon, I7 by lia. cbn [bind]. rewrite Z.add_0_l.
    unfold memset. rewrite Nat2Z.id.
    (* the zeros *)
    set (rest1 := skipn (length di) rest).
    assert (Hr1 : length rest1 = (length rest - length di)%nat) by apply skipn_length.
    assert (W : write_list (pre ++ dchars di ++ rest1) (zlen pre + zlen di) (repeat ch_0 rem)
                = Ok (pre ++ dchars di ++ repeat ch_0 rem ++ skipn rem rest1)).
    { rewrite <- (firstn_skipn rem rest1) at 1. rewrite !(app_assoc pre).
      apply write_list_app; [now rewrite zlen_app, zlen_dchars|].
      rewrite repeat_length, firstn_length. lia. }
    rewrite W. cbn [bind].
    replace (0 <? zlen di + Z.of_nat rem) with true
      by (symmetry; apply Z.ltb_lt; destruct di; [congruence|rewrite zlen_cons; pose proof (zlen_nonneg di); lia]).
    set (rest2 := skipn rem rest1).
    assert (Hr2 : length rest2 = (length rest - length di - rem)%nat) by (unfold rest2; rewrite skipn_length; lia).
    replace (pre ++ dchars di ++ repeat ch_0 rem ++ rest2)
      with ((pre ++ dchars di ++ repeat ch_0 rem) ++ rest2) by (now rewrite !app_assoc).
    rewrite F7.
    2:{ rewrite !zlen_app, zlen_dchars, zlen_repeat. lia. }
    2:{ lia. }
    cbn [bind]. rewrite Z.add_0_l. rewrite sint_ok by lia. cbn [bind].
    rewrite !dchars_app, dchars_zeros, !zlen_app, zlen_repeat, !app_length, repeat_length.
    unfold rest2, rest1. rewrite !skipn_skipn.
    replace (length df + rem + length di)%nat with (length di + (rem + length df))%nat by lia.
    rewrite <- !app_assoc. change ch_0 with 48. okeq.
Qed.

(** The cut position is the largest one that has a multiple in [Mm, Pm] (as long
    as the interval is shorter than one). *)
Lemma cut_no_multiple : forall Pm delta sh ds j y, 0 <= sh -> 0 <= delta ->
  cut Pm delta sh ds j -> Forall digit ds -> last_nonzero ds ->
  (delta < 2 ^ sh -> 0 <= j ->
     ~ (Pm - delta <= y * 10 ^ (j + 1) * 2 ^ sh <= Pm)) /\
  (j < 0 -> ~ (10 ^ (- j - 1) * (Pm - delta) <= y * 2 ^ sh <= 10 ^ (- j - 1) * Pm)).
Proof.
  intros Pm delta sh ds j y Hsh Hdl HC Hds Hl.
  assert (Hp : 0 < 2 ^ sh) by (apply Z.pow_pos_nonneg; lia).
  split.
  - intros Hd Hj [H1 H2]. destruct HC as [(_ & C2 & C3)|(C & _)]; [|lia].
    pose proof (Z.div_mod Pm (2 ^ sh) ltac:(lia)) as D.
    pose proof (Z.mod_pos_bound Pm (2 ^ sh) Hp) as M.
    set (p1 := Pm / 2 ^ sh) in *. set (z := y * 10 ^ (j + 1)) in *.
    assert (z <= p1). { apply Z.div_le_lower_bound; lia. }
    assert (z <> p1).
    { intros E. rewrite <- C2 in E. unfold z in E. rewrite Z.pow_add_r, Z.pow_1_r in E by lia.
      assert (E' : dval ds = 10 * y).
      { apply Z.mul_reg_r with (10 ^ j); [pose proof (pow10_pos j Hj); lia|]. lia. }
      destruct (exists_last (l := ds)) as (ds0 & d & Eds).
      { intros ->. apply Hl. reflexivity. }
      rewrite Eds in *. unfold last_nonzero in Hl. rewrite last_last in Hl.
      apply Forall_app in Hds as [_ Hd']. inversion_clear Hd' as [|? ? Hd'' _].
      rewrite dval_snoc in E'. unfold digit in Hd''. lia. }
    assert (z * 2 ^ sh <= (p1 - 1) * 2 ^ sh) by (apply Z.mul_le_mono_nonneg_r; lia). lia.
  - intros Hj [H1 H2]. destruct HC as [(C & _)|(_ & _ & r & _ & _ & _ & C5)]; [lia|].
    set (A := 10 ^ (- j - 1)) in *. set (B := A * Pm) in *.
    pose proof (Z.div_mod B (2 ^ sh) ltac:(lia)) as D.
    assert (y <= B / 2 ^ sh) by (apply Z.div_le_lower_bound; lia).
    assert (y * 2 ^ sh <= B / 2 ^ sh * 2 ^ sh) by (apply Z.mul_le_mono_nonneg_r; lia).
    unfold B in *. lia.
Qed.
