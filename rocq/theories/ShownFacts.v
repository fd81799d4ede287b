(** Properties of the printed number. *)
From Coq Require Import String Reals Lra List.
From Flocq Require Import Core.
From Verif Require Import Machine MachineFacts Chars Spec DvalFacts TableFacts DigitGenFacts PrettifyFacts.
Open Scope Z_scope.

Lemma exp_digits_ok : forall x, 0 <= x <= 999 ->
  Forall digit (exp_digits x) /\ dval (exp_digits x) = x /\
  (length (exp_digits x) = 2%nat \/ length (exp_digits x) = 3%nat /\ hd 0 (exp_digits x) <> 0).
Proof.
  intros x H. unfold exp_digits.
  pose proof (Z.div_mod x 10 ltac:(lia)) as D. pose proof (Z.mod_pos_bound x 10 ltac:(lia)) as M.
  destruct (Z.ltb_spec x 100) as [L|L].
  - assert (0 <= x / 10 < 10) by (split; [apply Z.div_pos; lia|apply Z.div_lt_upper_bound; lia]).
    split; [|split; [|now left]].
    + repeat constructor; lia.
    + unfold dval; cbn [fold_left]. lia.
  - pose proof (Z.div_mod x 100 ltac:(lia)) as D2. pose proof (Z.mod_pos_bound x 100 ltac:(lia)) as M2.
    pose proof (Z.div_mod (x mod 100) 10 ltac:(lia)) as D3. pose proof (Z.mod_pos_bound (x mod 100) 10 ltac:(lia)) as M3.
    assert (1 <= x / 100 < 10) by (split; [apply Z.div_le_lower_bound; lia|apply Z.div_lt_upper_bound; lia]).
    assert (0 <= x mod 100 / 10 < 10) by (split; [apply Z.div_pos; lia|apply Z.div_lt_upper_bound; lia]).
    assert (x mod 100 mod 10 = x mod 10).
    { apply (Z.mod_unique x 10 (x / 100 * 10 + x mod 100 / 10)); lia. }
    split; [|split; [|right; split; [reflexivity|]]].
    + repeat constructor; lia.
    + unfold dval; cbn [fold_left]. lia.
    + cbn [hd]. lia.
Qed.

Lemma ds_nonempty : forall ds : list Z, hd 0 ds <> 0 -> 1 <= zlen ds.
Proof. intros ds Hh. destruct ds as [|d l]; [cbn in Hh; congruence|rewrite zlen_cons; pose proof (zlen_nonneg l); lia]. Qed.

Section Shown.
  Variables (s : signopt) (ds : list Z) (K : Z).
  Hypotheses (Hd : Forall digit ds) (Hh : hd 0 ds <> 0) (Hl : last_nonzero ds)
             (Hn : zlen ds <= 17) (HK : -500 <= K <= 500).

  Let m := shown s ds K.

  Lemma shown_sign : n_sign m = s.
  Proof using Type.
    unfold m, shown. cbv zeta. destruct (16 <? _); [reflexivity|]. destruct (0 <=? K); [reflexivity|].
    destruct (0 <? _); reflexivity.
  Qed.

  (** the cases, one equation each *)
  Lemma shown_cases :
    (16 < Z.max (zlen ds + K) (- K) /\
       exists d ds', ds = d :: ds' /\
       n_int m = [d] /\ n_frac m = (if 1 <? zlen ds then Some ds' else None) /\
       n_exp m = Some {| x_upper := false; x_sign := if zlen ds + K - 1 <? 0 then Minus else NoSign;
                        x_digits := exp_digits (Z.abs (zlen ds + K - 1)) |})
    \/ (Z.max (zlen ds + K) (- K) <= 16 /\ n_exp m = None /\
        ( 0 <= K /\ n_int m = ds ++ repeat 0 (Z.to_nat K) /\ n_frac m = None
        \/ K < 0 < zlen ds + K /\ (exists a b, ds = a ++ b /\ zlen a = zlen ds + K /\ zlen b = - K /\ n_int m = a /\ n_frac m = Some b)
        \/ K < 0 /\ zlen ds + K <= 0 /\ n_int m = [0] /\ n_frac m = Some (repeat 0 (Z.to_nat (- (zlen ds + K))) ++ ds))).
  Proof using Hd Hh Hl Hn HK.
    pose proof (ds_nonempty ds Hh) as N. unfold m, shown. cbv zeta.
    destruct (Z.ltb_spec 16 (Z.max (zlen ds + K) (- K))) as [H|H].
    - left. split; [assumption|]. destruct ds as [|d ds']; [cbn in Hh; congruence|].
      exists d, ds'. repeat split; reflexivity.
    - right. split; [assumption|].
      destruct (Z.leb_spec 0 K) as [H1|H1]; [split; [reflexivity|left; repeat split; assumption]|].
      destruct (Z.ltb_spec 0 (zlen ds + K)) as [H2|H2]; (split; [reflexivity|]).
      + right; left. split; [lia|]. exists (firstn (Z.to_nat (zlen ds + K)) ds), (skipn (Z.to_nat (zlen ds + K)) ds).
        split; [symmetry; apply firstn_skipn|].
        assert (zlen (firstn (Z.to_nat (zlen ds + K)) ds) = zlen ds + K).
        { unfold zlen in *. rewrite firstn_length_le; unfold zlen in *; lia. }
        split; [assumption|].
        split; [|split; reflexivity].
        unfold zlen. rewrite skipn_length. unfold zlen in *. lia.
      + right; right. repeat split; (assumption || lia).
  Qed.

  Lemma shown_wf : well_formed m.
  Proof using Hd Hh Hl Hn HK.
    pose proof (ds_nonempty ds Hh) as N. unfold well_formed, frac_digits.
    destruct shown_cases as [(H & d & ds' & E & H1 & H2 & H3)|(H & H3 & [(H0 & H1 & H2)|[(H0 & a & b & E & La & Lb & H1 & H2)|(H0 & H00 & H1 & H2)]])];
      rewrite H1, H2, H3.
    - pose proof Hd as Hd'. rewrite E in Hd'. inversion_clear Hd' as [|? ? Q1 Q2].
      destruct (exp_digits_ok (Z.abs (zlen ds + K - 1))) as (A & B & C); [lia|].
      repeat split; try (repeat constructor; apply Q1).
      + destruct (1 <? zlen ds); [assumption|constructor].
      + discriminate.
      + exact A.
      + cbn [x_digits]. intros Z0. rewrite Z0 in C. cbn in C. lia.
    - repeat split.
      + apply Forall_app; split; [assumption|apply digits_zeros].
      + constructor.
      + destruct ds; [cbn in N; lia|discriminate].
    - pose proof Hd as Hd'. rewrite E in Hd'. apply Forall_app in Hd' as [Q1 Q2].
      repeat split; try assumption.
      rewrite <- E. destruct ds; [cbn in N; lia|discriminate].
    - repeat split.
      + repeat constructor; lia.
      + apply Forall_app; split; [apply digits_zeros|assumption].
      + discriminate.
  Qed.

  Lemma shown_value : abs_value m = (IZR (dval ds) * pow10 K)%R.
  Proof using Hd Hh Hl Hn HK.
    pose proof (ds_nonempty ds Hh) as N. unfold abs_value, coefficient, scale, exponent_value, frac_digits.
    destruct shown_cases as [(H & d & ds' & E & H1 & H2 & H3)|(H & H3 & [(H0 & H1 & H2)|[(H0 & a & b & E & La & Lb & H1 & H2)|(H0 & H00 & H1 & H2)]])];
      rewrite H1, H2, H3.
    - destruct (exp_digits_ok (Z.abs (zlen ds + K - 1))) as (A & B & C); [lia|].
      cbn [x_sign x_digits]. rewrite B.
      assert (Es : signed (if zlen ds + K - 1 <? 0 then Minus else NoSign) (Z.abs (zlen ds + K - 1)) = zlen ds + K - 1).
      { unfold signed. destruct (Z.ltb_spec (zlen ds + K - 1) 0); cbn [is_minus]; lia. }
      rewrite Es. rewrite E in *. rewrite zlen_cons in *.
      destruct (Z.ltb_spec 1 (1 + zlen ds')) as [L|L].
      + cbn [app]. f_equal. f_equal. unfold zlen. lia.
      + assert (ds' = []) as -> by (destruct ds'; [reflexivity|rewrite zlen_cons in L; pose proof (zlen_nonneg ds'); lia]).
        cbn [app length]. f_equal. f_equal. rewrite zlen_nil. lia.
    - rewrite app_nil_r, dval_app, dval_zeros. rewrite zlen_repeat, Z2Nat.id by lia.
      rewrite Z.add_0_r, mult_IZR. cbn [length]. change (pow10 (0 - Z.of_nat 0)) with 1%R. rewrite Rmult_1_r.
      change (10 ^ K) with (radix10 ^ K). rewrite <- bpow_IZR by assumption. reflexivity.
    - rewrite <- E. f_equal. f_equal. unfold zlen in *; lia.
    - rewrite !app_length, repeat_length. cbn [app].
      rewrite dval_cons, Z.mul_0_l, Z.add_0_l, dval_app, dval_zeros, Z.mul_0_l, Z.add_0_l.
      f_equal. f_equal. unfold zlen in *. lia.
  Qed.

  Lemma shown_length : zlen (written m) <= zlen (sign_text s) +
    (if 16 <? Z.max (zlen ds + K) (- K) then zlen ds + 3 + (if Z.abs (zlen ds + K - 1) <? 100 then 2 else 3)
     else Z.max 18 (zlen ds + 1)).
  Proof using Hd Hh Hl Hn HK.
    pose proof (ds_nonempty ds Hh) as N. rewrite written_body, zlen_app, shown_sign.
    apply Zplus_le_compat_l. unfold body, exponent_text.
    destruct shown_cases as [(H & d & ds' & E & H1 & H2 & H3)|(H & H3 & [(H0 & H1 & H2)|[(H0 & a & b & E & La & Lb & H1 & H2)|(H0 & H00 & H1 & H2)]])];
      rewrite H1, H2, H3.
    - destruct (Z.ltb_spec 16 (Z.max (zlen ds + K) (- K))); [|lia].
      rewrite E in *. rewrite zlen_cons in *. rewrite !zlen_app, zlen_dchars. cbn [x_upper x_sign x_digits].
      rewrite zlen_dchars, exp_digits_len.
      change (zlen (text "e")) with 1. change (zlen [d]) with 1.
      assert (Zs : zlen (sign_text (if 1 + zlen ds' + K - 1 <? 0 then Minus else NoSign)) <= 1) by (destruct (_ <? 0); cbn; lia).
      assert (Zf : zlen match (if 1 <? 1 + zlen ds' then Some ds' else None) with Some f => text "." ++ dchars f | None => [] end <= zlen ds' + 1).
      { destruct (1 <? 1 + zlen ds'); [rewrite zlen_app, zlen_dchars; change (zlen (text ".")) with 1; lia|pose proof (zlen_nonneg ds'); rewrite zlen_nil; lia]. }
      lia.
    - destruct (Z.ltb_spec 16 (Z.max (zlen ds + K) (- K))); [lia|].
      rewrite !zlen_app, zlen_dchars, zlen_app, zlen_repeat, zlen_nil. lia.
    - destruct (Z.ltb_spec 16 (Z.max (zlen ds + K) (- K))); [lia|].
      rewrite !zlen_app, !zlen_dchars, zlen_nil. change (zlen (text ".")) with 1. lia.
    - destruct (Z.ltb_spec 16 (Z.max (zlen ds + K) (- K))); [lia|].
      rewrite !zlen_app, !zlen_dchars, zlen_app, zlen_repeat, zlen_nil. change (zlen (text ".")) with 1. change (zlen [0]) with 1. lia.
  Qed.

  Lemma shown_body_long : (length ds <= length (body m))%nat.
  Proof using Hd Hh Hl Hn HK.
    pose proof (ds_nonempty ds Hh) as N. unfold body.
    destruct shown_cases as [(H & d & ds' & E & H1 & H2 & H3)|(H & H3 & [(H0 & H1 & H2)|[(H0 & a & b & E & La & Lb & H1 & H2)|(H0 & H00 & H1 & H2)]])];
      rewrite H1, H2; rewrite ?app_length, ?dchars_length.
    - rewrite E. rewrite zlen_cons in *. cbn [length].
      destruct (Z.ltb_spec 1 (1 + zlen ds')) as [L|L]; [rewrite app_length, dchars_length; lia|].
      destruct ds'; [cbn; lia|rewrite zlen_cons in L; pose proof (zlen_nonneg ds'); lia].
    - rewrite app_length. lia.
    - rewrite E, !app_length. cbn. lia.
    - rewrite app_length. lia.
  Qed.
End Shown.
