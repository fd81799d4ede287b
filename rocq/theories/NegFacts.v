(** A sign in front of a text: C48. *)
From Coq Require Import Reals Lra Lia ZArith List String Ascii.
From Flocq Require Import Core.
From Verif Require Import Machine MachineFacts BitOps StaticPow Fraction Format DiyFp KComp Chars Krosh Atof Spec ParseSpec ParseApi Instances
  DiyFacts BoundFacts TableFacts GrisuFacts FtoaFacts RoundFacts DownFacts DvalFacts CmpFacts ArithProps ScanFacts LoopFacts ParseFacts GapFacts KroshNum ShortFacts FracFacts LongFacts ParseProps Refuted LocalFacts LocalProps.
Open Scope Z_scope.

(** * The scanner on a text with one more character in front *)

Lemma read_shift : forall y u p, 0 <= p -> read (y :: u) (p + 1) = read u p.
Proof.
  intros y u p H. unfold read. destruct (Z.ltb_spec (p + 1) 0); [lia|]. destruct (Z.ltb_spec p 0); [lia|].
  replace (Z.to_nat (p + 1)) with (S (Z.to_nat p)) by lia. reflexivity.
Qed.

Lemma extract_loop_shift : forall y u k p, 0 <= p -> extract_loop (y :: u) (p + 1) k = extract_loop u p k.
Proof.
  intros y u. induction k as [|k IH]; intros p H; [reflexivity|]. cbn [extract_loop]. rewrite read_shift by assumption.
  destruct (read u p); [|reflexivity]. cbn [bind]. cbv zeta. destruct (_ && _); [|reflexivity]. now rewrite IH by lia.
Qed.

Lemma extract_shift : forall y u p, 0 <= p -> extract_fraction_digits 4 (y :: u) (p + 1) = extract_fraction_digits 4 u p.
Proof. intros y u p H. unfold extract_fraction_digits. now rewrite extract_loop_shift. Qed.

Lemma payload_shift : forall y u f cp q, 0 <= cp -> nan_payload_end u f cp = Ok q -> nan_payload_end (y :: u) (S f) (cp + 1) = Ok (q + 1).
Proof.
  intros y u f. induction f as [|f IH]; intros cp q H E; [discriminate|]. cbn [nan_payload_end] in *. cbv zeta in *.
  rewrite read_shift by lia. destruct (read u (cp + 1)) as [x|]; [|discriminate]. cbn [bind] in *. destruct (is_nchar x).
  - apply IH in E; [|lia]. exact E.
  - injection E as <-. reflexivity.
Qed.

Lemma payload_after : forall u f cp q, nan_payload_end u f cp = Ok q -> cp < q.
Proof.
  intros u f. induction f as [|f IH]; intros cp q E; [discriminate|]. cbn [nan_payload_end] in E. cbv zeta in E.
  destruct (read u (cp + 1)) as [x|]; [|discriminate]. cbn [bind] in E. destruct (is_nchar x); [apply IH in E; lia|]. injection E as <-. lia.
Qed.

Lemma eat_nan_shift : forall y u p k, 0 <= p -> eat_nan u p = Ok k -> eat_nan (y :: u) (p + 1) = Ok k.
Proof.
  intros y u p k H E. unfold eat_nan in *. rewrite read_shift by assumption. destruct (read u p); [|discriminate]. cbn [bind] in *.
  destruct (_ || _); [|assumption]. rewrite read_shift by lia. destruct (read u (p + 1)); [|discriminate]. cbn [bind] in *.
  destruct (_ || _); [|assumption]. cbv zeta in *. replace (p + 1 + 2) with (p + 2 + 1) by lia. rewrite read_shift by lia.
  destruct (read u (p + 2)); [|discriminate]. cbn [bind] in *. destruct (_ =? ch_lpar); [|assumption].
  destruct (nan_payload_end u (S (List.length u)) (p + 2)) as [q|] eqn:Q; [|discriminate].
  cbn [List.length]. rewrite (payload_shift y u _ (p + 2) q ltac:(lia) Q). cbn [bind] in *. apply payload_after in Q.
  rewrite read_shift by lia. destruct (read u q); [|discriminate]. cbn [bind] in *.
  replace (q + 1 - (p + 1) + 1) with (q - p + 1) by lia. assumption.
Qed.

Lemma match_shift : forall y u w p, 0 <= p -> match_suffix (y :: u) w (p + 1) =
  match match_suffix u w p with Ok (Some q) => Ok (Some (q + 1)) | r => r end.
Proof.
  intros y u. induction w as [|l w IH]; intros p H; [reflexivity|]. cbn [match_suffix]. rewrite read_shift by assumption.
  destruct (read u p); [|reflexivity]. cbn [bind]. destruct (_ =? l); [|reflexivity]. now rewrite IH by lia.
Qed.

Lemma eat_inf_shift : forall y u p, 0 <= p -> eat_inf (y :: u) (p + 1) = eat_inf u p.
Proof.
  intros y u p H. unfold eat_inf. rewrite read_shift by assumption. destruct (read u p); [|reflexivity]. cbn [bind].
  destruct (_ || _); [|reflexivity]. rewrite read_shift by lia. destruct (read u (p + 1)); [|reflexivity]. cbn [bind].
  destruct (_ || _); [|reflexivity]. cbv zeta. replace (p + 1 + 2) with (p + 2 + 1) by lia. rewrite read_shift by lia.
  destruct (read u (p + 2)); [|reflexivity]. cbn [bind]. destruct (_ || _); [|reflexivity]. rewrite match_shift by lia.
  destruct (match_suffix u _ (p + 2 + 1)) as [[q|]|]; cbn [bind]; try reflexivity. f_equal. lia.
Qed.

(** the scanner state behind the additional sign *)
Definition shift (b : bool) (st : pstate) : pstate :=
  {| pd_digits := pd_digits st; pd_dot_set := pd_dot_set st; pd_sign_set := true; pd_frac_calculated := pd_frac_calculated st;
     pd_pow_gain := pd_pow_gain st; pd_zeros := pd_zeros st; pd_fraction_count := pd_fraction_count st; pd_frac := pd_frac st;
     pd_special := pd_special st; pd_sign := b; pd_pos := pd_pos st + 1 |}.

Lemma shift_zero : forall b st, step_zero (shift b st) = shift b (step_zero st).
Proof. intros b st. unfold step_zero, shift. cbn. destruct (_ || _); reflexivity. Qed.

Lemma shift_flush : forall kap b st, flush_zeros kap (shift b st) = shift b (flush_zeros kap st).
Proof. intros kap b st. unfold flush_zeros, shift. cbn. destruct (_ && _); reflexivity. Qed.

Lemma step_zero_keeps : forall st, pd_pos (step_zero st) = pd_pos st /\ pd_sign_set (step_zero st) = pd_sign_set st /\ pd_sign (step_zero st) = pd_sign st.
Proof. intros st. unfold step_zero. destruct (_ || _); repeat split. Qed.

Lemma flush_keeps : forall kap st, pd_sign (flush_zeros kap st) = pd_sign st.
Proof. intros kap st. unfold flush_zeros. destruct (_ && _); reflexivity. Qed.

Section Shift.
Variables (a : list Z) (c : Z) (r : list Z) (y : Z) (b : bool).
Let s := a ++ c :: r.
Hypothesis N : ends_number c.
Hypothesis Words : inert c \/ plain a.

Lemma step_shift : forall kap st x st1 go, (1 <= kap)%nat -> linv a kap st -> pd_pos st <= 2049 -> pd_sign_set st = false ->
  (is_sign x -> pd_pos st <> 0) -> step_char kap s st x = Ok (st1, go) ->
  step_char kap (y :: s) (shift b st) x = Ok (shift b st1, go) /\ pd_sign_set st1 = false /\ pd_sign st1 = pd_sign st.
Proof.
  intros kap st x st1 go Hk Hi Hp Ss Sx E. pose proof Hi as (P & Zz & _). unfold step_char in *.
  destruct (x =? ch_0).
  { injection E as <- <-. rewrite shift_zero. destruct (step_zero_keeps st) as (_ & -> & ->). auto. }
  destruct ((49 <=? x) && (x <=? 57)).
  { unfold step_nonzero in *. rewrite shift_flush. destruct (flush_linv a kap st Hk Hi Hp) as (Fi & Fp & Fs). pose proof (flush_keeps kap st) as Fg.
    set (sf := flush_zeros kap st) in *. clearbody sf. cbv zeta in *. cbn [shift pd_digits pd_zeros pd_pos pd_frac_calculated pd_frac].
    change (len_z (pd_digits sf)) with (zlen (pd_digits sf)) in *. pose proof Fi as (P' & Zz' & D' & Ln' & _).
    destruct (Z.ltb_spec (zlen (pd_digits sf)) (Z.of_nat kap)) as [Lt|Ge].
    - cbn [bind] in *. injection E as <- <-. split; [reflexivity|]. cbn. rewrite Fs. auto.
    - assert (Full : zlen (pd_digits sf) = Z.of_nat kap) by lia. rewrite Full in *.
      replace (Z.of_nat kap + pd_zeros sf - Z.of_nat kap) with (pd_zeros sf) in * by lia. rewrite (wrap_small 64 (pd_zeros sf)) in E |- * by (change (2 ^ 64) with 18446744073709551616; lia).
      replace (pd_pos sf + 1 - pd_zeros sf) with (pd_pos sf - pd_zeros sf + 1) by lia. unfold fraction_decimal_digits in *.
      rewrite extract_shift by lia.
      destruct (if negb (pd_frac_calculated sf) then _ else _) as [fr|]; [|discriminate]. cbn [bind] in *.
      injection E as <- <-. split; [reflexivity|]. cbn. rewrite Fs. auto. }
  destruct (x =? ch_dot).
  { injection E as <- <-. split; [reflexivity|]. cbn. auto. }
  assert (B : pd_pos (shift b st) =? b2z (pd_sign_set (shift b st)) = (pd_pos st =? b2z (pd_sign_set st))).
  { rewrite Ss. cbn [shift pd_pos pd_sign_set b2z]. destruct (Z.eqb_spec (pd_pos st + 1) 1), (Z.eqb_spec (pd_pos st) 0); try reflexivity; lia. }
  rewrite B.
  destruct ((x =? ch_n) || (x =? ch_N)).
  { destruct (pd_pos st =? b2z (pd_sign_set st)); [|injection E as <- <-; auto].
    destruct (eat_nan s (pd_pos st + 1)) as [k|] eqn:En; [|discriminate]. cbn [bind] in E. cbv zeta in E.
    cbn [shift pd_pos]. rewrite (eat_nan_shift y s (pd_pos st + 1) k ltac:(lia) En). cbn [bind]. cbv zeta. injection E as <- <-.
    destruct (negb (k =? 0)); (split; [|cbn; auto]); unfold shift, set_special, set_pos; cbn; do 3 f_equal; lia. }
  destruct ((x =? ch_i) || (x =? ch_I)).
  { destruct (pd_pos st =? b2z (pd_sign_set st)); [|injection E as <- <-; auto].
    cbn [shift pd_pos]. rewrite eat_inf_shift by lia.
    destruct (eat_inf s (pd_pos st + 1)) as [k|] eqn:En; [|discriminate]. cbn [bind] in *. cbv zeta in *. injection E as <- <-.
    destruct (negb (k =? 0)); (split; [|cbn; auto]); unfold shift, set_special, set_pos; cbn; do 3 f_equal; lia. }
  destruct ((x =? ch_minus) || (x =? ch_plus)) eqn:Es; [|injection E as <- <-; auto].
  assert (is_sign x).
  { apply orb_true_iff in Es as [Es|Es]; apply Z.eqb_eq in Es; [now left|now right]. }
  specialize (Sx H). destruct (Z.eqb_spec (pd_pos st) 0); [contradiction|]. injection E as <- <-.
  cbn [shift pd_pos]. destruct (Z.eqb_spec (pd_pos st + 1) 0); [lia|]. auto.
Qed.

Lemma loop_shift : forall kap f1 f2 st, (1 <= kap)%nat -> linv a kap st -> zlen a <= 2048 -> pd_sign_set st = false ->
  (forall x, read a 0 = Ok x -> ~ is_sign x) -> zlen a - pd_pos st < Z.of_nat f1 -> zlen a - pd_pos st < Z.of_nat f2 ->
  exists st', parse_loop kap s f1 st = Ok st' /\ parse_loop kap (y :: s) f2 (shift b st) = Ok (shift b st') /\ pd_sign st' = pd_sign st /\
    pd_pos st + 1 <= pd_pos st'.
Proof.
  intros kap. induction f1 as [|f1 IH]; intros f2 st Hk Hi Hm Ss Fs H1 H2; pose proof Hi as (P & _); [lia|].
  destruct f2 as [|f2]; [lia|]. cbn [parse_loop].
  assert (R : forall x, read s (pd_pos st) = Ok x -> read (y :: s) (pd_pos (shift b st)) = Ok x).
  { intros x Hx. cbn [shift pd_pos]. now rewrite read_shift by lia. }
  destruct (Z.eq_dec (pd_pos st) (zlen a)) as [Em|Nm].
  - assert (R0 : read s (pd_pos st) = Ok c) by (rewrite Em; unfold s; now apply read_app).
    assert (Wd : inert c /\ inert c \/ plain a) by (destruct Words; auto).
    destruct (stop_same s s a c c r r eq_refl eq_refl (ends_breaks _ N) (ends_breaks _ N) Wd kap st Hi Em) as [E _].
    destruct (step_shift kap st c st true Hk Hi ltac:(lia) Ss) as (E' & _ & _); [|exact E|].
    { intros Sc. destruct Words as [(_ & _ & _ & _ & ? & ? & _)|Pl]; [destruct Sc; contradiction|].
      destruct Pl as [(x & u & -> & _)|(z & x & u & -> & _)]; rewrite Em, zlen_cons; [pose proof (zlen_nonneg u)|pose proof (zlen_nonneg (x :: u))]; lia. }
    rewrite R0, (R c R0). cbn [bind]. rewrite E, E'. cbn [bind orb]. cbv zeta. cbn [orb]. eexists. split; [reflexivity|].
    split; [|split; [reflexivity|cbn; lia]]. unfold shift, set_pos. cbn. reflexivity.
  - assert (L : pd_pos st < zlen a) by lia.
    destruct (read_in a (pd_pos st) ltac:(lia)) as (x & Rx).
    assert (R0 : read s (pd_pos st) = Ok x) by (unfold s; rewrite read_app1 by lia; exact Rx).
    assert (Wd : inert c /\ inert c \/ plain a) by (destruct Words; auto).
    destruct (step_same s s a c c r r eq_refl eq_refl (ends_breaks _ N) (ends_breaks _ N) Wd kap st x Hk Hi L ltac:(lia) Rx) as ([st1 go] & E & _ & A1 & A2). cbn [fst snd] in *.
    destruct (step_shift kap st x st1 go Hk Hi ltac:(lia) Ss) as (E' & S1 & S2); [|exact E|].
    { intros Sx Z0. rewrite Z0 in Rx. exact (Fs x Rx Sx). }
    rewrite R0, (R x R0). cbn [bind]. rewrite E, E'. cbn [bind]. cbv zeta.
    assert (Adv : pd_pos st <= pd_pos st1).
    { destruct go; [|destruct (A2 eq_refl) as [_ ->]; lia].
      clear - E P Hi Hk Hm Rx L N Words. unfold step_char in E.
      destruct (x =? ch_0); [discriminate|]. destruct (_ && _); [destruct (step_nonzero kap s x st); discriminate|].
      destruct (x =? ch_dot); [injection E as <- _; cbn; lia|].
      destruct ((x =? ch_n) || (x =? ch_N)) eqn:En.
      { destruct (pd_pos st =? b2z (pd_sign_set st)) eqn:Eb; [|injection E as <-; lia].
        destruct Words as [I|Pl]; [|destruct (plain_no_words s s a c c r r eq_refl eq_refl (or_intror Pl) kap st x Pl Hi L Rx Eb); congruence].
        destruct (eat_nan_same s s a c c r r eq_refl eq_refl I I (pd_pos st + 1) ltac:(lia)) as (k & Ek & _ & K). rewrite Ek in E.
        cbn [bind] in E. cbv zeta in E. injection E as <-. destruct (negb _); cbn; lia. }
      destruct ((x =? ch_i) || (x =? ch_I)) eqn:Ei.
      { destruct (pd_pos st =? b2z (pd_sign_set st)) eqn:Eb; [|injection E as <-; lia].
        destruct Words as [I|Pl]; [|destruct (plain_no_words s s a c c r r eq_refl eq_refl (or_intror Pl) kap st x Pl Hi L Rx Eb); congruence].
        destruct (eat_inf_same s s a c c r r eq_refl eq_refl I I (pd_pos st + 1) ltac:(lia)) as (k & Ek & _ & K). rewrite Ek in E.
        cbn [bind] in E. cbv zeta in E. injection E as <-. destruct (negb _); cbn; lia. }
      destruct ((x =? ch_minus) || (x =? ch_plus)); [|injection E as <-; lia]. destruct (pd_pos st =? 0); [discriminate|injection E as <-; lia]. }
    destruct go; cbn [orb].
    + eexists. split; [reflexivity|]. split; [unfold shift, set_pos; cbn; reflexivity|]. cbn. split; [assumption|lia].
    + destruct (A2 eq_refl) as [A3 A4]. unfold maximum_offset. cbn [shift pd_pos].
      destruct (Z.ltb_spec 2048 (pd_pos st1)); [lia|]. destruct (Z.ltb_spec 2048 (pd_pos st1 + 1)); [lia|].
      destruct (IH f2 (set_pos (pd_pos st1 + 1) st1)) as (st' & I1 & I2 & I3 & I4); try assumption.
      * cbn [set_pos pd_pos]. lia.
      * cbn [set_pos pd_pos]. lia.
      * exists st'. split; [exact I1|]. split; [exact I2|]. cbn [set_pos pd_pos pd_sign] in *. split; [congruence|lia].
Qed.

Lemma digits_shift : forall t, zlen a <= 2048 -> (forall x, read a 0 = Ok x -> ~ is_sign x) ->
  (y = 45 /\ b = false \/ y = 43 /\ b = true) ->
  exists dp, parse_digits (fmt_of t) s = Ok dp /\ dp_sign dp = true /\
    parse_digits (fmt_of t) (y :: s) = Ok {| dp_value := dp_value dp; dp_K := dp_K dp; dp_str_end := dp_str_end dp + 1; dp_frac := dp_frac dp;
      dp_special := dp_special dp; dp_sign := b |}.
Proof.
  intros t Hm Fs Hy. destruct (kap_facts t) as (K1 & _). unfold parse_digits.
  destruct (loop_shift (decimal_q (fmt_of t)) parse_fuel (Z.to_nat 2050) pstate_init) as (st' & L1 & L2 & L3 & L4); try assumption; try reflexivity.
  - unfold linv, pstate_init. cbn [pd_pos pd_zeros pd_digits pd_frac pd_sign_set pd_special].
    pose proof (zlen_nonneg a). rewrite zlen_nil. repeat (split; [first [lia|constructor|congruence]|]). reflexivity.
  - unfold parse_fuel, maximum_offset. cbn [pstate_init pd_pos]. lia.
  - cbn [pstate_init pd_pos]. lia.
  - assert (E : parse_loop (decimal_q (fmt_of t)) (y :: s) parse_fuel pstate_init = Ok (shift b st')).
    { rewrite <- L2. assert (parse_fuel = S (Z.to_nat 2050)) as -> by (unfold parse_fuel, maximum_offset; lia).
      destruct Hy as [[-> ->]|[-> ->]]; reflexivity. }
    rewrite L1, E. cbn [bind].
    destruct (parse_digits_same s s a c c r r eq_refl eq_refl (ends_breaks _ N) (ends_breaks _ N)) with (t := t) as (dp & E1 & _ & _); [destruct Words; auto|].
    unfold parse_digits in E1. rewrite L1 in E1. cbn [bind] in E1. cbn [shift pd_digits pd_pow_gain pd_fraction_count pd_pos pd_frac pd_special pd_sign].
    destruct (weighted_sum _ _ (rev (pd_digits st')) 0 0) as [v|]; [|discriminate]. cbn [bind].
    eexists. split; [reflexivity|]. cbn [dp_sign dp_value dp_K dp_str_end dp_frac dp_special]. split; [exact L3|]. do 2 f_equal. lia.
Qed.
End Shift.

(** * Values *)

Lemma neg_bits_opposite : forall t v, pattern t v -> neg_bits (fmt_of t) v = opposite t v.
Proof.
  intros t v Hv. unfold pattern in Hv. pose proof (width_facts t). pose proof (pow2_half (width t) ltac:(lia)).
  pose proof (pow2_pos (width t - 1) ltac:(lia)). unfold opposite.
  destruct (Z.ltb_spec v (2 ^ (width t - 1))) as [L|G]; [apply neg_bits_small; lia|].
  assert (E : v = neg_bits (fmt_of t) (v - 2 ^ (width t - 1))) by (rewrite neg_bits_small by lia; lia).
  rewrite E at 1. unfold neg_bits. rewrite Z.lxor_assoc, Z.lxor_nilpotent, Z.lxor_0_r. reflexivity.
Qed.

Lemma downsample_pattern : forall t f e, 2 ^ (width t - 1) <= f < 2 ^ width t ->
  exists r, downsample (fmt_of t) (mk_diy f e) = Ok r /\ pattern t (ds_value r).
Proof.
  intros t f e Hf. pose proof (width_facts t) as W. unfold pattern.
  pose proof (pow2_pos (width t) ltac:(lia)). pose proof (pow2_pos (precision t - 1) ltac:(lia)) as PP.
  destruct (Z.le_gt_cases (max_exp t) e) as [H1|H1].
  - unfold downsample, is_normalized. cbn [m_f m_e].
    pose proof (pow2_pos (width t - 1) ltac:(lia)) as PW.
    destruct (Z.eqb_spec f 0) as [?|_]; [lia|]. cbn [negb assert_ bind].
    unfold msb_value. rewrite fw_width, raised_bit_c_pow, land_single, negb_involutive by lia.
    rewrite testbit_top by (replace (width t - 1 + 1) with (width t) by lia; lia).
    destruct (Z.leb_spec (2 ^ (width t - 1)) f); [|lia]. cbn [assert_ bind].
    rewrite fmaxe_eq. cbv zeta. destruct (Z.leb_spec (max_exp t) e); [|lia]. eexists. split; [reflexivity|].
    cbn [ds_value]. destruct t; vm_compute; intuition congruence.
  - destruct (Z.le_gt_cases (min_exp t + 1) (e + width t)) as [H2|H2].
    + rewrite downsample_eval by lia. eexists. split; [reflexivity|]. cbn [ds_value].
      assert (EW : 2 ^ width t = 2 ^ (width t - precision t + 1) * 2 ^ (precision t - 1))
        by (rewrite <- Z.pow_add_r by lia; f_equal; lia).
      pose proof (pow2_pos (width t - precision t + 1) ltac:(lia)) as PQ.
      rewrite EW. rewrite Z.mul_mod_distr_r by lia.
      pose proof (Z.mod_pos_bound (down_field t e) _ PQ). pose proof (Z.mod_pos_bound (half_even f (down_shift t e)) _ PP).
      set (q := down_field t e mod _) in *. set (h := half_even _ _ mod _) in *. set (A := 2 ^ (width t - precision t + 1)) in *.
      set (B := 2 ^ (precision t - 1)) in *. clearbody q h A B. clear - H0 H3 PP PQ. nia.
    + unfold downsample, is_normalized. cbn [m_f m_e].
      pose proof (pow2_pos (width t - 1) ltac:(lia)) as PW.
      destruct (Z.eqb_spec f 0) as [?|_]; [lia|]. cbn [negb assert_ bind].
      unfold msb_value. rewrite fw_width, raised_bit_c_pow, land_single, negb_involutive by lia.
      rewrite testbit_top by (replace (width t - 1 + 1) with (width t) by lia; lia).
      destruct (Z.leb_spec (2 ^ (width t - 1)) f); [|lia]. cbn [assert_ bind].
      rewrite fmine_eq, fmaxe_eq, fdig_precision. cbv zeta. destruct (Z.leb_spec (max_exp t) e); [lia|].
      destruct (Z.ltb_spec (e + width t) (min_exp t + 1)); [|lia]. eexists. split; [reflexivity|]. cbn [ds_value]. lia.
Qed.

(** the last steps of the conversion, for both signs *)
Lemma finish_signs : forall t se g e, 0 < g < 2 ^ width t -> -10000 <= e <= 10000 ->
  exists v st acc, pattern t v /\ forall neg k, kr_finish (fmt_of t) neg (se + k) (mk_diy g e)
    = Ok {| kr_value := if neg then opposite t v else v; kr_str_end := se + k; kr_status := st; kr_is_accurate := acc |}.
Proof.
  intros t se g e Hg He. unfold kr_finish.
  destruct (normalize_ok t g e Hg) as (n & N1 & N2 & N3); [lia|]. rewrite N3. cbn [bind].
  destruct (downsample_pattern t _ (e - n) N2) as (r & -> & P). cbn [bind].
  exists (ds_value r), (ds_status r), (ds_is_accurate r). split; [exact P|]. intros neg k. unfold apply_sign. rewrite negb_involutive.
  destruct neg; [rewrite neg_bits_opposite by exact P|]; reflexivity.
Qed.

Lemma kr_scale_any : forall t K f e, 2 ^ (width t - 1) <= f < 2 ^ width t -> -100 <= e <= 100 -> - table_max t <= K <= table_max t ->
  exists q x, (forall neg se, kr_scale (fmt_of t) neg se K (mk_diy f e) = kr_finish (fmt_of t) neg se (mk_diy q x)) /\
    2 ^ (width t - 2) <= q < 2 ^ width t /\ -10000 <= x <= 10000.
Proof.
  intros t K f e Hf He HK. pose proof (width_facts t) as W. unfold kr_scale.
  assert (EL : fpow_lo (fmt_of t) = - table_max t /\ fpow_hi (fmt_of t) = table_max t) by (destruct t; auto).
  destruct EL as [-> ->].
  pose proof (pow2_half (width t - 1) ltac:(lia)) as E2. replace (width t - 1 - 1) with (width t - 2) in E2 by lia.
  pose proof (pow2_pos (width t - 2) ltac:(lia)).
  destruct (Z.eqb_spec K 0) as [->|NK].
  - exists f, e. split; [reflexivity|]. split; lia.
  - destruct (Z.leb_spec (- table_max t) K); [|lia]. destruct (Z.leb_spec K (table_max t)); [|lia].
    destruct (cached_power_ok t K HK) as (cf & ce & C1 & C2 & C3 & C4 & C5). rewrite C1. cbn [bind].
    exists (mulr (width t) f cf), (e + ce + width t).
    destruct (diy_mul_f t (mk_diy f e) (mk_diy cf ce)) as (M1 & _); cbn [m_f]; [lia|lia|].
    pose proof (diy_mul_e t (mk_diy f e) (mk_diy cf ce)) as M2. cbn [m_e m_f] in M1, M2. specialize (M2 ltac:(lia)).
    split.
    { intros neg se. f_equal. destruct (diy_mul (fmt_of t) _ _) as [a b]. cbn [m_f m_e] in *. congruence. }
    destruct (scaled_product t f e K cf ce 0 Hf C2 C4 C5) as (Q1 & _).
    split; lia.
Qed.

Lemma scale_signs : forall t se K f e, 2 ^ (width t - 1) <= f < 2 ^ width t -> -100 <= e <= 100 ->
  exists v v' st acc, pattern t v /\ (v' = opposite t v \/ v' = v /\ st <> success) /\
   forall neg k, kr_scale (fmt_of t) neg (se + k) K (mk_diy f e)
    = Ok {| kr_value := if neg then v' else v; kr_str_end := se + k; kr_status := st; kr_is_accurate := acc |}.
Proof.
  intros t se K f e Hf He. pose proof (width_facts t) as W.
  assert (EL : fpow_lo (fmt_of t) = - table_max t /\ fpow_hi (fmt_of t) = table_max t) by (destruct t; auto).
  assert (T0 : 0 <= table_max t) by (destruct t; cbn; lia).
  destruct (Z.le_gt_cases (- table_max t) K) as [H1|H1]; [destruct (Z.le_gt_cases K (table_max t)) as [H2|H2]|].
  - destruct (kr_scale_any t K f e Hf He ltac:(lia)) as (q & x & G & S2 & S3).
    pose proof (pow2_pos (width t - 2) ltac:(lia)).
    destruct (finish_signs t se q x) as (v & st & acc & P & F); [lia|lia|].
    exists v, (opposite t v), st, acc. split; [exact P|]. split; [now left|]. intros neg k. rewrite G. apply F.
  - exists (huge_value (fmt_of t)), (huge_value (fmt_of t)), overflow, true. split; [destruct t; split; vm_compute; congruence|].
    split; [right; split; [reflexivity|discriminate]|]. intros neg k. unfold kr_scale. destruct EL as [-> ->].
    destruct (Z.eqb_spec K 0); [lia|]. destruct (Z.leb_spec (- table_max t) K); [|lia].
    destruct (Z.leb_spec K (table_max t)); [lia|]. destruct neg; reflexivity.
  - exists 0, 0, underflow, true. split; [destruct t; split; vm_compute; congruence|].
    split; [right; split; [reflexivity|discriminate]|]. intros neg k. unfold kr_scale. destruct EL as [-> ->].
    destruct (Z.eqb_spec K 0); [lia|]. destruct (Z.leb_spec (- table_max t) K); [lia|]. destruct neg; reflexivity.
Qed.
