(** C104: the width of std::size_t does not matter. *)
From Verif Require Import Machine MachineFacts BitOps StaticPow Fraction Format DiyFp KComp Chars Grisu Prettify Ftoa Krosh Atof Platform Spec Api Instances ReadStepsFacts Tight PrintProps.
Open Scope Z_scope.

Section OnePlatform.
Variable sz : Z.
Hypothesis SZ : 32 <= sz <= 64.

Lemma pow_split : forall a b, 0 <= a <= b -> 2 ^ b = 2 ^ (b - a) * 2 ^ a.
Proof. intros a b H. rewrite <- Z.pow_add_r by lia. f_equal. lia. Qed.
Lemma wrap_wrap : forall a b x, 0 <= a <= b -> wrap a (wrap b x) = wrap a x.
Proof.
  intros a b x H. unfold wrap. rewrite (pow_split a b H). symmetry. apply Znumtheory.Zmod_div_mod; [apply Z.pow_pos_nonneg; lia|rewrite <- pow_split by lia; apply Z.pow_pos_nonneg; lia|]. apply Z.divide_factor_r.
Qed.
Lemma narrow_wrap : forall w x, 32 <= w -> narrow_int (wrap w x) = narrow_int x.
Proof.
  intros w x H. unfold narrow_int. rewrite <- (Z.add_mod_idemp_l (wrap w x)), <- (Z.add_mod_idemp_l x) by lia. change (wrap w x mod 2 ^ 32) with (wrap 32 (wrap w x)). rewrite wrap_wrap by lia. reflexivity.
Qed.
Lemma wrap_minus : forall x y, wrap 32 (x - wrap sz y) = wrap 32 (x - y).
Proof.
  intros x y. pose proof (wrap_wrap 32 sz y ltac:(lia)) as W. unfold wrap at 1 3. rewrite Zminus_mod, (Zminus_mod x y).
  change (wrap sz y mod 2 ^ 32) with (wrap 32 (wrap sz y)). rewrite W. reflexivity.
Qed.
Lemma big : 2 ^ 32 <= 2 ^ sz.
Proof. apply Z.pow_le_mono_r; lia. Qed.
Lemma small : forall x, 0 <= x < 2 ^ 32 -> wrap sz x = wrap 64 x.
Proof. intros x H. pose proof big. rewrite !wrap_small by lia. reflexivity. Qed.
Lemma negative : forall x, - 2 ^ 31 <= x < 0 -> 2 ^ 31 <= wrap sz x.
Proof. intros x H. pose proof big. unfold wrap. rewrite <- (Z.mod_add x 1) by lia. rewrite Z.mod_small; lia. Qed.
Lemma negative_64 : forall x, - 2 ^ 31 <= x < 0 -> 2 ^ 31 <= wrap 64 x.
Proof. intros x H. unfold wrap. rewrite <- (Z.mod_add x 1) by lia. rewrite Z.mod_small; lia. Qed.

(** ** tables *)
Lemma sequence_length : forall b n, length (pow_sequencer_sequence b n) = S n.
Proof. intros b. induction n as [|n IH]; [reflexivity|]. cbn [pow_sequencer_sequence]. rewrite app_length, IH. cbn. lia. Qed.
Lemma read_tab_over : forall l i, Z.of_nat (length l) <= i -> read_tab l i = Fault TableOverrun.
Proof. intros l i H. unfold read_tab, read. destruct (i <? 0); [reflexivity|]. assert (nth_error l (Z.to_nat i) = None) as -> by (apply nth_error_None; lia). reflexivity. Qed.
Lemma seq_pow_same : forall b n p, Z.of_nat n < 1000 -> - 2 ^ 31 <= p < 2 ^ 31 -> seq_pow_on sz b n p = seq_pow b n p.
Proof.
  intros b n p N P. unfold seq_pow_on, seq_pow. destruct (Z.lt_ge_cases p 0) as [G|G]; [|rewrite small by lia; reflexivity].
  pose proof (negative p ltac:(lia)). pose proof (negative_64 p ltac:(lia)). rewrite !read_tab_over; [reflexivity|rewrite sequence_length; lia..].
Qed.
Lemma weighted_sum_same : forall w n l p acc, Z.of_nat n < 1000 -> 0 <= p -> p + Z.of_nat (length l) < 2 ^ 31 -> weighted_sum_on sz w n l p acc = weighted_sum w n l p acc.
Proof.
  intros w n. induction l as [|d l IH]; intros p acc N P L; cbn [weighted_sum_on weighted_sum length] in *; [reflexivity|]. rewrite seq_pow_same by lia.
  destruct (seq_pow 10 n p); cbn [bind]; [|reflexivity]. apply IH; lia.
Qed.
Lemma extract_loop_length : forall s k p l, extract_loop s p k = Ok l -> length l = k.
Proof.
  intros s. induction k as [|k IH]; intros p l H; cbn [extract_loop] in H; [injection H as <-; reflexivity|]. inv H. cbv zeta in H. destruct (_ && _).
  - inv H. injection H as <-. cbn [length]. f_equal. eapply IH. eassumption.
  - injection H as <-. exact (repeat_length 0 (S k)).
Qed.
Lemma extract_same : forall k s p, Z.of_nat k < 1000 -> extract_fraction_digits_on sz k s p = extract_fraction_digits k s p.
Proof.
  intros k s p K. unfold extract_fraction_digits_on, extract_fraction_digits. destruct (extract_loop s p k) as [l|] eqn:E; cbn [bind]; [|reflexivity].
  apply weighted_sum_same; [exact K|lia|]. rewrite rev_length, (extract_loop_length _ _ _ _ E). lia.
Qed.

(** ** the arithmetic *)
Lemma diy_mul_same : forall T x y, diy_mul_on sz T x y = diy_mul T x y.
Proof. intros. unfold diy_mul_on, diy_mul. cbv zeta. rewrite !narrow_wrap by lia. reflexivity. Qed.
Lemma downsample_same : forall t d, downsample_on sz (fmt_of t) d = downsample (fmt_of t) d.
Proof.
  intros t d. unfold downsample_on, downsample. cbv zeta.
  destruct (assert_ (negb (m_f d =? 0))); cbn [bind]; [|reflexivity]. destruct (is_normalized (fmt_of t) d); cbn [bind]; [|reflexivity]. destruct (assert_ a0); cbn [bind]; [|reflexivity].
  destruct (Z.leb_spec (fmaxe (fmt_of t)) (m_e d)) as [|G1]; [reflexivity|]. destruct (Z.ltb_spec (m_e d + fw (fmt_of t)) (fmine (fmt_of t) - (fdig (fmt_of t) - 1))) as [|G2]; [reflexivity|].
  destruct (assert_ _); cbn [bind]; [|reflexivity]. rewrite small; [reflexivity|]. unfold positive_part, b2z. destruct (_ <? _); destruct t; cbn [fmt_of single double fmaxe fmine fdig fw] in *; lia.
Qed.
Lemma normalize_e : forall w n d r, normalize_loop w n d = Ok r -> m_e r <= m_e d.
Proof.
  intros w. induction n as [|n IH]; intros d r H; cbn [normalize_loop] in H; destruct (highest_bit w (m_f d)); try (injection H as <-; lia); [discriminate|].
  inv H. apply IH in H. cbn [m_e] in H. unfold sint in E. destruct (_ && _); [|discriminate]. injection E as <-. lia.
Qed.
Lemma round_mantissa_same : forall T w f, m_e w <= 0 -> round_mantissa_on sz T w f = round_mantissa T w f.
Proof.
  intros T w f H. unfold round_mantissa_on, round_mantissa. destruct (negb (f =? 0)); [|reflexivity]. destruct (assert_ _) eqn:E; cbn [bind]; [|reflexivity]. cbv zeta.
  unfold assert_ in E. destruct (Z.ltb_spec (- Z.of_nat fraction_binary_digits) (m_e w)) as [G|]; [|discriminate]. rewrite small; [reflexivity|]. unfold fraction_binary_digits in *. lia.
Qed.

(** ** printing *)
Definition cut (r : res (list Z * Z)) : res (list Z * Z) := '(b, n) <- r ;; Ok (b, wrap sz n).
Lemma print_scientific_cut : forall buf base len dp, print_scientific_on sz buf base len dp = cut (print_scientific buf base len dp).
Proof.
  intros. unfold print_scientific_on, print_scientific, cut. destruct (sint (dp - 1)) as [K|]; cbn [bind]; [|reflexivity].
  destruct (if 1 <? len then _ else _) as [[b bs]|]; cbn [bind]; [|reflexivity]. destruct (write b _ _); cbn [bind]; [|reflexivity]. destruct (write a _ _); cbn [bind]; [|reflexivity].
  destruct (fill_exponent _ _ _) as [[b' n]|]; cbn [bind]; [|reflexivity]. rewrite wrap_wrap by lia. reflexivity.
Qed.
Lemma print_decimal_cut : forall buf base len k, print_decimal buf base len k = cut (print_decimal buf base len k).
Proof.
  intros. unfold cut. destruct (print_decimal buf base len k) as [[b n]|] eqn:E; cbn [bind]; [|reflexivity]. unfold print_decimal in E. inv E. cbv zeta in E. do 5 inv E.
  injection E as _ <-. rewrite (wrap_small sz); [reflexivity|]. match goal with |- 0 <= wrap 32 ?y < _ => pose proof (wrap_range 32 y ltac:(lia)) end. pose proof big. lia.
Qed.
Lemma sint_range : forall x y, sint x = Ok y -> y = x /\ - 2 ^ 31 <= x < 2 ^ 31.
Proof. intros x y H. unfold sint in H. destruct (Z.leb_spec (- 2 ^ 31) x); [|discriminate]. destruct (Z.ltb_spec x (2 ^ 31)); [|discriminate]. injection H as <-. lia. Qed.
Lemma prettify_cut : forall buf base len k, prettify_on sz 16 buf base len k = cut (prettify 16 buf base len k).
Proof.
  intros. unfold prettify_on, prettify, cut. destruct (sint (len + k)) as [dp|] eqn:E1; cbn [bind]; [|reflexivity]. destruct (sint (- k)) as [mk|] eqn:E2; cbn [bind]; [|reflexivity]. cbv zeta.
  apply sint_range in E1 as [-> E1], E2 as [-> E2].
  assert ((16 <? wrap sz (Z.max (len + k) (- k))) = (16 <? wrap 64 (Z.max (len + k) (- k)))) as ->.
  { destruct (Z.lt_ge_cases (Z.max (len + k) (- k)) 0) as [G|G]; [|rewrite small by lia; reflexivity].
    pose proof (negative (Z.max (len + k) (- k)) ltac:(lia)). pose proof (negative_64 (Z.max (len + k) (- k)) ltac:(lia)). destruct (Z.ltb_spec 16 (wrap sz (Z.max (len + k) (- k)))); [|lia]. destruct (Z.ltb_spec 16 (wrap 64 (Z.max (len + k) (- k)))); [reflexivity|lia]. }
  destruct (16 <? _); [apply print_scientific_cut|apply print_decimal_cut].
Qed.
Lemma grisu2_same : forall T v buf base, grisu2_on sz T v buf base = grisu2 T v buf base.
Proof.
  intros. unfold grisu2_on, grisu2. destruct (boundaries T v) as [[a b]|]; cbn [bind]; [|reflexivity]. destruct (k_comp_exp _ _); cbn [bind]; [|reflexivity].
  destruct (cached_power _ _); cbn [bind]; [|reflexivity]. rewrite !diy_mul_same. reflexivity.
Qed.
Lemma ftoa_cut : forall T v buf, ftoa_on sz T v buf = cut (ftoa T v buf).
Proof.
  intros. pose proof big. unfold ftoa_on, ftoa, cut.
  destruct (is_nan T v). { destruct (write buf 0 _); cbn [bind]; [|reflexivity]. do 3 (destruct (write _ _ _); cbn [bind]; [|reflexivity]). rewrite wrap_small by lia. reflexivity. }
  destruct (is_inf T v).
  { destruct (gt_zero T v). { do 4 (destruct (write _ _ _); cbn [bind]; [|reflexivity]). rewrite wrap_small by lia. reflexivity. }
    do 5 (destruct (write _ _ _); cbn [bind]; [|reflexivity]). rewrite wrap_small by lia. reflexivity. }
  destruct (is_zero T v). { do 2 (destruct (write _ _ _); cbn [bind]; [|reflexivity]). rewrite wrap_small by lia. reflexivity. }
  destruct (write _ _ _); cbn [bind]; [|reflexivity]. cbv zeta. rewrite grisu2_same. destruct (grisu2 _ _ _ _) as [[[b l] K]|]; cbn [bind]; [|reflexivity].
  rewrite prettify_cut. unfold cut. destruct (prettify _ _ _ _ _) as [[b' n]|]; cbn [bind]; [|reflexivity]. rewrite wrap_wrap by lia. f_equal. f_equal.
  unfold wrap. rewrite Zplus_mod_idemp_r. reflexivity.
Qed.
Lemma ftoa_same : forall t v buf, pattern t v -> ftoa_on sz (fmt_of t) v buf = ftoa (fmt_of t) v buf.
Proof.
  intros t v buf P. rewrite ftoa_cut. unfold cut. destruct (prints_something t v P) as (s & S & _ & B). destruct (C80_room t v s buf P S) as [R1 R2].
  destruct (Nat.lt_ge_cases (length s) (length buf)) as [L|L]; [|destruct (R2 L) as (f & ->); reflexivity]. rewrite (R1 L). cbn [bind]. rewrite wrap_small; [reflexivity|].
  pose proof big. unfold zlen in B. destruct t; cbn in B; lia.
Qed.

(** ** parsing: the state on this platform *)
Definition on (st : pstate) : pstate :=
  {| pd_digits := pd_digits st; pd_dot_set := pd_dot_set st; pd_sign_set := pd_sign_set st; pd_frac_calculated := pd_frac_calculated st; pd_pow_gain := pd_pow_gain st;
     pd_zeros := pd_zeros st; pd_fraction_count := wrap sz (pd_fraction_count st); pd_frac := pd_frac st; pd_special := pd_special st; pd_sign := pd_sign st; pd_pos := pd_pos st |}.
Definition modest (k : nat) (st : pstate) : Prop :=
  0 <= pd_zeros st <= pd_pos st /\ 0 <= pd_pow_gain st <= pd_pos st /\ (length (pd_digits st) <= k)%nat.

Lemma step_zero_same : forall k st, modest k st -> pd_pos st < 10000 -> step_zero_on sz (on st) = on (step_zero st) /\ modest k (set_pos (pd_pos st + 1) (step_zero st)) /\ pd_pos (step_zero st) = pd_pos st.
Proof.
  intros k st (M1 & M2 & M3) P. unfold step_zero_on, step_zero. cbn [on pd_digits pd_dot_set]. destruct (_ || _).
  - assert (0 <= b2z (negb (pd_dot_set st)) <= 1) by (destruct (pd_dot_set st); cbn; lia). unfold on, modest. cbn [pd_digits pd_dot_set pd_sign_set pd_frac_calculated pd_pow_gain pd_zeros pd_fraction_count pd_frac pd_special pd_sign pd_pos set_pos].
    rewrite !small by lia. rewrite !(wrap_small 64) by lia. repeat split; try lia.
  - repeat split; unfold modest; cbn [set_pos pd_zeros pd_pos pd_pow_gain pd_digits]; lia.
Qed.
Lemma flush_same : forall k st, modest k st -> pd_pos st < 10000 -> flush_zeros_on sz k (on st) = on (flush_zeros k st) /\ modest k (flush_zeros k st).
Proof.
  intros k st (M1 & M2 & M3) P. unfold flush_zeros_on, flush_zeros. cbn [on pd_digits pd_zeros pd_pow_gain].
  destruct (negb (pd_zeros st =? 0) && (len_z (pd_digits st) <? Z.of_nat k)) eqn:E; [|split; [reflexivity|split; [exact M1|split; [exact M2|exact M3]]]].
  apply andb_prop in E as [_ E]. apply Z.ltb_lt in E. cbv zeta. set (ne := negb match pd_digits st with [] => true | _ => false end).
  set (zc := if ne then Z.min (pd_zeros st) (Z.of_nat k - len_z (pd_digits st)) else pd_zeros st). set (pg := if ne then Z.min (pd_pow_gain st) (Z.of_nat k - len_z (pd_digits st)) else pd_pow_gain st).
  assert (Z1 : 0 <= zc <= pd_zeros st) by (unfold zc; destruct ne; lia). assert (Z2 : 0 <= pg <= pd_pow_gain st) by (unfold pg; destruct ne; lia).
  split.
  - unfold on. cbn [pd_digits pd_dot_set pd_sign_set pd_frac_calculated pd_pow_gain pd_zeros pd_fraction_count pd_frac pd_special pd_sign pd_pos].
    rewrite !small by lia. f_equal. rewrite (wrap_wrap sz 64) by lia. unfold wrap. rewrite Zplus_mod_idemp_l. reflexivity.
  - unfold modest. cbn [pd_digits pd_pow_gain pd_zeros pd_pos]. rewrite !(wrap_small 64) by lia. repeat split; try lia. destruct ne eqn:N; [|exact M3]. rewrite app_length, repeat_length. unfold zc, len_z in *. lia.
Qed.
Lemma step_nonzero_same : forall k s c st, Z.of_nat k < 1000 -> modest k st -> 0 <= pd_pos st < 10000 ->
  match step_nonzero k s c st with
  | Ok st' => step_nonzero_on sz k s c (on st) = Ok (on st') /\ modest k (set_pos (pd_pos st + 1) st') /\ pd_pos st' = pd_pos st
  | Fault f => step_nonzero_on sz k s c (on st) = Fault f
  end.
Proof.
  intros k s c st0 K M P. destruct (flush_same k st0 M ltac:(lia)) as [F1 F2]. pose proof (flush_pos k st0) as F3. unfold step_nonzero, step_nonzero_on. cbv zeta. rewrite F1. set (st := flush_zeros k st0) in *.
  destruct F2 as (M1 & M2 & M3). cbn [on pd_digits pd_frac_calculated pd_zeros pd_pos pd_frac pd_pow_gain pd_dot_set pd_fraction_count pd_sign_set pd_special pd_sign].
  destruct (Z.ltb_spec (len_z (pd_digits st)) (Z.of_nat k)) as [G|G].
  - split; [|split; [|cbn [pd_pos]; lia]].
    + unfold on. cbn [pd_digits pd_dot_set pd_sign_set pd_frac_calculated pd_pow_gain pd_zeros pd_fraction_count pd_frac pd_special pd_sign pd_pos]. do 2 f_equal. rewrite (wrap_wrap sz 64) by lia. unfold wrap. rewrite Zplus_mod_idemp_l. reflexivity.
    + unfold modest. cbn [set_pos pd_digits pd_pow_gain pd_zeros pd_pos]. rewrite app_length. unfold len_z in G. cbn [length]. lia.
  - assert (B : 0 <= b2z (negb (pd_dot_set st)) <= 1) by (destruct (pd_dot_set st); cbn; lia).
    rewrite !small by (unfold len_z in *; lia). rewrite !extract_same by (unfold fraction_decimal_digits; lia).
    match goal with |- context [bind ?fr _] => destruct fr as [frac|f]; cbn [bind]; [|reflexivity] end.
    split; [reflexivity|]. split; [|cbn [pd_pos]; lia]. unfold modest. cbn [set_pos pd_digits pd_pow_gain pd_zeros pd_pos]. rewrite !(wrap_small 64) by lia. repeat split; lia.
Qed.
Lemma on_parts : forall st, on (set_dot st) = set_dot (on st) /\ (forall b, on (set_sign b st) = set_sign b (on st)) /\ (forall p, on (set_pos p st) = set_pos p (on st)) /\ (forall x, on (set_special x st) = set_special x (on st)).
Proof. repeat split. Qed.
Lemma step_char_same : forall k s st c, Z.of_nat k < 1000 -> modest k st -> 0 <= pd_pos st < 10000 ->
  match step_char k s st c with
  | Ok (st', go) => step_char_on sz k s (on st) c = Ok (on st', go) /\ (go = false -> modest k (set_pos (pd_pos st + 1) st') /\ pd_pos st' = pd_pos st) /\ (length (pd_digits st') <= k)%nat
  | Fault f => step_char_on sz k s (on st) c = Fault f
  end.
Proof.
  intros k s st c K M P. pose proof M as (M1 & M2 & M3). unfold step_char, step_char_on. cbn [on pd_pos pd_sign_set pd_dot_set].
  assert (N : modest k (set_pos (pd_pos st + 1) st)) by (unfold modest; cbn [set_pos pd_digits pd_pow_gain pd_zeros pd_pos]; lia).
  destruct (c =? ch_0). { destruct (step_zero_same k st M ltac:(lia)) as (S1 & S2 & S3). rewrite S1. split; [reflexivity|]. split; [intros _; split; assumption|]. exact (proj2 (proj2 S2)). }
  destruct ((49 <=? c) && (c <=? 57)).
  { pose proof (step_nonzero_same k s c st K M P) as S. destruct (step_nonzero k s c st) as [st'|f]; [|rewrite S; reflexivity]. destruct S as (-> & S2 & S3). cbn [bind]. split; [reflexivity|]. split; [intros _; split; assumption|]. exact (proj2 (proj2 S2)). }
  destruct (c =? ch_dot). { split; [reflexivity|]. split; [intros _; split; [exact N|reflexivity]|exact M3]. }
  destruct ((c =? ch_n) || (c =? ch_N)).
  { destruct (pd_pos st =? b2z (pd_sign_set st)); [|split; [reflexivity|split; [discriminate|exact M3]]]. destruct (eat_nan s (pd_pos st + 1)) as [e|]; cbn [bind]; [|reflexivity]. split; [destruct (negb (e =? 0)); reflexivity|]. split; [discriminate|destruct (negb (e =? 0)); exact M3]. }
  destruct ((c =? ch_i) || (c =? ch_I)).
  { destruct (pd_pos st =? b2z (pd_sign_set st)); [|split; [reflexivity|split; [discriminate|exact M3]]]. destruct (eat_inf s (pd_pos st + 1)) as [e|]; cbn [bind]; [|reflexivity]. split; [destruct (negb (e =? 0)); reflexivity|]. split; [discriminate|destruct (negb (e =? 0)); exact M3]. }
  destruct ((c =? ch_minus) || (c =? ch_plus)); [|split; [reflexivity|split; [discriminate|exact M3]]].
  destruct (pd_pos st =? 0); [|split; [reflexivity|split; [discriminate|exact M3]]]. split; [reflexivity|]. split; [intros _; split; [exact N|reflexivity]|exact M3].
Qed.
Lemma parse_loop_same : forall k s fuel st, Z.of_nat k < 1000 -> modest k st -> 0 <= pd_pos st <= 2049 ->
  match parse_loop k s fuel st with
  | Ok st' => parse_loop_on sz k s fuel (on st) = Ok (on st') /\ (length (pd_digits st') <= k)%nat
  | Fault f => parse_loop_on sz k s fuel (on st) = Fault f
  end.
Proof.
  intros k s. induction fuel as [|n IH]; intros st K M P; cbn [parse_loop parse_loop_on]; [reflexivity|]. cbn [on pd_pos].
  destruct (read s (pd_pos st)) as [c|]; cbn [bind]; [|reflexivity]. pose proof (step_char_same k s st c K M ltac:(lia)) as S. destruct (step_char k s st c) as [[st1 go]|f]; [|rewrite S; reflexivity].
  destruct S as (-> & S2 & S3). cbn [bind]. cbv zeta. cbn [on pd_pos]. destruct go; cbn [orb]; [split; [reflexivity|exact S3]|]. destruct (S2 eq_refl) as [M' E].
  destruct (Z.ltb_spec maximum_offset (pd_pos st1)) as [G|G]; [split; [reflexivity|exact S3]|]. rewrite E in *. unfold maximum_offset in G.
  apply (IH (set_pos (pd_pos st + 1) st1)); [exact K|exact M'|cbn [set_pos pd_pos]; lia].
Qed.
Lemma parse_digits_same : forall t s, parse_digits_on sz (fmt_of t) s = parse_digits (fmt_of t) s.
Proof.
  intros t s. unfold parse_digits_on, parse_digits.
  assert (K : Z.of_nat (decimal_q (fmt_of t)) < 1000) by (destruct t; cbn; lia).
  pose proof (parse_loop_same (decimal_q (fmt_of t)) s parse_fuel pstate_init K) as L. assert (I : on pstate_init = pstate_init) by (unfold on, pstate_init; cbn [pd_digits pd_dot_set pd_sign_set pd_frac_calculated pd_pow_gain pd_zeros pd_fraction_count pd_frac pd_special pd_sign pd_pos]; f_equal).
  rewrite I in L. specialize (L ltac:(unfold modest, pstate_init; cbn; lia) ltac:(cbn; lia)).
  destruct (parse_loop _ s _ _) as [st|f]; [|rewrite L; reflexivity]. destruct L as [-> L]. cbn [bind]. cbn [on pd_digits].
  rewrite weighted_sum_same; [|exact K|lia|rewrite rev_length; lia]. destruct (weighted_sum _ _ _ _ _) as [v|]; cbn [bind]; [|reflexivity].
  cbn [on pd_pow_gain pd_fraction_count pd_pos pd_frac pd_special pd_sign]. rewrite !narrow_wrap by lia. do 2 f_equal.
  rewrite <- (narrow_wrap 32 (pd_pow_gain st - wrap sz (pd_fraction_count st))), <- (narrow_wrap 32 (pd_pow_gain st - pd_fraction_count st)) by lia. f_equal. apply wrap_minus.
Qed.
Lemma parse_mantissa_same : forall t s, parse_mantissa_on sz (fmt_of t) s = parse_mantissa (fmt_of t) s.
Proof.
  intros t s. unfold parse_mantissa_on, parse_mantissa. rewrite parse_digits_same. destruct (parse_digits (fmt_of t) s) as [dp|]; cbn [bind]; [|reflexivity].
  destruct (dp_special dp); try reflexivity. cbv zeta. destruct (negb (dp_value dp =? 0)); [|reflexivity]. destruct (normalize (fmt_of t) (mk_diy (dp_value dp) 0)) as [w|] eqn:E; cbn [bind]; [|reflexivity].
  rewrite round_mantissa_same; [reflexivity|]. unfold normalize in E. inv E. apply normalize_e in E. exact E.
Qed.
Lemma parse_exponent_same : forall s, parse_exponent_on sz s = parse_exponent s.
Proof.
  intros s. unfold parse_exponent_on, parse_exponent. destruct (read s 0) as [c|]; cbn [bind]; [|reflexivity]. destruct (_ && _); [reflexivity|]. change single with (fmt_of Float). rewrite parse_digits_same.
  destruct (parse_digits (fmt_of Float) (skipn 1 s)) as [dp|] eqn:E; cbn [bind]; [|reflexivity]. rewrite seq_pow_same; [reflexivity|unfold exponent_decimal_digits; lia|].
  unfold parse_digits in E. inv E. inv E. injection E as <-. cbn [dp_K]. unfold narrow_int. match goal with |- context [?y mod 2 ^ 32] => pose proof (Z.mod_pos_bound y (2 ^ 32) ltac:(lia)) end. lia.
Qed.
Lemma krosh_same : forall t s, krosh_on sz (fmt_of t) s = krosh (fmt_of t) s.
Proof.
  intros t s. unfold krosh_on, krosh. rewrite parse_mantissa_same. destruct (parse_mantissa (fmt_of t) s) as [mp|]; cbn [bind]; [|reflexivity]. destruct (mp_special mp); [|reflexivity..].
  destruct (negb (m_f (mp_value mp) =? 0)); [|reflexivity]. rewrite parse_exponent_same. destruct (parse_exponent _) as [[ev eend]|]; cbn [bind]; [|reflexivity]. cbv zeta.
  destruct (sint _) as [K|]; cbn [bind]; [|reflexivity]. destruct (negb (K =? 0)).
  - destruct (_ && _); [|reflexivity]. destruct (cached_power _ K) as [c|]; cbn [bind]; [|reflexivity]. rewrite diy_mul_same. destruct (normalize _ _) as [w|]; cbn [bind]; [|reflexivity]. rewrite downsample_same. reflexivity.
  - destruct (normalize _ _) as [w|]; cbn [bind]; [|reflexivity]. rewrite downsample_same. reflexivity.
Qed.
End OnePlatform.

(** C104 *)
Theorem C104_printing : forall sz t v buf, 32 <= sz <= 64 -> pattern t v ->
  ftoa_on sz (fmt_of t) v buf = ftoa (fmt_of t) v buf /\ to_basic_string_on sz (fmt_of t) v = to_basic_string (fmt_of t) v.
Proof.
  intros sz t v buf S P. split; [now apply ftoa_same|]. unfold to_basic_string_on, to_basic_string. rewrite ftoa_same by assumption. reflexivity.
Qed.
Theorem C104_parsing : forall sz t s want_end fb errno, 32 <= sz <= 64 ->
  atof_on sz (fmt_of t) s want_end fb errno = atof (fmt_of t) s want_end fb errno /\ from_string_on sz (fmt_of t) s fb errno = from_string (fmt_of t) s fb errno.
Proof.
  intros sz t s we fb errno S. assert (A : forall s we, atof_on sz (fmt_of t) s we fb errno = atof (fmt_of t) s we fb errno) by (intros s0 we0; unfold atof_on, atof; rewrite krosh_same by exact S; reflexivity).
  split; [apply A|]. unfold from_string_on, from_string. apply A.
Qed.
