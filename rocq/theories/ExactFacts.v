(** The arithmetic of atof, exactly (C94). *)
From Coq Require Import Lia Reals Lra.
From Flocq Require Import Core.
From Verif Require Import Machine MachineFacts BitOps StaticPow Fraction Format DiyFp KComp Chars Krosh Atof Spec ParseSpec SameSpec ParseApi Instances
  DiyFacts BoundFacts TableFacts GrisuFacts FtoaFacts RoundFacts DownFacts DvalFacts CmpFacts ArithProps ScanFacts LoopFacts ParseFacts GapFacts KroshNum ShortFacts FracFacts LongFacts RangeFacts
  ScaledFacts NegFacts FracProps SameFacts ExactSpec.
Open Scope Z_scope.

Lemma log2_shift : forall w f n, 1 <= w -> 0 < f -> 0 <= n -> 2 ^ (w - 1) <= f * 2 ^ n < 2 ^ w -> n = w - 1 - Z.log2 f.
Proof.
  intros w f n Hw Hf Hn H. assert (L : Z.log2 (f * 2 ^ n) = w - 1).
  { apply Z.log2_unique; [lia|]. replace (Z.succ (w - 1)) with w by lia. exact H. }
  rewrite Z.log2_mul_pow2 in L by lia. lia.
Qed.

(** ** the seven bits *)
Lemma tail_bits_eq : forall T, 0 <= T < 10000 -> convert_numerator 4 7 T = tail_bits T.
Proof.
  intros T HT. unfold convert_numerator, tail_bits. change (7 - 1)%nat with 6%nat.
  assert (D : 10 ^ Z.of_nat 4 < 2 ^ 32) by reflexivity.
  assert (Step : forall r s L n, (S r < 7)%nat -> List.length L = S r -> 10 ^ Z.of_nat 4 / 2 ^ (Z.of_nat 7 - Z.of_nat (S r)) = s -> 0 <= s -> 0 <= n < 10000 ->
     (forall m, 0 <= m < 10000 -> fraction_convert 4 7 r m = take_shares m L) -> fraction_convert 4 7 (S r) n = take_shares n (s :: L)).
  { intros r s L n Hr HL Es S0 Hn IH. rewrite convert_eq by (try assumption; lia). rewrite Es. cbn [take_shares]. rewrite HL.
    destruct (Z.leb_spec s n); cbn [b2z]; rewrite IH by lia; [f_equal; [ring|]; f_equal; ring|]. replace (n - 0 * s) with n by ring. ring. }
  assert (B0 : forall m, 0 <= m < 10000 -> fraction_convert 4 7 0 m = take_shares m [78]).
  { intros m _. cbn [take_shares List.length]. change (fraction_convert 4 7 0 m) with (b2z (78 <=? m)). destruct (78 <=? m); reflexivity. }
  assert (B1 : forall m, 0 <= m < 10000 -> fraction_convert 4 7 1 m = take_shares m [156; 78]) by (intros; apply Step; try reflexivity; try lia; assumption).
  assert (B2 : forall m, 0 <= m < 10000 -> fraction_convert 4 7 2 m = take_shares m [312; 156; 78]) by (intros; apply Step; try reflexivity; try lia; assumption).
  assert (B3 : forall m, 0 <= m < 10000 -> fraction_convert 4 7 3 m = take_shares m [625; 312; 156; 78]) by (intros; apply Step; try reflexivity; try lia; assumption).
  assert (B4 : forall m, 0 <= m < 10000 -> fraction_convert 4 7 4 m = take_shares m [1250; 625; 312; 156; 78]) by (intros; apply Step; try reflexivity; try lia; assumption).
  assert (B5 : forall m, 0 <= m < 10000 -> fraction_convert 4 7 5 m = take_shares m [2500; 1250; 625; 312; 156; 78]) by (intros; apply Step; try reflexivity; try lia; assumption).
  apply Step; try reflexivity; try lia; assumption.
Qed.

Lemma tail_bits_range : forall T, 0 <= T < 10000 -> 0 <= tail_bits T <= 127.
Proof. intros T HT. rewrite <- tail_bits_eq by exact HT. destruct (C25_fraction T HT) as (H & _). lia. Qed.

(** ** the powers of ten *)
Lemma nearest_quotient_is : forall a b c, 0 < b -> 0 <= a -> 2 * Z.abs (c * b - a) < b \/ (2 * Z.abs (c * b - a) = b /\ Z.even c = true) ->
  nearest_quotient a b = c.
Proof.
  intros a b c Hb Ha H. unfold nearest_quotient. pose proof (Z.div_mod a b ltac:(lia)) as D. pose proof (Z.mod_pos_bound a b Hb) as M.
  set (q := a / b) in *. set (r := a mod b) in *. clearbody q r.
  assert (C : c = q \/ c = q + 1).
  { assert (X : - b <= 2 * (c * b - a) <= b) by (destruct H as [H|[H _]]; lia). clear H. 
    assert (q - 1 < c) by nia. assert (c < q + 2) by nia. lia. }
  assert (E0 : q * b - a = - r) by lia. assert (E1 : (q + 1) * b - a = b - r) by lia.
  destruct (Z.ltb_spec (2 * r) b), (Z.ltb_spec b (2 * r)); try lia.
  - destruct H as [H|[_ H]]; [destruct C; subst c; rewrite ?E0, ?E1 in H; lia|]. destruct C as [C|C]; subst c; [now rewrite H|].
    rewrite Z.add_1_r, Z.even_succ, <- Z.negb_even in H. destruct (Z.even q); [discriminate|reflexivity].
Qed.

Definition power_exact (t : ftype) (k : Z) : bool :=
  match cached_power (fmt_of t) k with
  | Ok d => let p := 10 ^ Z.abs k in let e := m_e d in
            let a := if 0 <=? k then Z.shiftl p (Z.max 0 (- e)) else Z.shiftl 1 (Z.max 0 (- e)) in
            let b := if 0 <=? k then Z.shiftl 1 (Z.max 0 e) else Z.shiftl p (Z.max 0 e) in
            let x := 2 * Z.abs (m_f d * b - a) in
            (e + (width t - 1) =? if 0 <=? k then Z.log2 p else - Z.log2 p - 1) && ((x <? b) || ((x =? b) && Z.even (m_f d)))
  | Fault _ => false
  end.
Lemma power_exact_all : forall t, forallb (power_exact t) (zrange (- table_max t) (table_max t)) = true.
Proof. destruct t; vm_compute; reflexivity. Qed.

Lemma power_exactly : forall t k, - table_max t <= k <= table_max t ->
  cached_power (fmt_of t) k = Ok (mk_diy (fst (power_of_ten t k)) (snd (power_of_ten t k))).
Proof.
  intros t k H. pose proof (zrange_forall _ _ _ (power_exact_all t) k H) as C. unfold power_exact in C. unfold power_of_ten. cbv zeta. cbn [fst snd].
  destruct (cached_power (fmt_of t) k) as [[f e]|]; [|discriminate]. cbn [m_f m_e] in C. apply andb_true_iff in C as [C1 C2].
  apply Z.eqb_eq in C1. cbv zeta in C1, C2. rewrite !Z.shiftl_mul_pow2 in C2 by lia.
  assert (E : power_exponent t k = e).
  { unfold power_exponent. destruct (Z.leb_spec 0 k); [rewrite Z.abs_eq in C1 by lia|rewrite Z.abs_neq in C1 by lia]; lia. }
  rewrite E. do 2 f_equal. symmetry. apply nearest_quotient_is.
  - apply Z.mul_pos_pos; apply Z.pow_pos_nonneg; lia.
  - apply Z.mul_nonneg_nonneg; apply Z.pow_nonneg; lia.
  - assert (EA : (if 0 <=? k then 10 ^ Z.abs k * 2 ^ Z.max 0 (- e) else 1 * 2 ^ Z.max 0 (- e)) = 10 ^ Z.max 0 k * 2 ^ Z.max 0 (- e)).
    { destruct (Z.leb_spec 0 k); do 2 f_equal; [lia|]. replace (Z.max 0 k) with 0 by lia. reflexivity. }
    assert (EB : (if 0 <=? k then 1 * 2 ^ Z.max 0 e else 10 ^ Z.abs k * 2 ^ Z.max 0 e) = 10 ^ Z.max 0 (- k) * 2 ^ Z.max 0 e).
    { destruct (Z.leb_spec 0 k); do 2 f_equal; [|lia]. replace (Z.max 0 (- k)) with 0 by lia. reflexivity. }
    rewrite EA, EB in C2.
    apply orb_true_iff in C2 as [C2|C2]; [left; now apply Z.ltb_lt|right]. apply andb_true_iff in C2 as [C2 C3]. split; [now apply Z.eqb_eq|exact C3].
Qed.

(** ** the mantissa *)
Lemma mantissa_exactly : forall t P T, 0 < P < 2 ^ width t -> 0 <= T < 10000 -> tail_bits T = 0 \/ 10 ^ (exact_digits t - 1) <= P ->
  exists f e, mantissa_of t P T = (f, e) /\ kr_mantissa (fmt_of t) P (tail_bits T) = Ok (mk_diy f e) /\
    2 ^ (width t - 1) <= f < 2 ^ width t /\ -100 <= e <= 100.
Proof.
  intros t P T HP HT Hc. pose proof (width_facts t) as W. pose proof (tail_bits_range T HT) as Hf. unfold mantissa_of, full_width. set (frac := tail_bits T) in *. clearbody frac.
  destruct (normalize_ok t P 0 HP) as (n & N1 & N2 & N3); [lia|].
  rewrite <- (log2_shift (width t) P n ltac:(lia) ltac:(lia) ltac:(lia) N2). unfold kr_mantissa. rewrite N3. cbn [bind]. unfold round_mantissa. cbn [m_f m_e].
  destruct (Z.eqb_spec frac 0) as [->|Nf]; cbn [negb].
  - rewrite Z.add_0_r. destruct (Z.eqb_spec (P * 2 ^ n) (2 ^ width t)); [lia|]. eexists _, _. split; [reflexivity|]. split; [reflexivity|]. split; [exact N2|lia].
  - assert (HP2 : 10 ^ (exact_digits t - 1) <= P) by (destruct Hc; [congruence|assumption]).
    pose proof (full_shift t P n HP2 ltac:(lia) ltac:(lia)) as Hn.
    assert (Hn5 : n <= 5) by (destruct t; cbn in Hn; lia).
    change (Z.of_nat fraction_binary_digits) with 7.
    assert (G : (- (7) <? 0 - n) = true) by (apply Z.ltb_lt; lia). rewrite G. cbn [assert_ bind].
    replace (7 + (0 - n)) with (7 - n) by lia. rewrite (wrap_small 64) by lia.
    rewrite shr_ok by lia. cbn [bind]. pose proof (pow2_pos n ltac:(lia)) as P2.
    assert (B1 : 0 <= frac / 2 ^ (7 - n) < 2 ^ n).
    { split; [apply Z.div_pos; [lia|apply pow2_pos; lia]|]. apply Z.div_lt_upper_bound; [apply pow2_pos; lia|].
      rewrite <- Z.pow_add_r by lia. replace (7 - n + n) with 7 by lia. change (2 ^ 7) with 128. lia. }
    rewrite lor_disjoint by lia.
    rewrite round_up_ok by lia. cbn [bind rr_value].
    change (nearest_even frac (7 - n)) with (half_even frac (7 - n)). set (h := half_even frac (7 - n)).
    pose proof (half_even_cases frac (7 - n)) as HC. fold h in HC. clearbody h. set (q := frac / 2 ^ (7 - n)) in *. clearbody q.
    assert (F0 : P * 2 ^ n + 2 ^ n <= 2 ^ width t).
    { replace (2 ^ width t) with (2 ^ (width t - n) * 2 ^ n) in * by (rewrite <- Z.pow_add_r by lia; f_equal; lia).
      assert (P < 2 ^ (width t - n)) by (apply Z.mul_lt_mono_pos_r with (2 ^ n); lia). nia. }
    pose proof (pow2_half (width t) ltac:(lia)) as EW. pose proof (pow2_half (width t - 1) ltac:(lia)). pose proof (pow2_pos (width t - 1 - 1) ltac:(lia)).
    destruct HC as [Eh|Eh].
    + rewrite Eh, Z.eqb_refl. cbn [negb]. destruct (Z.eqb_spec (P * 2 ^ n + q) (2 ^ width t)); [lia|]. eexists _, _. split; [reflexivity|].
      split; [reflexivity|]. lia.
    + destruct (Z.eqb_spec h q); [lia|]. cbn [negb]. rewrite Eh. unfold diy_inc. cbn [m_f m_e]. rewrite fw_width.
      destruct (Z.ltb_spec (P * 2 ^ n + q) (2 ^ width t - 1)).
      * destruct (Z.eqb_spec (P * 2 ^ n + (q + 1)) (2 ^ width t)); [lia|]. eexists _, _. split; [reflexivity|]. split; [do 2 f_equal; lia|]. lia.
      * destruct (Z.eqb_spec (P * 2 ^ n + (q + 1)) (2 ^ width t)); [|lia]. eexists _, _. split; [reflexivity|].
        rewrite sint_ok by lia. cbn [bind]. split; [|lia].
        assert (P * 2 ^ n + q = 2 ^ width t - 1) as -> by lia.
        rewrite Z.shiftr_div_pow2 by lia. change (2 ^ 1) with 2.
        assert (D : (2 ^ width t - 1) / 2 = 2 ^ (width t - 1) - 1) by (symmetry; apply Z.div_unique with 1; lia).
        rewrite D. rewrite wrap_small by lia. do 2 f_equal; lia.
Qed.

(** ** scaling *)
Lemma scaled_exactly : forall t neg se K f e, 2 ^ (width t - 1) <= f < 2 ^ width t -> -100 <= e <= 100 -> - table_max t <= K <= table_max t ->
  exists g x, scaled t f e K = (g, x) /\ kr_scale (fmt_of t) neg se K (mk_diy f e) = kr_finish (fmt_of t) neg se (mk_diy g x) /\
    0 < g < 2 ^ width t /\ -10000 <= x <= 10000.
Proof.
  intros t neg se K f e Hf He HK. pose proof (width_facts t) as W. unfold kr_scale, scaled.
  assert (EL : fpow_lo (fmt_of t) = - table_max t /\ fpow_hi (fmt_of t) = table_max t) by (destruct t; auto).
  destruct EL as [-> ->]. pose proof (pow2_pos (width t - 1) ltac:(lia)). pose proof (pow2_pos (width t - 2) ltac:(lia)).
  destruct (Z.eqb_spec K 0) as [->|NK].
  - exists f, e. split; [reflexivity|]. split; [reflexivity|]. lia.
  - destruct (Z.leb_spec (- table_max t) K); [|lia]. destruct (Z.leb_spec K (table_max t)); [|lia].
    destruct (cached_power_ok t K HK) as (cf & ce & C1 & C2 & C3 & C4 & C5). pose proof (power_exactly t K HK) as PE. rewrite C1 in PE. assert (E1 : cf = fst (power_of_ten t K)) by congruence. assert (E2 : ce = snd (power_of_ten t K)) by congruence. clear PE.
    rewrite C1. cbn [bind]. rewrite (surjective_pairing (power_of_ten t K)), <- E1, <- E2.
    destruct (diy_mul_f t (mk_diy f e) (mk_diy cf ce)) as (M1 & _); cbn [m_f]; [lia|lia|].
    pose proof (diy_mul_e t (mk_diy f e) (mk_diy cf ce)) as M2. cbn [m_e m_f] in M1, M2. specialize (M2 ltac:(lia)).
    destruct (scaled_product t f e K cf ce 0 Hf C2 C4 C5) as (Q1 & _). unfold mulr in Q1, M1.
    eexists _, _. split; [reflexivity|]. split; [|lia].
    f_equal. destruct (diy_mul (fmt_of t) _ _) as [a b]. cbn [m_f m_e] in *. congruence.
Qed.

(** ** rounding *)
Definition answered (se : Z) (r : reading) (k : res krosh_result) : Prop :=
  match r with
  | Sure v s => k = Ok {| kr_value := v; kr_str_end := se; kr_status := s; kr_is_accurate := true |}
  | Unsure => exists v s, k = Ok {| kr_value := v; kr_str_end := se; kr_status := s; kr_is_accurate := false |}
  end.

Lemma signed_bits : forall t neg v, pattern t v -> apply_sign (fmt_of t) (negb neg) v = (if neg then opposite t v else v).
Proof. intros t neg v H. unfold apply_sign. rewrite negb_involutive. destruct neg; [now apply neg_bits_opposite|reflexivity]. Qed.

Lemma rounded_exactly : forall t neg se g x, 0 < g < 2 ^ width t -> -10000 <= x <= 10000 ->
  answered se (let '(h, y) := full_width t g x in rounded t neg h y) (kr_finish (fmt_of t) neg se (mk_diy g x)).
Proof.
  intros t neg se g x Hg Hx. pose proof (width_facts t) as W. unfold kr_finish, full_width.
  destruct (normalize_ok t g x Hg) as (n & N1 & N2 & N3); [lia|]. rewrite N3. cbn [bind].
  rewrite <- (log2_shift (width t) g n ltac:(lia) ltac:(lia) ltac:(lia) N2). set (h := g * 2 ^ n) in *. set (y := x - n) in *. clearbody h y.
  unfold rounded. pose proof (downsample_pattern t h y N2) as (r & Er & Pr).
  pose proof (pow2_pos (width t - 1) ltac:(lia)) as PW.
  destruct (Z.leb_spec (max_exp t) y) as [H1|H1].
  - assert (E : downsample (fmt_of t) (mk_diy h y) = Ok {| ds_value := huge_value (fmt_of t); ds_status := overflow; ds_is_accurate := true |}).
    { unfold downsample, is_normalized. cbn [m_f m_e]. destruct (Z.eqb_spec h 0) as [?|_]; [lia|]. cbn [negb assert_ bind].
      unfold msb_value. rewrite fw_width, raised_bit_c_pow, land_single, negb_involutive by lia.
      rewrite testbit_top by (replace (width t - 1 + 1) with (width t) by lia; lia).
      destruct (Z.leb_spec (2 ^ (width t - 1)) h); [|lia]. cbn [assert_ bind].
      rewrite fmaxe_eq. cbv zeta. destruct (Z.leb_spec (max_exp t) y); [|lia]. reflexivity. }
    rewrite E in Er. injection Er as <-. cbn [ds_value] in Pr. rewrite E. cbn [bind ds_value ds_status ds_is_accurate]. rewrite signed_bits by exact Pr.
    replace (huge_value (fmt_of t)) with (infinity_of t false) by (destruct t; reflexivity). reflexivity.
  - destruct (Z.leb_spec (y + width t) (min_exp t)) as [H2|H2].
    + assert (E : downsample (fmt_of t) (mk_diy h y) = Ok {| ds_value := 0; ds_status := underflow; ds_is_accurate := true |}).
      { unfold downsample, is_normalized. cbn [m_f m_e]. destruct (Z.eqb_spec h 0) as [?|_]; [lia|]. cbn [negb assert_ bind].
        unfold msb_value. rewrite fw_width, raised_bit_c_pow, land_single, negb_involutive by lia.
        rewrite testbit_top by (replace (width t - 1 + 1) with (width t) by lia; lia).
        destruct (Z.leb_spec (2 ^ (width t - 1)) h); [|lia]. cbn [assert_ bind].
        rewrite fmine_eq, fmaxe_eq, fdig_precision. cbv zeta. destruct (Z.leb_spec (max_exp t) y); [lia|].
        destruct (Z.ltb_spec (y + width t) (min_exp t + 1)); [|lia]. reflexivity. }
      rewrite E in Er. injection Er as <-. cbn [ds_value] in Pr. rewrite E. cbn [bind ds_value ds_status ds_is_accurate]. rewrite signed_bits by exact Pr. reflexivity.
    + rewrite downsample_eval in * by lia. injection Er as <-. cbn [ds_value] in Pr. cbn [bind ds_value ds_status ds_is_accurate]. rewrite signed_bits by exact Pr.
      fold (down_shift t y). fold (down_field t y). change (nearest_even h (down_shift t y)) with (half_even h (down_shift t y)).
      destruct (h mod 2 ^ down_shift t y =? 2 ^ (down_shift t y - 1)); cbn [negb answered]; [eauto|reflexivity].
Qed.

(** ** the four digits that are looked at *)
Lemma frac_zero : forall s sg I F c rest A B d D2 T, s = mant sg I F ++ c :: rest ->
  Forall digit I -> Forall digit (odig F) -> I ++ odig F = A ++ B ++ d :: D2 -> dval B = 0 ->
  zlen A < zlen I -> zlen I <= zlen A + zlen B ->
  extract_fraction_digits 4 s (zlen (sign_text sg) + zlen (A ++ B) +
      b2z (zlen (I ++ odig F) - zlen (odig F) <=? zlen (A ++ B)) - zlen B) = Ok T ->
  T = 0.
Proof.
  intros s sg I F c rest A B d D2 T Es DI DF ED ZB L2 L1 ET.
  assert (DD : Forall digit (I ++ odig F)) by (apply Forall_app; auto).
  assert (DRL : Forall digit (B ++ d :: D2)) by (rewrite ED in DD; apply Forall_app in DD; tauto).
  pose proof (zlen_nonneg A) as LA. pose proof (zlen_nonneg B) as LB. pose proof (zlen_nonneg D2) as LD2.
  assert (LE : zlen I + zlen (odig F) = zlen A + zlen B + 1 + zlen D2).
  { rewrite <- zlen_app, ED, !zlen_app, zlen_cons. lia. }
  rewrite (zlen_app I), (zlen_app A) in ET. replace (zlen I + zlen (odig F) - zlen (odig F)) with (zlen I) in ET by lia.
  destruct (Z.leb_spec (zlen I) (zlen A + zlen B)) as [_|?]; [|lia]. cbn [b2z] in ET.
  destruct F as [f|]; [|cbn [odig] in *; rewrite zlen_nil in *; lia]. cbn [odig] in *.
  destruct (app_split A I (B ++ d :: D2) f ltac:(lia) (eq_sym ED)) as (m & EI & Em).
  assert (L3 : zlen m <= zlen B) by (rewrite EI, zlen_app in L1; lia).
  destruct (app_split m B f (d :: D2) L3 (eq_sym Em)) as (m2 & EBB & Ef).
  assert (DB : Forall digit B) by (apply Forall_app in DRL; tauto).
  destruct m as [|x m]; [rewrite EI, zlen_app, zlen_nil in L2; lia|].
  assert (Dm : Forall digit (x :: m) /\ dval (x :: m) = 0).
  { rewrite EBB in DB, ZB. apply Forall_app in DB as [Q1 Q2]. split; [exact Q1|]. rewrite dval_app in ZB.
    pose proof (dval_bounds _ Q1). pose proof (dval_bounds _ Q2). pose proof (pow10_pos (zlen m2) (zlen_nonneg m2)). nia. }
  destruct Dm as [Dm Zm]. pose proof (dval_zero_all _ Dm Zm) as Em0. cbn [List.length repeat] in Em0. injection Em0 as Ex Em0.
  assert (Dm1 : Forall digit m) by (now inversion Dm).
  assert (E1 : s = (sign_text sg ++ dchars A ++ [48]) ++ dchars m ++ 46 :: dchars f ++ c :: rest).
  { rewrite Es, EI, Ex. unfold mant. rewrite dchars_app, <- !app_assoc. cbn [app dchars map]. rewrite <- ?app_assoc. reflexivity. }
  rewrite E1, extract_at in ET; try assumption; try lia.
  2:{ unfold nondigit; lia. }
  2:{ rewrite !zlen_app, zlen_cons, zlen_nil, !zlen_dchars. lia. }
  assert (T = dval (firstn 4 (m ++ repeat 0 4))) as -> by congruence.
  rewrite Em0, <- repeat_app. set (k := (List.length m + 4)%nat).
  assert (exists k', k = (4 + k')%nat) as (k' & ->) by (exists (List.length m); unfold k; lia). reflexivity.
Qed.

(** an integer part of leading digits and zeros: nothing is looked at *)
Lemma parsed_zero : forall t n c rest st j, well_formed n -> ends_number c -> parsed t n (written n ++ c :: rest) st -> coefficient n <> 0 ->
  0 < j -> dval (n_int n) = dval (pd_digits st) * 10 ^ j -> pd_frac st = 0.
Proof.
  intros t n c rest st j W Hc Hp CN J0 EI. pose proof W as (W1 & W2 & _).
  destruct (long_scan t n c rest st W Hc Hp CN) as (_ & _ & _ & Pb & _).
  destruct Hp as (_ & _ & _ & _ & _ & D1 & D2 & D3 & D4 & H).
  rewrite exact_digits_eq in H. rewrite frac_odig in *. set (P := dval (pd_digits st)) in *.
  destruct H as [(E & H1 & _)|[(E & H1 & H2 & H3 & H4 & H5 & H6 & H7 & H8)|(E & H1 & tt & R0 & H2 & H3 & H4 & H5 & H6)]].
  - unfold coefficient in CN. rewrite frac_odig in CN. congruence.
  - exact H8.
  - destruct H6 as [(G1 & G2 & G3 & G4 & G5)|(G1 & G2 & G3)]; [exact G5|].
    destruct G3 as (L1 & d & L2 & z1 & T & F1 & F2 & F3 & F4 & F5 & F6 & F7). fold P in F3.
    set (F := odig (n_frac n)) in *.
    assert (DD : Forall digit (n_int n ++ F)) by (apply Forall_app; auto).
    assert (DL1 : Forall digit L1) by (rewrite F1 in DD; apply Forall_app in DD; tauto).
    destruct (zeros_split L1 P z1 DL1 F3 F4) as (A & B & S1 & S2 & S3 & S4). subst L1 z1. rewrite <- app_assoc in F1.
    destruct (first_after_mantissa n c rest Hc) as (c' & r' & E' & N' & _).
    assert (Es : written n ++ c :: rest = mant (n_sign n) (n_int n) (n_frac n) ++ c' :: r').
    { unfold written. now rewrite <- app_assoc, E', mant_text. }
    set (RL := B ++ d :: L2) in *.
    assert (DRL : Forall digit RL) by (rewrite F1 in DD; apply Forall_app in DD; tauto).
    pose proof (dval_bounds RL DRL) as BRL. pose proof (dval_bounds F W2) as BF. pose proof (zlen_nonneg F) as LF. pose proof (pow10_pos _ LF) as PF.
    assert (EN : dval (n_int n ++ F) = P * 10 ^ (j + zlen F) + dval F) by (rewrite dval_app, EI, Z.pow_add_r by lia; ring).
    assert (EN2 : dval (n_int n ++ F) = P * 10 ^ zlen RL + dval RL) by (rewrite F1, dval_app, S4; reflexivity).
    assert (BN : 0 <= dval F < 10 ^ (j + zlen F)).
    { pose proof (Z.pow_le_mono_r 10 (zlen F) (j + zlen F)). lia. }
    destruct (same_split _ P (j + zlen F) _ (zlen RL) (dval RL) ltac:(lia) ltac:(lia) (zlen_nonneg RL) EN BN EN2 BRL) as [Q1 Q2].
    assert (LEN : zlen (n_int n) = zlen A + j).
    { assert (zlen (n_int n) + zlen F = zlen A + zlen RL) by (rewrite <- !zlen_app; f_equal; exact F1). lia. }
    assert (GE : zlen (n_int n) <= zlen A + zlen B).
    { destruct (Z.le_gt_cases (zlen (n_int n)) (zlen A + zlen B)) as [|C]; [assumption|exfalso].
      assert (F1' : (A ++ B) ++ d :: L2 = n_int n ++ F) by (rewrite <- app_assoc; symmetry; exact F1).
      destruct (app_split (A ++ B) (n_int n) (d :: L2) F ltac:(rewrite zlen_app; lia) F1') as (q & Eq & Er).
      destruct q as [|y q]; [rewrite Eq, !zlen_app, zlen_nil in C; lia|]. cbn [app] in Er. injection Er as <- Er.
      rewrite Eq in EI, W1, LEN. rewrite !zlen_app, zlen_cons in LEN. rewrite !dval_app, zlen_cons, dval_cons, S3, S4 in EI.
      apply Forall_app in W1 as [_ W1]. inversion_clear W1 as [|? ? Q3 Q4]. pose proof (dval_bounds _ Q4) as Bq. pose proof (pow10_pos _ (zlen_nonneg q)) as Pq.
      rewrite ?zlen_app in EI. pose proof (zlen_nonneg B). pose proof (zlen_nonneg q).
      replace j with (zlen B + (1 + zlen q)) in EI by lia. rewrite (Z.pow_add_r 10 (zlen B)) in EI by lia.
      set (u := 10 ^ (1 + zlen q)) in *. set (v := 10 ^ zlen B) in *. nia. }
    rewrite F7, (frac_zero _ _ _ _ _ _ A B d L2 T Es W1 W2 F1 S3 ltac:(lia) GE F5). reflexivity.
Qed.

Lemma next_four_range : forall n d K T, next_four n d K T -> 0 <= T < 10000.
Proof.
  intros n d K T (j & R & J & _ & _ & HR & ->). pose proof (pow10_pos j J). split; [apply Z.div_pos; lia|]. apply Z.div_lt_upper_bound; [assumption|]. change (10 ^ 4) with 10000. lia.
Qed.

Lemma parsed_looked : forall t n c rest st, well_formed n -> ends_number c -> parsed t n (written n ++ c :: rest) st -> coefficient n <> 0 ->
  exists T, looked_at t n (dval (pd_digits st)) (power_of n st) T /\ pd_frac st = convert_numerator 4 7 T.
Proof.
  intros t n c rest st W Hc Hp CN. unfold looked_at. destruct (Z.ltb_spec (dval (n_int n)) (10 ^ exact_digits t)) as [L|L].
  - exact (parsed_tail t n c rest st W Hc Hp CN (or_introl L)).
  - pose proof W as (W1 & W2 & _). pose proof (point_moved_parsed t n c rest st W Hc Hp CN) as (Hd & j & R & J0 & EK & E & C).
    set (P := dval (pd_digits st)) in *. set (F := frac_digits n) in *. set (z := zlen F).
    pose proof (zlen_nonneg F) as Z0. fold z in Z0. pose proof (pow10_pos z Z0) as PZ. pose proof (dval_bounds F W2) as BF. fold z in BF.
    assert (HR : 0 <= R < 10 ^ j) by (pose proof (pow10_pos j J0); lia).
    unfold coefficient in E. fold F in E. rewrite dval_app in E. fold z in E.
    assert (LJ : z < j).
    { destruct (Z.lt_ge_cases z j) as [|G]; [assumption|exfalso]. assert (10 ^ j <= 10 ^ z) by (apply Z.pow_le_mono_r; lia). nia. }
    assert (EJ : 10 ^ j = 10 ^ (j - z) * 10 ^ z) by (rewrite <- Z.pow_add_r by lia; f_equal; lia).
    assert (Er : R = R / 10 ^ z * 10 ^ z + dval F /\ dval (n_int n) = P * 10 ^ (j - z) + R / 10 ^ z).
    { pose proof (Z.div_mod R (10 ^ z) ltac:(lia)) as DR. pose proof (Z.mod_pos_bound R (10 ^ z) PZ) as MR. set (r := R / 10 ^ z) in *. set (m := R mod 10 ^ z) in *.
      rewrite EJ in E. set (B := 10 ^ z) in *. set (A := 10 ^ (j - z)) in *. clearbody r m. assert (dval (n_int n) = P * A + r) by nia. split; [|assumption]. nia. }
    destruct Er as [Er EI]. set (r := R / 10 ^ z) in *.
    assert (Br : 0 <= r < 10 ^ (j - z)).
    { split; [apply Z.div_pos; lia|]. apply Z.div_lt_upper_bound; [lia|]. lia. }
    exists (r * 10 ^ 4 / 10 ^ (j - z)). split.
    + exists (j - z), r. split; [lia|]. split.
      { rewrite EK. unfold scale, exponent_value, integer_only. cbn. unfold z, zlen. fold F. lia. }
      split; [unfold coefficient, integer_only; cbn; rewrite app_nil_r; exact EI|]. split; [exact Br|reflexivity].
    + destruct (Z.eq_dec r 0) as [R0|R0].
      * rewrite R0. cbn [Z.mul]. rewrite Z.div_0_l by lia. rewrite R0, Z.add_0_r in EI.
        rewrite (parsed_zero t n c rest st (j - z) W Hc Hp CN ltac:(lia) EI). reflexivity.
      * exact (parsed_tail_int t n c rest st (j - z) r W Hc Hp CN ltac:(lia) EI ltac:(lia)).
Qed.

(** * The whole conversion *)
Lemma krosh_exactly : forall t n c rest d K T, well_formed n -> ends_number c -> within_limits n -> readable_exponent n ->
  point_moved t n d K -> looked_at t n d K T ->
  answered (zlen (written n)) (read_exactly t (is_minus (n_sign n)) d K T) (krosh (fmt_of t) (written n ++ c :: rest)).
Proof.
  intros t n c rest d K T W Hc L X PM LA. pose proof (width_facts t) as Ww. pose proof (width_digits t) as WD.
  assert (CN : coefficient n <> 0).
  { destruct PM as (Hd & j & R & J0 & _ & E & C). pose proof (pow10_pos j J0). rewrite E. nia. }
  destruct (krosh_numeral t n c rest W Hc L) as (st & Hp & _ & HK). specialize (HK CN X).
  destruct (point_moved_unique _ _ _ _ _ _ (point_moved_parsed t n c rest st W Hc Hp CN) PM) as [E1 E2].
  destruct (parsed_looked t n c rest st W Hc Hp CN) as (T' & LA' & FT). rewrite E1, E2 in *.
  assert (T' = T) by exact (tail_unique _ _ _ _ _ LA' LA). subst T'.
  pose proof (next_four_range _ _ _ _ LA) as HT. rewrite (tail_bits_eq T HT) in FT.
  pose proof PM as (Hd & j & R & J0 & EK & E & C). pose proof (pow10_pos j J0) as PJ.
  assert (FB : tail_bits T = 0 \/ 10 ^ (exact_digits t - 1) <= d).
  { destruct C as [[R0 _]|[_ C]]; [left|right; exact C].
    destruct LA as (j' & R' & J' & EK' & EN & HR & ET). 
    assert (T = 0) as ->; [|reflexivity].
    unfold looked_at in *. destruct (Z.ltb_spec (dval (n_int n)) (10 ^ exact_digits t)) as [L1|L1].
    - assert (j' = j) by lia. subst j'. assert (R' = 0) by lia. subst R'. rewrite ET. cbn [Z.mul]. apply Z.div_0_l. lia.
    - pose proof W as (W1 & W2 & _). set (z := zlen (frac_digits n)). pose proof (zlen_nonneg (frac_digits n)) as Z0. fold z in Z0. pose proof (pow10_pos z Z0) as PZ.
      pose proof (dval_bounds _ W2) as BF. fold z in BF. pose proof (pow10_pos j' J') as PJ'.
      assert (j = j' + z).
      { rewrite EK in EK'. unfold scale, exponent_value, integer_only in EK'. cbn in EK'. unfold z, zlen. lia. }
      subst j. unfold coefficient in E. rewrite dval_app in E. fold z in E. rewrite Z.pow_add_r in E by lia.
      assert (EI : dval (n_int n) = d * 10 ^ j' + R').
      { rewrite <- EN. unfold coefficient, integer_only. cbn. now rewrite app_nil_r. }
      rewrite EI in E. assert (R' = 0) by nia. subst R'. rewrite ET. cbn [Z.mul]. apply Z.div_0_l. lia. }
  destruct (mantissa_exactly t d T ltac:(lia) HT FB) as (f & e & M1 & M2 & M3 & M4). rewrite <- FT in M2.
  pose proof (pow2_pos (width t - 1) ltac:(lia)) as PW. specialize (HK _ M2 ltac:(cbn [m_f]; lia)). rewrite HK.
  unfold read_exactly. rewrite M1.
  assert (EL : fpow_lo (fmt_of t) = - largest_power t /\ fpow_hi (fmt_of t) = largest_power t) by (destruct t; auto).
  assert (0 <= largest_power t) by (destruct t; cbn; lia).
  assert (EI : huge_value (fmt_of t) = infinity_of t false) by (destruct t; reflexivity).
  destruct (Z.ltb_spec K (- largest_power t)) as [K1|K1]; [|destruct (Z.ltb_spec (largest_power t) K) as [K2|K2]].
  - unfold kr_scale. destruct EL as [-> _]. destruct (Z.eqb_spec K 0); [lia|]. destruct (Z.leb_spec (- largest_power t) K); [lia|]. reflexivity.
  - unfold kr_scale. destruct EL as [-> ->]. destruct (Z.eqb_spec K 0); [lia|]. destruct (Z.leb_spec (- largest_power t) K); [|lia].
    destruct (Z.leb_spec K (largest_power t)); [lia|]. rewrite EI. reflexivity.
  - rewrite <- table_largest in *. destruct (scaled_exactly t (is_minus (n_sign n)) (zlen (written n)) K f e M3 M4 ltac:(lia)) as (g & x & S1 & S2 & S3 & S4).
    rewrite S1, S2. exact (rounded_exactly t (is_minus (n_sign n)) (zlen (written n)) g x S3 S4).
Qed.
