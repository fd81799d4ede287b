(** The binary fraction taken from the digits that did not fit, and the rounded mantissa. *)
From Coq Require Import Reals Lra Lia ZArith List String Ascii.
From Flocq Require Import Core.
From Verif Require Import Machine MachineFacts BitOps StaticPow Fraction Format DiyFp KComp Krosh Atof Spec ParseSpec Instances
  DiyFacts BoundFacts TableFacts GrisuFacts FtoaFacts RoundFacts DownFacts DvalFacts CmpFacts ArithProps ScanFacts LoopFacts ParseFacts GapFacts KroshNum ShortFacts.
Open Scope Z_scope.

Lemma app_split : forall (a b x y : list Z), zlen a <= zlen b -> a ++ x = b ++ y -> exists m, b = a ++ m /\ x = m ++ y.
Proof.
  induction a as [|h a IH]; intros b x y L E.
  - exists b. auto.
  - destruct b as [|h' b]; [rewrite zlen_cons, zlen_nil in L; pose proof (zlen_nonneg a); lia|].
    cbn [app] in E. injection E as -> E. rewrite !zlen_cons in L.
    destruct (IH b x y ltac:(lia) E) as (m & -> & ->). exists m. auto.
Qed.

Lemma trunc_digits : forall l m, Forall digit (l ++ m) -> l <> [] ->
  let T := dval (firstn 4 (l ++ repeat 0 4)) in let RL := l ++ m in
  0 <= dval RL * 10 ^ 4 - T * 10 ^ zlen RL < 10 ^ (zlen RL + 3).
Proof.
  intros l m D N T RL.
  set (j := Nat.min 4 (List.length l)).
  assert (J : (1 <= j <= 4)%nat) by (unfold j; destruct l; [congruence|cbn [List.length]; lia]).
  assert (EF : firstn 4 (l ++ repeat 0 4) = firstn j l ++ repeat 0 (4 - j)).
  { rewrite firstn_app. f_equal.
    - unfold j. destruct (Nat.le_ge_cases 4 (List.length l)) as [G|G]; [now rewrite Nat.min_l|].
      rewrite Nat.min_r by assumption. rewrite !firstn_all2 by lia. reflexivity.
    - replace (4 - List.length l)%nat with (4 - j)%nat by (unfold j; lia).
      destruct j as [|[|[|[|[|?]]]]]; try lia; reflexivity. }
  assert (EL : RL = firstn j l ++ (skipn j l ++ m)) by (unfold RL; rewrite app_assoc, firstn_skipn; reflexivity).
  assert (Dr : Forall digit (skipn j l ++ m)) by (fold RL in D; rewrite EL in D; apply Forall_app in D; tauto).
  pose proof (dval_bounds _ Dr) as BR.
  assert (LJ : zlen (firstn j l) = Z.of_nat j) by (unfold zlen; rewrite firstn_length; unfold j; lia).
  set (r := skipn j l ++ m) in *.
  assert (ET : T = dval (firstn j l) * 10 ^ (4 - Z.of_nat j)).
  { unfold T. rewrite EF, dval_app, dval_zeros, zlen_repeat. replace (Z.of_nat (4 - j)) with (4 - Z.of_nat j) by lia. lia. }
  rewrite ET, EL, dval_app, zlen_app, LJ. pose proof (zlen_nonneg r).
  replace (dval (firstn j l) * 10 ^ (4 - Z.of_nat j) * 10 ^ (Z.of_nat j + zlen r)) with (dval (firstn j l) * 10 ^ zlen r * 10 ^ 4).
  2:{ rewrite <- !Z.mul_assoc, <- !Z.pow_add_r by lia. do 2 f_equal. lia. }
  assert (dval r * 10 ^ 4 < 10 ^ zlen r * 10 ^ 4) by (apply Z.mul_lt_mono_pos_r; lia).
  rewrite <- Z.pow_add_r in H0 by lia.
  assert (10 ^ (zlen r + 4) <= 10 ^ (Z.of_nat j + zlen r + 3)) by (apply Z.pow_le_mono_r; lia).
  assert (0 <= dval r * 10 ^ 4) by lia. lia.
Qed.

Lemma dval_zero_all : forall l, Forall digit l -> dval l = 0 -> l = repeat 0 (List.length l).
Proof.
  induction l as [|d l IH]; intros D E; [reflexivity|]. inversion_clear D as [|? ? Dd Dl]. rewrite dval_cons in E.
  pose proof (dval_bounds l Dl). pose proof (pow10_pos (zlen l) (zlen_nonneg l)). unfold digit in Dd.
  assert (d = 0) by nia. subst d. cbn [List.length repeat]. f_equal. apply IH; [assumption|lia].
Qed.

Lemma frac_text : forall s sg I F c rest A B d D2 T, s = mant sg I F ++ c :: rest -> nondigit c ->
  Forall digit I -> Forall digit (odig F) -> I ++ odig F = A ++ B ++ d :: D2 -> dval B = 0 ->
  extract_fraction_digits 4 s (zlen (sign_text sg) + zlen (A ++ B) +
      b2z (zlen (I ++ odig F) - zlen (odig F) <=? zlen (A ++ B)) - zlen B) = Ok T ->
  let RL := B ++ d :: D2 in
  0 <= dval RL * 10 ^ 4 - T * 10 ^ zlen RL < 10 ^ (zlen RL + 3).
Proof.
  intros s sg I F c rest A B d D2 T Es Nc DI DF ED ZB ET RL.
  assert (DD : Forall digit (I ++ odig F)) by (apply Forall_app; auto).
  assert (DRL : Forall digit RL) by (rewrite ED in DD; apply Forall_app in DD; tauto).
  pose proof (zlen_nonneg A) as LA. pose proof (zlen_nonneg B) as LB. pose proof (zlen_nonneg D2) as LD2.
  pose proof (zlen_nonneg I) as LI. pose proof (zlen_nonneg (odig F)) as LF.
  assert (LE : zlen I + zlen (odig F) = zlen A + zlen B + 1 + zlen D2).
  { rewrite <- zlen_app, ED, !zlen_app, zlen_cons. lia. }
  rewrite (zlen_app I), (zlen_app A) in ET. replace (zlen I + zlen (odig F) - zlen (odig F)) with (zlen I) in ET by lia.
  destruct (Z.leb_spec (zlen I) (zlen A + zlen B)) as [L1|L1]; cbn [b2z] in ET.
  - (* the point comes before d *)
    destruct F as [f|]; [|cbn [odig] in *; rewrite zlen_nil in *; lia]. cbn [odig] in *.
    destruct (Z.le_gt_cases (zlen I) (zlen A)) as [L2|L2].
    + destruct (app_split I A f RL L2 ED) as (m & EA & Ef). subst A.
      assert (E1 : s = (sign_text sg ++ dchars I ++ 46 :: dchars m) ++ dchars RL ++ c :: rest).
      { rewrite Es. unfold mant. rewrite Ef, dchars_app, <- !app_assoc. cbn [app]. rewrite <- !app_assoc. reflexivity. }
      rewrite E1, extract_at in ET; try assumption; try lia.
      2:{ rewrite !zlen_app, zlen_cons, !zlen_dchars. rewrite !zlen_app in *. lia. }
      injection ET as <-. pose proof (trunc_digits RL []) as TD. cbv zeta in TD. rewrite app_nil_r in TD. apply TD; [assumption|].
      unfold RL. now destruct B.
    + (* the point is inside the zeros *)
      assert (EB : exists B1 B2, B = 0 :: B1 ++ B2 /\ I = A ++ 0 :: B1).
      { destruct (app_split A I RL f ltac:(lia) (eq_sym ED)) as (m & EI & Em).
        assert (L3 : zlen m <= zlen B) by (rewrite EI, zlen_app in L1; lia).
        unfold RL in Em. destruct (app_split m B f (d :: D2) L3 (eq_sym Em)) as (m2 & EBB & Ef).
        assert (Bz : B = repeat 0 (List.length B)).
        { apply dval_zero_all; [|assumption]. unfold RL in DRL. apply Forall_app in DRL. tauto. }
        destruct m as [|x m]; [rewrite EI, zlen_app, zlen_nil in L2; lia|].
        destruct B as [|b B]; [discriminate|]. cbn [List.length repeat] in Bz. injection Bz as Hb Bz.
        cbn [app] in EBB. injection EBB as Hx EBB. exists m, m2. subst x b. rewrite EBB, EI. auto. }
      destruct EB as (B1 & B2 & EB & EI).
      assert (DB1 : Forall digit B1). { rewrite EI in DI. apply Forall_app in DI as [_ DI]. now inversion DI. }
      assert (ZB1 : dval B1 = 0).
      { subst B. rewrite dval_cons, dval_app in ZB. pose proof (dval_bounds B1 DB1).
        assert (Forall digit B2). { unfold RL in DRL. apply Forall_app in DRL as [DRL _]. inversion DRL; subst. apply Forall_app in H3. tauto. }
        pose proof (dval_bounds B2 H0). pose proof (pow10_pos (zlen B2) (zlen_nonneg B2)). nia. }
      assert (E1 : s = (sign_text sg ++ dchars A ++ [48]) ++ dchars B1 ++ 46 :: dchars f ++ c :: rest).
      { rewrite Es, EI. unfold mant. rewrite dchars_app, <- !app_assoc. cbn [app dchars map]. rewrite <- ?app_assoc. reflexivity. }
      rewrite E1, extract_at in ET; try assumption; try lia.
      2:{ unfold nondigit; lia. }
      2:{ rewrite !zlen_app, zlen_cons, zlen_nil, !zlen_dchars. lia. }
      assert (Z0 : dval (firstn 4 (B1 ++ repeat 0 4)) = 0).
      { rewrite (dval_zero_all B1 DB1 ZB1), <- repeat_app. set (k := (List.length B1 + 4)%nat).
        assert (exists k', k = (4 + k')%nat) as (k' & ->) by (exists (List.length B1); unfold k; lia). reflexivity. }
      assert (T = 0) as -> by congruence. unfold RL. subst B. cbn [app]. rewrite dval_cons, zlen_cons.
      assert (Dr : Forall digit ((B1 ++ B2) ++ d :: D2)) by (unfold RL in DRL; cbn [app] in DRL; now inversion DRL).
      pose proof (dval_bounds _ Dr) as BR. set (r := (B1 ++ B2) ++ d :: D2) in *. pose proof (zlen_nonneg r).
      replace (1 + zlen r + 3) with (zlen r + 4) by lia. rewrite (Z.pow_add_r 10 (zlen r) 4) by lia.
      assert (dval r * 10 ^ 4 < 10 ^ zlen r * 10 ^ 4) by (apply Z.mul_lt_mono_pos_r; lia). rewrite !Z.mul_0_l, Z.add_0_l, Z.sub_0_r. lia.
  - (* d is before the point *)
    destruct (app_split (A ++ B) I (d :: D2) (odig F) ltac:(rewrite zlen_app; lia)) as (m & EI & Em).
    { rewrite <- app_assoc. symmetry. exact ED. }
    destruct m as [|x m]; [rewrite EI, !zlen_app, zlen_nil in L1; lia|]. cbn [app] in Em. injection Em as -> ->.
    assert (E1 : exists c' r', nondigit c' /\ s = (sign_text sg ++ dchars A) ++ dchars (B ++ x :: m) ++ c' :: r').
    { rewrite Es, EI. unfold mant. destruct F as [f|].
      - exists 46, (dchars f ++ c :: rest). split; [unfold nondigit; lia|].
        rewrite !dchars_app, <- !app_assoc. reflexivity.
      - exists c, rest. split; [assumption|]. rewrite !dchars_app, app_nil_r, <- !app_assoc. reflexivity. }
    destruct E1 as (c' & r' & Nc' & E1). unfold RL in *.
    assert (EE : B ++ x :: m ++ odig F = (B ++ x :: m) ++ odig F) by (rewrite <- app_assoc; reflexivity).
    rewrite E1, extract_at in ET; try assumption; try lia.
    2:{ rewrite EE in DRL. apply Forall_app in DRL. tauto. }
    2:{ rewrite zlen_app, zlen_dchars. lia. }
    injection ET as <-. rewrite EE in *. apply trunc_digits; [assumption|]. destruct B; discriminate.
Qed.

(** * The rounded mantissa *)

Lemma half_even_error : forall x n, 1 <= n -> - 2 ^ (n - 1) <= half_even x n * 2 ^ n - x <= 2 ^ (n - 1).
Proof.
  intros x n Hn. unfold half_even. cbv zeta. pose proof (pow2_half n Hn) as E. pose proof (pow2_pos (n - 1) ltac:(lia)).
  pose proof (Z.div_mod x (2 ^ n) ltac:(lia)) as D. pose proof (Z.mod_pos_bound x (2 ^ n) ltac:(lia)) as M.
  set (q := x / 2 ^ n) in *. set (r := x mod 2 ^ n) in *.
  destruct (Z.ltb_spec r (2 ^ (n - 1))); [lia|]. destruct (Z.ltb_spec (2 ^ (n - 1)) r); [lia|].
  destruct (Z.even q); lia.
Qed.

Definition frac_shift (t : ftype) : Z := match t with Float => 5 | Double => 4 end.

Lemma full_shift : forall t P n, 10 ^ (exact_digits t - 1) <= P -> P * 2 ^ n < 2 ^ width t -> 0 <= n -> n <= frac_shift t.
Proof.
  intros t P n HP Hn H0. destruct (Z.le_gt_cases n (frac_shift t)) as [|G]; [assumption|exfalso].
  assert (2 ^ (frac_shift t + 1) <= 2 ^ n) by (apply Z.pow_le_mono_r; lia).
  assert (10 ^ (exact_digits t - 1) * 2 ^ (frac_shift t + 1) <= P * 2 ^ n).
  { apply Z.mul_le_mono_nonneg; try lia; apply Z.pow_nonneg; lia. }
  assert (2 ^ width t < 10 ^ (exact_digits t - 1) * 2 ^ (frac_shift t + 1)) by (destruct t; apply Z.ltb_lt; vm_compute; reflexivity).
  lia.
Qed.

Lemma kr_mantissa_ok : forall t P frac, 0 < P < 2 ^ width t -> 0 <= frac <= 127 ->
  frac = 0 \/ 10 ^ (exact_digits t - 1) <= P ->
  exists n f e, 0 <= n < width t /\ (10 ^ (exact_digits t - 1) <= P -> n <= frac_shift t) /\
    kr_mantissa (fmt_of t) P frac = Ok (mk_diy f e) /\ 2 ^ (width t - 1) <= f < 2 ^ width t /\ - n <= e <= 1 /\
    (IZR f * bpow radix2 e = IZR P + IZR (if frac =? 0 then 0 else half_even frac (7 - n)) * bpow radix2 (- n))%R.
Proof.
  intros t P frac HP Hf Hc. pose proof (width_facts t) as W.
  destruct (normalize_ok t P 0 HP) as (n & N1 & N2 & N3); [lia|].
  assert (EM : (IZR (P * 2 ^ n) * bpow radix2 (- n) = IZR P)%R).
  { rewrite mult_IZR, <- (bpow_IZR radix2) by lia. rewrite Rmult_assoc, <- bpow_plus. replace (n + - n) with 0 by lia. cbn. ring. }
  exists n. unfold kr_mantissa. rewrite N3. cbn [bind]. unfold round_mantissa. cbn [m_f m_e].
  destruct (Z.eqb_spec frac 0) as [->|Nf]; cbn [negb].
  - exists (P * 2 ^ n), (0 - n). split; [lia|]. split; [intros Q; apply (full_shift t P n Q); lia|]. split; [reflexivity|]. split; [lia|]. split; [lia|].
    replace (0 - n) with (- n) by lia. rewrite EM. ring.
  - assert (HP2 : 10 ^ (exact_digits t - 1) <= P) by (destruct Hc; [congruence|assumption]).
    pose proof (full_shift t P n HP2 ltac:(lia) ltac:(lia)) as Hn.
    assert (Hn5 : n <= 5) by (destruct t; cbn in Hn; lia).
    change (Z.of_nat fraction_binary_digits) with 7.
    assert (G : (- (7) <? 0 - n) = true) by (apply Z.ltb_lt; lia). rewrite G. cbn [assert_ bind].
    replace (7 + (0 - n)) with (7 - n) by lia. rewrite (wrap_small 64) by lia.
    rewrite shr_ok by lia. cbn [bind]. pose proof (pow2_pos n ltac:(lia)) as P2.
    assert (B1 : 0 <= frac / 2 ^ (7 - n) < 2 ^ n).
    { split; [apply Z.div_pos; [lia|apply pow2_pos; lia]|]. apply Z.div_lt_upper_bound; [apply pow2_pos; lia|].
      rewrite <- Z.pow_add_r by lia. replace (7 - n + n) with 7 by lia. change (2 ^ 7) with 128. lia. }
    rewrite lor_disjoint by lia.
    rewrite round_up_ok by lia. cbn [bind rr_value].
    set (h := half_even frac (7 - n)).
    pose proof (half_even_cases frac (7 - n)) as HC. fold h in HC. clearbody h. set (q := frac / 2 ^ (7 - n)) in *. clearbody q.
    assert (F0 : P * 2 ^ n + 2 ^ n <= 2 ^ width t).
    { replace (2 ^ width t) with (2 ^ (width t - n) * 2 ^ n) in * by (rewrite <- Z.pow_add_r by lia; f_equal; lia).
      assert (P < 2 ^ (width t - n)) by (apply Z.mul_lt_mono_pos_r with (2 ^ n); lia). nia. }
    destruct HC as [Eh|Eh].
    + rewrite Eh, Z.eqb_refl. cbn [negb].
      exists (P * 2 ^ n + q), (0 - n). split; [lia|]. split; [lia|]. split; [reflexivity|].
      split; [lia|]. split; [lia|]. replace (0 - n) with (- n) by lia. rewrite plus_IZR, Rmult_plus_distr_r, EM. reflexivity.
    + destruct (Z.eqb_spec h (q)); [lia|]. cbn [negb].
      destruct (C20_increment t (mk_diy (P * 2 ^ n + q) (0 - n))) as ([f' e'] & I1 & I2 & I3).
      { split; cbn [m_f m_e]; lia. }
      rewrite I1. exists f', e'. split; [lia|]. split; [lia|]. split; [reflexivity|]. cbn [m_f] in I2.
      unfold diy_value in I3. cbn [m_f m_e] in I3.
      assert (I4 : (f' = P * 2 ^ n + q + 1 /\ e' = - n) \/ (f' = 2 ^ (width t - 1) /\ e' = 1 - n)).
      { unfold diy_inc in I1. cbn [m_f m_e] in I1. rewrite fw_width in I1.
        destruct (Z.ltb_spec (P * 2 ^ n + q) (2 ^ width t - 1)).
        - injection I1 as <- <-. left. lia.
        - right. rewrite sint_ok in I1 by lia. cbn [bind] in I1. injection I1 as <- <-. split; [|lia].
          assert (P * 2 ^ n + q = 2 ^ width t - 1) as -> by lia.
          rewrite Z.shiftr_div_pow2 by lia. change (2 ^ 1) with 2. pose proof (pow2_half (width t) ltac:(lia)).
          pose proof (pow2_half (width t - 1) ltac:(lia)). pose proof (pow2_pos (width t - 1 - 1) ltac:(lia)).
          assert (D : (2 ^ width t - 1) / 2 = 2 ^ (width t - 1) - 1) by (symmetry; apply Z.div_unique with 1; lia).
          rewrite D. rewrite wrap_small; lia. }
      pose proof (pow2_half (width t) ltac:(lia)). pose proof (pow2_half (width t - 1) ltac:(lia)).
      split; [|split].
      * destruct I4 as [(-> & _)|(-> & _)]; [lia|]. pose proof (pow2_pos (width t - 1) ltac:(lia)). lia.
      * destruct I4 as [(_ & ->)|(_ & ->)]; lia.
      * rewrite I3. replace (0 - n) with (- n) by lia. rewrite Eh, !plus_IZR, !Rmult_plus_distr_r. rewrite <- EM. ring.
Qed.
