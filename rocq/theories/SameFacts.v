(** How much of a number the parser knows, as a function of its value. *)
From Coq Require Import Reals Lra Lia ZArith List String Ascii.
From Flocq Require Import Core.
From Verif Require Import Machine MachineFacts BitOps StaticPow Fraction Format DiyFp KComp Krosh Atof Spec ParseSpec SameSpec ParseApi Instances
  DiyFacts BoundFacts TableFacts GrisuFacts FtoaFacts RoundFacts DownFacts DvalFacts CmpFacts ArithProps ScanFacts LoopFacts ParseFacts GapFacts KroshNum ShortFacts FracFacts LongFacts RangeFacts ScaledFacts.
Open Scope Z_scope.

(** the first four of the digits [l ++ m], when [m] does not reach into them *)
Lemma first_four : forall l m, Forall digit (l ++ m) -> 4 <= zlen l \/ dval m = 0 ->
  dval (firstn 4 (l ++ repeat 0 4)) = dval (l ++ m) * 10 ^ 4 / 10 ^ zlen (l ++ m).
Proof.
  intros l m D C. apply Forall_app in D as [Dl Dm]. pose proof (dval_bounds m Dm) as Bm. pose proof (zlen_nonneg m) as Lm.
  pose proof (zlen_nonneg l) as Ll. pose proof (pow10_pos (zlen m) Lm) as Pm. pose proof (pow10_pos (zlen l) Ll) as Pl.
  rewrite dval_app, zlen_app.
  destruct (Z.le_gt_cases 4 (zlen l)) as [G|G].
  - rewrite firstn_app. replace (4 - List.length l)%nat with 0%nat by (unfold zlen in G; lia). rewrite firstn_O, app_nil_r.
    assert (E : l = firstn 4 l ++ skipn 4 l) by (symmetry; apply firstn_skipn). set (a := firstn 4 l) in *. set (b := skipn 4 l) in *.
    assert (La : zlen a = 4) by (unfold zlen, a in *; rewrite firstn_length; lia).
    rewrite E in Dl. apply Forall_app in Dl as [Da Db]. pose proof (dval_bounds b Db) as Bb. pose proof (zlen_nonneg b) as Lb.
    pose proof (pow10_pos (zlen b) Lb) as Pb.
    rewrite E, dval_app, zlen_app, La.
    apply Z.div_unique with (r := (dval b * 10 ^ zlen m + dval m) * 10 ^ 4).
    + left. split; [apply Z.mul_nonneg_nonneg; [nia|lia]|].
      replace (4 + zlen b + zlen m) with (zlen b + zlen m + 4) by lia. rewrite !Z.pow_add_r by lia.
      apply Z.mul_lt_mono_pos_r; [lia|]. nia.
    + replace (4 + zlen b + zlen m) with (zlen b + zlen m + 4) by lia. rewrite !Z.pow_add_r by lia. ring.
  - destruct C as [C|C]; [lia|]. rewrite C, Z.add_0_r, Z.pow_add_r by lia.
    replace (dval l * 10 ^ zlen m * 10 ^ 4) with (dval l * 10 ^ 4 * 10 ^ zlen m) by ring. rewrite Z.div_mul_cancel_r by lia.
    rewrite firstn_app, firstn_all2 by (unfold zlen in G; lia). rewrite dval_app.
    assert (X : exists k, firstn (4 - List.length l) (repeat 0 4) = repeat 0 k /\ Z.of_nat k = 4 - zlen l).
    { unfold zlen in *. exists (4 - List.length l)%nat. split; [|lia].
      destruct l as [|? [|? [|? [|? l]]]]; reflexivity. }
    destruct X as (k & -> & Ek). rewrite dval_zeros. replace (zlen (repeat 0 k)) with (4 - zlen l) by (unfold zlen in *; rewrite repeat_length; lia).
    apply Z.div_unique_exact; [lia|]. rewrite Z.add_0_r. replace 4 with (4 - zlen l + zlen l) at 1 by lia. rewrite Z.pow_add_r by lia. ring.
Qed.

(** the four digits the parser looks at, exactly *)
Lemma frac_exact : forall s sg I F c rest A B d D2 T, s = mant sg I F ++ c :: rest -> nondigit c ->
  Forall digit I -> Forall digit (odig F) -> I ++ odig F = A ++ B ++ d :: D2 -> dval B = 0 -> 0 < d ->
  zlen I <= zlen A \/ zlen A + 4 <= zlen I \/ dval (odig F) = 0 ->
  extract_fraction_digits 4 s (zlen (sign_text sg) + zlen (A ++ B) +
      b2z (zlen (I ++ odig F) - zlen (odig F) <=? zlen (A ++ B)) - zlen B) = Ok T ->
  let RL := B ++ d :: D2 in T = dval RL * 10 ^ 4 / 10 ^ zlen RL.
Proof.
  intros s sg I F c rest A B d D2 T Es Nc DI DF ED ZB Pd UD ET RL.
  assert (DD : Forall digit (I ++ odig F)) by (apply Forall_app; auto).
  assert (DRL : Forall digit RL) by (rewrite ED in DD; apply Forall_app in DD; tauto).
  pose proof (zlen_nonneg A) as LA. pose proof (zlen_nonneg B) as LB. pose proof (zlen_nonneg D2) as LD2.
  pose proof (zlen_nonneg I) as LI. pose proof (zlen_nonneg (odig F)) as LF.
  assert (LE : zlen I + zlen (odig F) = zlen A + zlen B + 1 + zlen D2).
  { rewrite <- zlen_app, ED, !zlen_app, zlen_cons. lia. }
  rewrite (zlen_app I), (zlen_app A) in ET. replace (zlen I + zlen (odig F) - zlen (odig F)) with (zlen I) in ET by lia.
  destruct (Z.leb_spec (zlen I) (zlen A + zlen B)) as [L1|L1]; cbn [b2z] in ET.
  - destruct F as [f|]; [|cbn [odig] in *; rewrite zlen_nil in *; lia]. cbn [odig] in *.
    destruct (Z.le_gt_cases (zlen I) (zlen A)) as [L2|L2].
    + destruct (app_split I A f RL L2 ED) as (m & EA & Ef). subst A.
      assert (E1 : s = (sign_text sg ++ dchars I ++ 46 :: dchars m) ++ dchars RL ++ c :: rest).
      { rewrite Es. unfold mant. rewrite Ef, dchars_app, <- !app_assoc. cbn [app]. rewrite <- !app_assoc. reflexivity. }
      rewrite E1, extract_at in ET; try assumption; try lia.
      2:{ rewrite !zlen_app, zlen_cons, !zlen_dchars. rewrite !zlen_app in *. lia. }
      assert (T = dval (firstn 4 (RL ++ repeat 0 4))) as -> by congruence.
      pose proof (first_four RL []) as FF. rewrite app_nil_r in FF. apply FF; [assumption|right; reflexivity].
    + destruct (app_split A I RL f ltac:(lia) (eq_sym ED)) as (m & EI & Em).
      assert (L3 : zlen m <= zlen B) by (rewrite EI, zlen_app in L1; lia).
      unfold RL in Em. destruct (app_split m B f (d :: D2) L3 (eq_sym Em)) as (m2 & EBB & Ef).
      assert (DB : Forall digit B) by (unfold RL in DRL; apply Forall_app in DRL; tauto).
      assert (Bz : B = repeat 0 (List.length B)) by now apply dval_zero_all.
      assert (F0 : dval f <> 0).
      { rewrite Ef, dval_app. rewrite Ef in DF. apply Forall_app in DF as [Q1 Q2]. pose proof (dval_bounds _ Q1).
        inversion_clear Q2 as [|? ? Q3 Q4]. pose proof (dval_bounds _ Q4). rewrite dval_cons. pose proof (pow10_pos (zlen D2) LD2).
        pose proof (zlen_nonneg (d :: D2)) as Z9. pose proof (pow10_pos _ Z9). nia. }
      destruct UD as [UD|[UD|UD]]; [lia| |contradiction].
      assert (G4 : 4 <= zlen B) by lia.
      (* both are zero *)
      assert (Z1 : dval RL * 10 ^ 4 / 10 ^ zlen RL = 0).
      { pose proof (first_four B (d :: D2)) as FF. unfold RL. rewrite <- FF; [|exact DRL|left; exact G4].
        rewrite Bz, <- repeat_app. set (k := (List.length B + 4)%nat). assert (exists k', k = (4 + k')%nat) as (k' & ->) by (exists (List.length B); unfold k; lia). reflexivity. }
      rewrite Z1.
      destruct m as [|x m]; [rewrite EI, zlen_app, zlen_nil in L2; lia|].
      assert (Dm : Forall digit (x :: m) /\ dval (x :: m) = 0).
      { rewrite EBB in DB, ZB. apply Forall_app in DB as [Q1 Q2]. split; [exact Q1|]. rewrite dval_app in ZB.
        pose proof (dval_bounds _ Q1). pose proof (dval_bounds _ Q2). pose proof (pow10_pos (zlen m2) (zlen_nonneg m2)). nia. }
      destruct Dm as [Dm Zm]. pose proof (dval_zero_all _ Dm Zm) as Em0. cbn [List.length repeat] in Em0. injection Em0 as Ex Em0.
      assert (Dm1 : Forall digit m) by (now inversion Dm).
      assert (E1 : s = (sign_text sg ++ dchars A ++ [48]) ++ dchars m ++ 46 :: dchars f ++ c :: rest).
      { rewrite Es, EI, Ex. unfold mant. rewrite dchars_app, <- !app_assoc. cbn [app dchars map]. rewrite <- ?app_assoc. reflexivity. }
      rewrite E1, extract_at in ET; try assumption; try lia.
      2:{ unfold nondigit; lia. }
      2:{ rewrite !zlen_app, zlen_cons, zlen_nil, !zlen_dchars. lia. }
      assert (T = dval (firstn 4 (m ++ repeat 0 4))) as -> by congruence.
      rewrite Em0, <- repeat_app. set (k := (List.length m + 4)%nat).
      assert (exists k', k = (4 + k')%nat) as (k' & ->) by (exists (List.length m); unfold k; lia). reflexivity.
  - destruct (app_split (A ++ B) I (d :: D2) (odig F) ltac:(rewrite zlen_app; lia)) as (m & EI & Em).
    { rewrite <- app_assoc. symmetry. exact ED. }
    destruct m as [|x m]; [rewrite EI, !zlen_app, zlen_nil in L1; lia|]. cbn [app] in Em. injection Em as -> ->.
    assert (E1 : exists c' r', nondigit c' /\ s = (sign_text sg ++ dchars A) ++ dchars (B ++ x :: m) ++ c' :: r').
    { rewrite Es, EI. unfold mant. destruct F as [f|].
      - exists 46, (dchars f ++ c :: rest). split; [unfold nondigit; lia|].
        rewrite !dchars_app, <- !app_assoc. reflexivity.
      - exists c, rest. split; [assumption|]. rewrite !dchars_app, app_nil_r, <- !app_assoc. reflexivity. }
    destruct E1 as (c' & r' & Nc' & E1). unfold RL in *.
    assert (EE : B ++ x :: m ++ odig F = (B ++ x :: m) ++ odig F) by (rewrite <- app_assoc; reflexivity).
    rewrite E1, extract_at in ET; try assumption; try lia.
    2:{ rewrite EE in DRL. apply Forall_app in DRL. tauto. }
    2:{ rewrite zlen_app, zlen_dchars. lia. }
    rewrite EE in *.
    assert (T = dval (firstn 4 ((B ++ x :: m) ++ repeat 0 4))) as -> by congruence.
    apply first_four; [assumption|].
    rewrite EI in UD. rewrite !zlen_app, zlen_cons in *. destruct UD as [UD|[UD|UD]]; [pose proof (zlen_nonneg m); lia|left; lia|right; exact UD].
Qed.

(** [T] are the four digits behind the point moved behind [d] *)
Definition moved_tail (n : numeral) (d K T : Z) : Prop :=
  exists j R, 0 <= j /\ K = scale n + j /\ coefficient n = d * 10 ^ j + R /\ 0 <= R < 10 ^ j /\ T = R * 10 ^ 4 / 10 ^ j.

Lemma parsed_tail : forall t n c rest st, well_formed n -> ends_number c -> parsed t n (written n ++ c :: rest) st -> coefficient n <> 0 ->
  point_clear t n ->
  exists T, moved_tail n (dval (pd_digits st)) (power_of n st) T /\ pd_frac st = convert_numerator 4 7 T.
Proof.
  intros t n c rest st W Hc Hp CN PC. pose proof W as (W1 & W2 & _).
  destruct Hp as (_ & _ & _ & _ & _ & D1 & D2 & D3 & D4 & H).
  rewrite exact_digits_eq in H. unfold moved_tail, power_of, scale, coefficient in *. rewrite frac_odig in *. fold (zlen (odig (n_frac n))).
  set (P := dval (pd_digits st)) in *.
  assert (KP : 0 < exact_digits t) by (destruct t; cbn; lia).
  destruct H as [(E & H1 & _)|[(E & H1 & H2 & H3 & H4 & H5 & H6 & H7 & H8)|(E & H1 & tt & R & H2 & H3 & H4 & H5 & H6)]].
  - congruence.
  - exists 0. split; [|rewrite H8; reflexivity]. exists (pd_zeros st), 0. pose proof (pow10_pos (pd_zeros st) ltac:(lia)).
    split; [lia|]. split; [lia|]. split; [lia|]. split; [lia|]. reflexivity.
  - destruct H6 as [(G1 & G2 & G3 & G4 & G5)|(G1 & G2 & G3)].
    + exists 0. split; [|rewrite G5; reflexivity]. exists tt, 0. pose proof (pow10_pos tt ltac:(lia)).
      split; [lia|]. split; [lia|]. split; [lia|]. split; [lia|]. reflexivity.
    + destruct G3 as (L1 & d & L2 & z1 & T & F1 & F2 & F3 & F4 & F5 & F6 & F7). fold P in F3.
      exists T. split; [|exact F7]. exists tt, R. split; [lia|]. split; [lia|]. split; [exact H3|]. split; [lia|].
      assert (DD : Forall digit (n_int n ++ odig (n_frac n))).
      { apply Forall_app. rewrite <- frac_odig. auto. }
      assert (DL1 : Forall digit L1) by (rewrite F1 in DD; apply Forall_app in DD; tauto).
      destruct (zeros_split L1 P z1 DL1 F3 F4) as (A & B & S1 & S2 & S3 & S4). subst L1 z1. rewrite <- app_assoc in F1.
      destruct (first_after_mantissa n c rest Hc) as (c' & r' & E' & N' & _).
      assert (Es : written n ++ c :: rest = mant (n_sign n) (n_int n) (n_frac n) ++ c' :: r').
      { unfold written. now rewrite <- app_assoc, E', mant_text. }
      assert (LB : 10 ^ (exact_digits t - 1) <= P < 10 ^ exact_digits t).
      { unfold P. destruct (pd_digits st) as [|x l] eqn:Ed; [rewrite zlen_nil in E; lia|]. cbn [hd] in H1. rewrite zlen_cons in E. split.
        - replace (exact_digits t - 1) with (zlen l) by lia. now apply dval_lower.
        - pose proof (dval_bounds _ D1) as B1. rewrite zlen_cons in B1. replace (exact_digits t) with (1 + zlen l) by lia. lia. }
      assert (E10 : 10 ^ exact_digits t = 10 ^ (exact_digits t - 1) * 10).
      { replace (exact_digits t) with (exact_digits t - 1 + 1) at 1 by lia. rewrite Z.pow_add_r by lia. reflexivity. }
      assert (P3 : 10 ^ (exact_digits t + 3) = 10 ^ exact_digits t * 1000) by (rewrite Z.pow_add_r by lia; reflexivity).
      assert (UD : zlen (n_int n) <= zlen A \/ zlen A + 4 <= zlen (n_int n) \/ dval (odig (n_frac n)) = 0).
      { destruct (Z.le_gt_cases (zlen (n_int n)) (zlen A)) as [C1|C1]; [now left|right].
        destruct (app_split A (n_int n) _ _ ltac:(lia) (eq_sym F1)) as (m & EI & _).
        assert (Dm : Forall digit m) by (rewrite EI in W1; apply Forall_app in W1; tauto).
        pose proof (dval_bounds m Dm) as Bm. pose proof (zlen_nonneg m) as Lm. pose proof (pow10_pos (zlen m) Lm) as Pm.
        assert (EV : dval (n_int n) = P * 10 ^ zlen m + dval m) by (rewrite EI, dval_app, S4; reflexivity).
        assert (LI : zlen (n_int n) = zlen A + zlen m) by (rewrite EI, zlen_app; reflexivity).
        unfold point_clear in PC. rewrite frac_odig in PC. rewrite EV in PC. destruct PC as [PC|[PC|PC]]; [exfalso| |right; exact PC].
        - assert (10 ^ 1 <= 10 ^ zlen m) by (apply Z.pow_le_mono_r; lia). change (10 ^ 1) with 10 in H. nia.
        - left. destruct (Z.le_gt_cases (zlen A + 4) (zlen (n_int n))) as [|C2]; [assumption|exfalso].
          assert (10 ^ zlen m <= 10 ^ 3) by (apply Z.pow_le_mono_r; lia). change (10 ^ 3) with 1000 in H. nia. }
      pose proof (frac_exact _ _ _ _ _ _ A B d L2 T Es N' W1 ltac:(rewrite <- frac_odig; exact W2) F1 S3 F2 UD F5) as FT. cbv zeta in FT.
      set (RL := B ++ d :: L2) in *.
      assert (DRL : Forall digit RL) by (rewrite F1 in DD; apply Forall_app in DD; tauto).
      pose proof (dval_bounds RL DRL) as BRL.
      assert (EN : dval (n_int n ++ odig (n_frac n)) = P * 10 ^ zlen RL + dval RL) by (rewrite F1, dval_app, S4; reflexivity).
      pose proof (pow10_pos (exact_digits t - 1) ltac:(lia)).
      destruct (same_split _ P tt R (zlen RL) (dval RL) ltac:(lia) ltac:(lia) (zlen_nonneg RL) H3 ltac:(lia) EN BRL) as [Q1 Q2].
      rewrite Q1, Q2. exact FT.
Qed.

(** equal values have the same tails *)
Lemma moved_scaled : forall t n m a d K, 0 <= a -> scale m = scale n - a -> coefficient m = coefficient n * 10 ^ a ->
  point_moved t n d K -> point_moved t m d K.
Proof.
  intros t n m a d K Ha Es Ec (Hd & j & R & J0 & EK & E & C). split; [exact Hd|]. pose proof (pow10_pos a Ha).
  exists (j + a), (R * 10 ^ a). split; [lia|]. split; [lia|]. split; [rewrite Ec, E, Z.pow_add_r by lia; ring|].
  destruct C as [[R0 N]|[RB F]]; [left; split; [nia|exact N]|right]. split; [|exact F]. rewrite Z.pow_add_r by lia. nia.
Qed.

Lemma tail_scaled : forall n m a d K T, 0 <= a -> scale m = scale n - a -> coefficient m = coefficient n * 10 ^ a ->
  moved_tail n d K T -> moved_tail m d K T.
Proof.
  intros n m a d K T Ha Es Ec (j & R & J0 & EK & E & B & ET). pose proof (pow10_pos a Ha). pose proof (pow10_pos j J0).
  exists (j + a), (R * 10 ^ a). split; [lia|]. split; [lia|]. split; [rewrite Ec, E, Z.pow_add_r by lia; ring|].
  rewrite Z.pow_add_r by lia. split; [nia|]. rewrite ET.
  replace (R * 10 ^ a * 10 ^ 4) with (R * 10 ^ 4 * 10 ^ a) by ring. symmetry. apply Z.div_mul_cancel_r; lia.
Qed.

Lemma tail_unique : forall n d K T T', moved_tail n d K T -> moved_tail n d K T' -> T = T'.
Proof.
  intros n d K T T' (j & R & J0 & EK & E & B & ET) (j' & R' & J0' & EK' & E' & B' & ET').
  assert (j = j') by lia. subst j'. assert (R = R') by lia. subst R'. congruence.
Qed.

Lemma equal_scaled : forall n m, abs_value n = abs_value m -> scale m <= scale n ->
  coefficient m = coefficient n * 10 ^ (scale n - scale m).
Proof.
  intros n m E L. unfold abs_value in E. apply eq_IZR. rewrite mult_IZR, pow10_IZR by lia.
  unfold Z.sub. rewrite bpow_plus, bpow_opp. pose proof (bpow_gt_0 radix10 (scale m)) as Pm.
  apply Rmult_eq_reg_r with (pow10 (scale m)); [|lra]. rewrite <- E. field. lra.
Qed.

Lemma equal_moved : forall t n m d K T, abs_value n = abs_value m -> point_moved t n d K -> moved_tail n d K T ->
  forall d' K' T', point_moved t m d' K' -> moved_tail m d' K' T' -> d = d' /\ K = K' /\ T = T'.
Proof.
  intros t n m d K T E P M d' K' T' P' M'.
  destruct (Z.le_ge_cases (scale m) (scale n)) as [L|L].
  - pose proof (equal_scaled n m E L) as C.
    pose proof (moved_scaled t n m (scale n - scale m) d K ltac:(lia) ltac:(lia) C P) as P2.
    destruct (point_moved_unique _ _ _ _ _ _ P2 P') as [-> ->].
    pose proof (tail_scaled n m (scale n - scale m) _ _ T ltac:(lia) ltac:(lia) C M) as M2.
    split; [reflexivity|split; [reflexivity|]]. exact (tail_unique _ _ _ _ _ M2 M').
  - pose proof (equal_scaled m n (eq_sym E) L) as C.
    pose proof (moved_scaled t m n (scale m - scale n) d' K' ltac:(lia) ltac:(lia) C P') as P2.
    destruct (point_moved_unique _ _ _ _ _ _ P P2) as [-> ->].
    pose proof (tail_scaled m n (scale m - scale n) _ _ T' ltac:(lia) ltac:(lia) C M') as M2.
    split; [reflexivity|split; [reflexivity|]]. exact (tail_unique _ _ _ _ _ M M2).
Qed.

(** the result up to the end of the text *)
Definition with_end (e : Z) (r : krosh_result) : krosh_result :=
  {| kr_value := kr_value r; kr_str_end := e; kr_status := kr_status r; kr_is_accurate := kr_is_accurate r |}.

Lemma scale_end : forall T neg K w e e' r, kr_scale T neg e K w = Ok r -> kr_scale T neg e' K w = Ok (with_end e' r).
Proof.
  intros T neg K w e e' r. unfold kr_scale, kr_finish.
  assert (F : forall w0, (w1 <- normalize T w0 ;; v <- downsample T w1 ;;
     Ok {| kr_value := apply_sign T (negb neg) (ds_value v); kr_str_end := e; kr_status := ds_status v; kr_is_accurate := ds_is_accurate v |}) = Ok r ->
     (w1 <- normalize T w0 ;; v <- downsample T w1 ;;
     Ok {| kr_value := apply_sign T (negb neg) (ds_value v); kr_str_end := e'; kr_status := ds_status v; kr_is_accurate := ds_is_accurate v |}) = Ok (with_end e' r)).
  { intros w0. destruct (normalize T w0) as [w1|]; cbn [bind]; [|discriminate]. destruct (downsample T w1) as [v|]; cbn [bind]; [|discriminate].
    intros H. injection H as <-. reflexivity. }
  destruct (K =? 0); [apply F|]. destruct (fpow_lo T <=? K), (K <=? fpow_hi T); try (intros H; injection H as <-; reflexivity).
  destruct (cached_power T K) as [c|]; cbn [bind]; [apply F|discriminate].
Qed.

(** equal numbers are converted alike *)
Lemma krosh_same : forall t n m c rest c' rest', well_formed n -> well_formed m -> ends_number c -> ends_number c' -> within_limits n -> within_limits m ->
  readable_exponent n -> readable_exponent m -> point_clear t n -> point_clear t m ->
  is_minus (n_sign n) = is_minus (n_sign m) -> abs_value n = abs_value m -> coefficient n <> 0 -> coefficient m <> 0 ->
  exists r, krosh (fmt_of t) (written n ++ c :: rest) = Ok (with_end (zlen (written n)) r) /\
            krosh (fmt_of t) (written m ++ c' :: rest') = Ok (with_end (zlen (written m)) r).
Proof.
  intros t n m c rest c' rest' Wn Wm Hc Hc' Ln Lm Xn Xm Pn Pm Sg EV Cn Cm. pose proof (width_facts t) as Ww.
  destruct (krosh_numeral t n c rest Wn Hc Ln) as (st & Hp & _ & HK). specialize (HK Cn Xn).
  destruct (krosh_numeral t m c' rest' Wm Hc' Lm) as (st' & Hp' & _ & HK'). specialize (HK' Cm Xm).
  pose proof (point_moved_parsed t n c rest st Wn Hc Hp Cn) as M1. pose proof (point_moved_parsed t m c' rest' st' Wm Hc' Hp' Cm) as M2.
  destruct (parsed_tail t n c rest st Wn Hc Hp Cn Pn) as (T & T1 & F1).
  destruct (parsed_tail t m c' rest' st' Wm Hc' Hp' Cm Pm) as (T' & T2 & F2).
  destruct (equal_moved t n m _ _ _ EV M1 T1 _ _ _ M2 T2) as (E1 & E2 & E3).
  destruct (long_mantissa t n c rest st Wn Hc Hp Cn) as (f & e & M & Q1 & Q2 & Q3 & _).
  pose proof (pow2_pos (width t - 1) ltac:(lia)) as PW.
  specialize (HK _ Q1 ltac:(cbn [m_f]; lia)).
  rewrite E1, F1, E3, <- F2 in Q1. specialize (HK' _ Q1 ltac:(cbn [m_f]; lia)).
  destruct (kr_scale_total t (is_minus (n_sign n)) (zlen (written n)) (power_of n st) f e Q2 Q3) as (v & s & acc & KS).
  exists {| kr_value := v; kr_str_end := zlen (written n); kr_status := s; kr_is_accurate := acc |}. rewrite HK, HK'. split; [exact KS|].
  rewrite <- E2, <- Sg. exact (scale_end _ _ _ _ _ (zlen (written m)) _ KS).
Qed.

(** * Digits behind the point that are not looked at *)

Lemma frac_int : forall s sg I F c rest A B d D2 T, s = mant sg I F ++ c :: rest -> nondigit c ->
  Forall digit I -> Forall digit (odig F) -> I ++ odig F = A ++ B ++ d :: D2 -> zlen A + zlen B < zlen I ->
  extract_fraction_digits 4 s (zlen (sign_text sg) + zlen (A ++ B) +
      b2z (zlen (I ++ odig F) - zlen (odig F) <=? zlen (A ++ B)) - zlen B) = Ok T ->
  exists q, I = A ++ q /\ T = dval q * 10 ^ 4 / 10 ^ zlen q.
Proof.
  intros s sg I F c rest A B d D2 T Es Nc DI DF ED L1 ET.
  pose proof (zlen_nonneg A) as LA. pose proof (zlen_nonneg B) as LB.
  rewrite (zlen_app I), (zlen_app A) in ET. replace (zlen I + zlen (odig F) - zlen (odig F)) with (zlen I) in ET by lia.
  destruct (Z.leb_spec (zlen I) (zlen A + zlen B)) as [L2|_]; [lia|]. cbn [b2z] in ET.
  destruct (app_split (A ++ B) I (d :: D2) (odig F) ltac:(rewrite zlen_app; lia)) as (m & EI & Em).
  { rewrite <- app_assoc. symmetry. exact ED. }
  exists (B ++ m). split; [rewrite EI; now rewrite <- app_assoc|].
  assert (E1 : exists c' r', nondigit c' /\ s = (sign_text sg ++ dchars A) ++ dchars (B ++ m) ++ c' :: r').
  { rewrite Es, EI. unfold mant. destruct F as [f|].
    - exists 46, (dchars f ++ c :: rest). split; [unfold nondigit; lia|].
      rewrite !dchars_app, <- !app_assoc. reflexivity.
    - exists c, rest. split; [assumption|]. rewrite !dchars_app, app_nil_r, <- !app_assoc. reflexivity. }
  destruct E1 as (c' & r' & Nc' & E1).
  assert (Dq : Forall digit (B ++ m)) by (rewrite EI, <- app_assoc in DI; apply Forall_app in DI; tauto).
  rewrite E1, extract_at in ET; try assumption; try lia.
  2:{ rewrite zlen_app, zlen_dchars. lia. }
  assert (T = dval (firstn 4 ((B ++ m) ++ repeat 0 4))) as -> by congruence.
  pose proof (first_four (B ++ m) []) as FF. rewrite app_nil_r in FF. apply FF; [assumption|right; reflexivity].
Qed.

Lemma parsed_tail_int : forall t n c rest st j R, well_formed n -> ends_number c -> parsed t n (written n ++ c :: rest) st -> coefficient n <> 0 ->
  let P := dval (pd_digits st) in
  0 <= j -> dval (n_int n) = P * 10 ^ j + R -> 0 < R < 10 ^ j -> pd_frac st = convert_numerator 4 7 (R * 10 ^ 4 / 10 ^ j).
Proof.
  intros t n c rest st j R W Hc Hp CN P J0 EI HR. pose proof W as (W1 & W2 & _).
  destruct (long_scan t n c rest st W Hc Hp CN) as (_ & _ & _ & Pb & _). fold P in Pb.
  destruct Hp as (_ & _ & _ & _ & _ & D1 & D2 & D3 & D4 & H).
  rewrite exact_digits_eq in H. unfold coefficient in CN. rewrite frac_odig in *. fold P in H.
  set (F := odig (n_frac n)) in *. pose proof (dval_bounds F W2) as BF. pose proof (zlen_nonneg F) as LF. pose proof (pow10_pos _ LF) as PF.
  assert (EN : dval (n_int n ++ F) = P * 10 ^ (j + zlen F) + (R * 10 ^ zlen F + dval F)).
  { rewrite dval_app, EI, Z.pow_add_r by lia. ring. }
  assert (BN : 0 < R * 10 ^ zlen F + dval F < 10 ^ (j + zlen F)) by (rewrite Z.pow_add_r by lia; nia).
  assert (Short : forall z, dval (n_int n ++ F) = P * 10 ^ z -> 0 <= z -> False).
  { intros z E Z0. destruct (same_split _ P (j + zlen F) _ z 0 ltac:(lia) ltac:(lia) Z0 EN ltac:(lia) (eq_trans E (eq_sym (Z.add_0_r _)))) as [_ Q]; [|lia].
    pose proof (pow10_pos z Z0). lia. }
  destruct H as [(E & H1 & _)|[(E & H1 & H2 & H3 & H4 & H5 & H6 & H7 & H8)|(E & H1 & tt & R0 & H2 & H3 & H4 & H5 & H6)]].
  - congruence.
  - exfalso. apply (Short (pd_zeros st)); [exact H4|lia].
  - destruct H6 as [(G1 & G2 & G3 & G4 & G5)|(G1 & G2 & G3)].
    + exfalso. apply (Short tt); lia.
    + destruct G3 as (L1 & d & L2 & z1 & T & F1 & F2 & F3 & F4 & F5 & F6 & F7).
      rewrite F7. f_equal.
      assert (DD : Forall digit (n_int n ++ F)) by (apply Forall_app; auto).
      assert (DL1 : Forall digit L1) by (rewrite F1 in DD; apply Forall_app in DD; tauto).
      destruct (zeros_split L1 P z1 DL1 F3 F4) as (A & B & S1 & S2 & S3 & S4). subst L1 z1. rewrite <- app_assoc in F1.
      destruct (first_after_mantissa n c rest Hc) as (c' & r' & E' & N' & _).
      assert (Es : written n ++ c :: rest = mant (n_sign n) (n_int n) (n_frac n) ++ c' :: r').
      { unfold written. now rewrite <- app_assoc, E', mant_text. }
      set (RL := B ++ d :: L2) in *.
      assert (DRL : Forall digit RL) by (rewrite F1 in DD; apply Forall_app in DD; tauto).
      pose proof (dval_bounds RL DRL) as BRL.
      assert (EN2 : dval (n_int n ++ F) = P * 10 ^ zlen RL + dval RL) by (rewrite F1, dval_app, S4; reflexivity).
      destruct (same_split _ P (j + zlen F) _ (zlen RL) (dval RL) ltac:(lia) ltac:(lia) (zlen_nonneg RL) EN ltac:(lia) EN2 BRL) as [Q1 Q2].
      assert (LEN : zlen (n_int n) = zlen A + j).
      { assert (zlen (n_int n) + zlen F = zlen A + zlen RL) by (rewrite <- !zlen_app; f_equal; exact F1). lia. }
      assert (LT : zlen A + zlen B < zlen (n_int n)).
      { destruct (Z.lt_ge_cases (zlen A + zlen B) (zlen (n_int n))) as [|C]; [assumption|exfalso].
        destruct (app_split A (n_int n) RL F ltac:(lia) (eq_sym F1)) as (q & Eq & Er).
        assert (Lq : zlen q = j) by (rewrite Eq, zlen_app in LEN; lia).
        unfold RL in Er. destruct (app_split q B F (d :: L2) ltac:(lia) (eq_sym Er)) as (q2 & EB & _).
        assert (DB : Forall digit B) by (unfold RL in DRL; apply Forall_app in DRL; tauto). rewrite EB in DB, S3.
        apply Forall_app in DB as [Dq Dq2]. pose proof (dval_bounds _ Dq). pose proof (dval_bounds _ Dq2). rewrite dval_app in S3.
        pose proof (pow10_pos _ (zlen_nonneg q2)).
        rewrite Eq, dval_app, S4, Lq in EI. nia. }
      destruct (frac_int _ _ _ _ _ _ A B d L2 T Es N' W1 W2 F1 LT F5) as (q & Eq & ->).
      assert (Lq : zlen q = j) by (rewrite Eq, zlen_app in LEN; lia).
      rewrite Eq, dval_app, S4, Lq in EI. rewrite Lq. replace (dval q) with R by lia. reflexivity.
Qed.

(** the same number without its fraction *)
Lemma moved_int : forall t n d K, well_formed n -> n_exp n = n_exp (integer_only n) -> point_moved t (integer_only n) d K ->
  long_integer t n -> point_moved t n d K /\ exists j R, 0 <= j /\ dval (n_int n) = d * 10 ^ j + R /\ 0 < R < 10 ^ j.
Proof.
  intros t n d K (W1 & W2 & _) _ (Hd & j & R & J0 & EK & E & C) LI.
  assert (CI : coefficient (integer_only n) = dval (n_int n)) by (unfold coefficient, integer_only; cbn; now rewrite app_nil_r).
  rewrite CI in E.
  assert (SI : scale n = scale (integer_only n) - zlen (frac_digits n)).
  { unfold scale, exponent_value, integer_only, zlen. cbn. lia. }
  destruct C as [[R0 _]|[RB F]].
  { exfalso. apply (LI d j ltac:(lia) J0). lia. }
  split; [|exists j, R; auto].
  split; [exact Hd|]. set (z := zlen (frac_digits n)) in *. pose proof (zlen_nonneg (frac_digits n)) as Z0. fold z in Z0. pose proof (pow10_pos z Z0).
  pose proof (dval_bounds _ W2) as BF. fold z in BF.
  exists (j + z), (R * 10 ^ z + dval (frac_digits n)). split; [lia|]. split; [lia|]. split.
  { unfold coefficient. rewrite dval_app, E, Z.pow_add_r by lia. fold z. ring. }
  right. split; [|exact F]. rewrite Z.pow_add_r by lia. nia.
Qed.

Lemma krosh_int : forall t n c rest c' rest', well_formed n -> ends_number c -> ends_number c' -> within_limits n ->
  readable_exponent n -> long_integer t n ->
  exists r, krosh (fmt_of t) (written n ++ c :: rest) = Ok (with_end (zlen (written n)) r) /\
            krosh (fmt_of t) (written (integer_only n) ++ c' :: rest') = Ok (with_end (zlen (written (integer_only n))) r).
Proof.
  intros t n c rest c' rest' W Hc Hc' L X LI. pose proof (width_facts t) as Ww. set (m := integer_only n).
  pose proof W as (W1 & W2 & W3 & W4).
  pose proof (pow10_pos (exact_digits t) ltac:(destruct t; cbn; lia)) as PE.
  assert (NI : n_int n <> []).
  { intros E. apply (LI 0 0); [lia|lia|]. now rewrite E. }
  assert (Wm : well_formed m).
  { split; [exact W1|]. split; [constructor|]. split; [cbn; rewrite app_nil_r; exact NI|exact W4]. }
  assert (Lm : within_limits m).
  { destruct L as [L1 L2]. split; [|exact L2]. rewrite mant_text in *. unfold m, integer_only. cbn [n_sign n_int n_frac].
    apply Nat.le_trans with (2 := L1). unfold mant. rewrite !app_length. destruct (n_frac n); cbn [List.length]; lia. }
  assert (CI : coefficient m = dval (n_int n)) by (unfold coefficient, m, integer_only; cbn; now rewrite app_nil_r).
  assert (Cm : coefficient m <> 0).
  { rewrite CI. intros E. apply (LI 0 0); [lia|lia|]. now rewrite E. }
  assert (Cn : coefficient n <> 0).
  { rewrite CI in Cm. unfold coefficient. rewrite dval_app. pose proof (dval_bounds _ W1). pose proof (dval_bounds _ W2). pose proof (pow10_pos _ (zlen_nonneg (frac_digits n))). nia. }
  destruct (krosh_numeral t n c rest W Hc L) as (st & Hp & _ & HK). specialize (HK Cn X).
  destruct (krosh_numeral t m c' rest' Wm Hc' Lm) as (st' & Hp' & _ & HK'). specialize (HK' Cm X).
  pose proof (point_moved_parsed t n c rest st W Hc Hp Cn) as M1. pose proof (point_moved_parsed t m c' rest' st' Wm Hc' Hp' Cm) as M2.
  destruct (moved_int t n _ _ W eq_refl M2 LI) as (M3 & j & R & J0 & EJ & BJ).
  destruct (point_moved_unique _ _ _ _ _ _ M1 M3) as [E1 E2].
  pose proof (parsed_tail_int t m c' rest' st' j R Wm Hc' Hp' Cm J0 EJ BJ) as F2.
  rewrite <- E1 in EJ. pose proof (parsed_tail_int t n c rest st j R W Hc Hp Cn J0 EJ BJ) as F1.
  destruct (long_mantissa t n c rest st W Hc Hp Cn) as (f & e & M & Q1 & Q2 & Q3 & _).
  pose proof (pow2_pos (width t - 1) ltac:(lia)) as PW.
  specialize (HK _ Q1 ltac:(cbn [m_f]; lia)).
  rewrite E1, F1, <- F2 in Q1. specialize (HK' _ Q1 ltac:(cbn [m_f]; lia)).
  destruct (kr_scale_total t (is_minus (n_sign n)) (zlen (written n)) (power_of n st) f e Q2 Q3) as (v & s & acc & KS).
  exists {| kr_value := v; kr_str_end := zlen (written n); kr_status := s; kr_is_accurate := acc |}. rewrite HK, HK'. split; [exact KS|].
  rewrite <- E2. exact (scale_end _ _ _ _ _ (zlen (written m)) _ KS).
Qed.
