(** C73, C74: for which texts the behaviour of atof is defined, and what number it takes for
    an exponent. *)
From Coq Require Import Reals Lra Lia ZArith List String Ascii.
From Flocq Require Import Core.
From Verif Require Import Machine MachineFacts BitOps StaticPow Fraction Format DiyFp KComp Chars Krosh Atof Spec ParseSpec TextSpec ParseApi Instances
  DiyFacts BoundFacts TableFacts GrisuFacts FtoaFacts RoundFacts DownFacts DvalFacts CmpFacts ArithProps ScanFacts LoopFacts ParseFacts GapFacts KroshNum ShortFacts FracFacts LongFacts ParseProps Refuted LocalFacts LocalProps NegFacts Marker Tokens Truncate.
Open Scope Z_scope.

(** * The scanner on arbitrary numbers *)

Lemma in_words : forall c, In c (text "nNiI") <-> is_n c || is_i c = true.
Proof.
  intros c. unfold is_n, is_i, ch_n, ch_N, ch_i, ch_I.
  change (text "nNiI") with [110; 78; 105; 73]. cbn [In].
  destruct (Z.eqb_spec c 110), (Z.eqb_spec c 78), (Z.eqb_spec c 105), (Z.eqb_spec c 73); cbn [orb]; intuition (try congruence; try lia).
Qed.

Lemma cannot_stops : forall n c, cannot_continue n c -> stops (n_sign n) (n_int n) (n_frac n) c.
Proof.
  intros n c (H1 & H2 & H3 & H4). rewrite mant_text in H3, H4. split; [exact H1|]. split; [exact H2|]. split.
  - intros P. apply H3. unfold is_pm, ch_minus, ch_plus in P. change (code "+") with 43. change (code "-") with 45.
    destruct (Z.eqb_spec c 45), (Z.eqb_spec c 43); cbn in P; try discriminate; auto.
  - intros P. apply H4. now apply in_words.
Qed.

Lemma stops_cannot : forall n c, stops (n_sign n) (n_int n) (n_frac n) c -> cannot_continue n c.
Proof.
  intros n c (H1 & H2 & H3 & H4). unfold cannot_continue. rewrite mant_text. split; [exact H1|]. split; [exact H2|]. split.
  - intros P. apply H3. unfold is_pm, ch_minus, ch_plus. change (code "+") with 43 in P. change (code "-") with 45 in P.
    destruct P as [-> | ->]; reflexivity.
  - intros P. apply H4. now apply in_words.
Qed.

(** what the scanner has found: facts needed to go on *)
Lemma scan_frac : forall t s sg I F st, scan_inv (decimal_q (fmt_of t)) s sg I F st ->
  0 <= dval (pd_digits st) < 10 ^ exact_digits t /\ 0 <= pd_frac st <= 127 /\
  (pd_frac st <> 0 -> 10 ^ (exact_digits t - 1) <= dval (pd_digits st)).
Proof.
  intros t s sg I F st (_ & _ & _ & _ & _ & D1 & D2 & D3 & D4 & H).
  change (decimal_q (fmt_of t)) with (fd10 (fmt_of t)) in H. rewrite exact_digits_eq in H.
  pose proof (dval_bounds _ D1) as BP. assert (KP : 0 < exact_digits t) by (destruct t; cbn; lia).
  split.
  { split; [lia|]. apply Z.lt_le_trans with (1 := proj2 BP). apply Z.pow_le_mono_r; [lia|].
    destruct H as [(E & _)|[(E & H & _)|(E & _)]]; [rewrite E, zlen_nil; lia|lia|lia]. }
  destruct H as [(E & _ & _ & _ & _ & _ & H)|[(E & _ & _ & _ & _ & _ & _ & _ & H)|(E & H1 & tt & R & H2 & H3 & H4 & H5 & H6)]].
  - rewrite H. split; lia.
  - rewrite H. split; lia.
  - split.
    + destruct H6 as [(_ & _ & _ & _ & ->)|(_ & _ & L1 & d & L2 & z1 & T & _ & _ & _ & _ & _ & F6 & F7)]; [lia|].
      destruct (C25_fraction T F6) as [F8 _]. rewrite <- F7 in F8. exact F8.
    + intros _. destruct (pd_digits st) as [|x l] eqn:Ed; [rewrite zlen_nil in E; lia|]. cbn [hd] in H1. rewrite zlen_cons in E.
      replace (exact_digits t - 1) with (zlen l) by lia. now apply dval_lower.
Qed.

Lemma scan_moved : forall t s n st, n_exp n = None ->
  scan_inv (decimal_q (fmt_of t)) s (n_sign n) (n_int n) (n_frac n) st -> coefficient n <> 0 ->
  point_moved t n (dval (pd_digits st)) (pd_pow_gain st - pd_fraction_count st) /\ dval (pd_digits st) <> 0.
Proof.
  intros t s n st NE Hi CN. destruct (scan_frac _ _ _ _ _ _ Hi) as (P1 & _ & _).
  destruct (scan_value _ _ _ _ _ _ Hi) as (_ & _ & _ & _ & _ & _ & T5).
  assert (Z0 : dval (pd_digits st) <> 0).
  { intros Z0. apply CN. unfold coefficient. rewrite frac_odig. now apply T5. }
  split; [|exact Z0].
  destruct (scan_shape _ _ _ _ _ _ Hi Z0) as (tt & R & S1 & S2 & S3 & S4 & S5 & S6 & S7).
  split; [lia|]. exists tt, R. split; [exact S1|]. split.
  { unfold scale, exponent_value. rewrite NE, frac_odig. unfold zlen in S4. lia. }
  split; [unfold coefficient; rewrite frac_odig; exact S2|].
  destruct (Z.eq_dec R 0) as [E|E]; [left; auto|right].
  change (decimal_q (fmt_of t)) with (fd10 (fmt_of t)) in S7. rewrite exact_digits_eq in S7. split; [lia|auto].
Qed.

(** there is only one way to move the point *)
Lemma moved_less : forall t N d j R d' j' R', 0 < d < 10 ^ exact_digits t -> 0 < d' < 10 ^ exact_digits t ->
  0 <= j < j' -> N = d * 10 ^ j + R -> N = d' * 10 ^ j' + R' ->
  (R = 0 /\ d mod 10 <> 0) \/ (0 < R < 10 ^ j /\ 10 ^ (exact_digits t - 1) <= d) ->
  (R' = 0 /\ d' mod 10 <> 0) \/ (0 < R' < 10 ^ j' /\ 10 ^ (exact_digits t - 1) <= d') -> False.
Proof.
  intros t N d j R d' j' R' Hd Hd' Hj E E' C C'.
  assert (KP : 0 < exact_digits t) by (destruct t; cbn; lia).
  assert (PJ : 0 < 10 ^ j) by (apply Z.pow_pos_nonneg; lia).
  set (q := 10 ^ (j' - j - 1)). assert (PQ : 0 < q) by (apply Z.pow_pos_nonneg; lia).
  assert (EJ : 10 ^ j' = 10 * q * 10 ^ j).
  { unfold q. replace j' with (1 + (j' - j - 1) + j) at 1 by lia. rewrite !Z.pow_add_r by lia. reflexivity. }
  assert (RB : 0 <= R < 10 ^ j) by (destruct C as [[-> _]|[]]; lia).
  destruct C' as [[-> M']|[R1 D1]].
  - (* exact: so is the other, with a zero at the end *)
    assert (Q : R = 0 /\ d = d' * (10 * q)).
    { assert (X : d * 10 ^ j + R = (d' * (10 * q)) * 10 ^ j + 0) by (rewrite <- E, E', EJ; ring).
      assert (Y : d = d' * (10 * q)).
      { rewrite (Z.mul_comm d), (Z.mul_comm (d' * (10 * q))) in X.
        pose proof (Z.div_unique_pos (10 ^ j * d + R) (10 ^ j) d R RB eq_refl) as U1.
        pose proof (Z.div_unique_pos (10 ^ j * d + R) (10 ^ j) (d' * (10 * q)) 0 ltac:(lia) X) as U2. lia. }
      split; [|exact Y]. subst d. lia. }
    destruct Q as [-> ->]. destruct C as [[_ M]|[C _]]; [|lia]. apply M.
    replace (d' * (10 * q)) with (d' * q * 10) by ring. apply Z.mod_mul. lia.
  - assert (X : 10 ^ exact_digits t = 10 * 10 ^ (exact_digits t - 1)).
    { replace (exact_digits t) with (1 + (exact_digits t - 1)) at 1 by lia. rewrite Z.pow_add_r by lia. reflexivity. }
    assert (G : 10 * d' <= d).
    { destruct (Z.le_gt_cases (10 * d') d) as [|L]; [assumption|exfalso].
      assert (d * 10 ^ j + R < (d + 1) * 10 ^ j) by lia.
      assert ((d + 1) * 10 ^ j <= 10 * d' * 10 ^ j) by (apply Z.mul_le_mono_nonneg_r; lia).
      assert (10 * d' * 10 ^ j <= 10 * d' * 10 ^ j * q) by (rewrite <- (Z.mul_1_r (10 * d' * 10 ^ j)) at 1; apply Z.mul_le_mono_nonneg_l; lia).
      assert (10 * d' * 10 ^ j * q = d' * 10 ^ j') by (rewrite EJ; ring). lia. }
    lia.
Qed.

Lemma moved_unique : forall t n d K d' K', point_moved t n d K -> point_moved t n d' K' -> d = d' /\ K = K'.
Proof.
  intros t n d K d' K' (Hd & j & R & J0 & JK & JE & JC) (Hd' & j' & R' & J0' & JK' & JE' & JC').
  assert (j = j').
  { destruct (Z.lt_trichotomy j j') as [L|[L|L]]; [exfalso|assumption|exfalso].
    - apply (moved_less t _ d j R d' j' R' Hd Hd' ltac:(lia) JE JE' JC JC').
    - apply (moved_less t _ d' j' R' d j R Hd' Hd ltac:(lia) JE' JE JC' JC). }
  subst j'. split; [|lia].
  assert (PJ : 0 < 10 ^ j) by (apply Z.pow_pos_nonneg; lia).
  assert (RB : 0 <= R < 10 ^ j) by (destruct JC as [[-> _]|[]]; lia).
  assert (RB' : 0 <= R' < 10 ^ j) by (destruct JC' as [[-> _]|[]]; lia).
  rewrite JE, Z.mul_comm, (Z.mul_comm d') in JE'.
  pose proof (Z.div_unique_pos (10 ^ j * d + R) (10 ^ j) d R RB eq_refl) as U1.
  pose proof (Z.div_unique_pos (10 ^ j * d + R) (10 ^ j) d' R' RB' JE') as U2. exact (eq_trans U1 (eq_sym U2)).
Qed.

(** the text determines the number *)
Lemma digits_apart : forall l m a b, Forall digit l -> Forall digit m ->
  (a = [] \/ exists x r, a = x :: r /\ nondigit x) -> (b = [] \/ exists x r, b = x :: r /\ nondigit x) ->
  dchars l ++ a = dchars m ++ b -> l = m /\ a = b.
Proof.
  assert (D48 : forall d, code "0" + d = 48 + d) by reflexivity.
  induction l as [|d l IH]; intros m a b Hl Hm Ha Hb E.
  - destruct m as [|d' m]; [auto|]. exfalso. cbn [dchars map app] in E. inversion_clear Hm.
    destruct Ha as [-> | (x & r & -> & Hx)]; [discriminate E|].
    apply (f_equal (hd 0)) in E. cbn [hd] in E. rewrite D48 in E. unfold nondigit, digit in *. lia.
  - inversion_clear Hl. destruct m as [|d' m].
    + exfalso. cbn [dchars map app] in E. destruct Hb as [-> | (x & r & -> & Hx)]; [discriminate E|].
      apply (f_equal (hd 0)) in E. cbn [hd] in E. rewrite D48 in E. unfold nondigit, digit in *. lia.
    + inversion_clear Hm. change (dchars (d :: l)) with (code "0" + d :: dchars l) in E. change (dchars (d' :: m)) with (code "0" + d' :: dchars m) in E.
      rewrite <- !app_comm_cons in E.
      assert (E1 : d = d') by (apply (f_equal (hd 0)) in E; change (48 + d = 48 + d') in E; lia).
      assert (E2 : dchars l ++ a = dchars m ++ b) by exact (f_equal (@tl Z) E).
      destruct (IH m a b) as [-> ->]; auto. now subst d'.
Qed.

Lemma mant_inj : forall sg I F I' F', Forall digit I -> Forall digit (odig F) -> Forall digit I' -> Forall digit (odig F') ->
  mant sg I F = mant sg I' F' -> I = I' /\ F = F'.
Proof.
  intros sg I F I' F' H1 H2 H3 H4 E. unfold mant in E. apply app_inv_head in E.
  assert (T : forall G : option (list Z), (match G with None => [] | Some f => 46 :: dchars f end) = [] \/
            exists x r, (match G with None => [] | Some f => 46 :: dchars f end) = x :: r /\ nondigit x).
  { intros [f|]; [right|left; reflexivity]. exists 46, (dchars f). split; [reflexivity|]. unfold nondigit. lia. }
  destruct (digits_apart I I' _ _ H1 H3 (T F) (T F') E) as [-> E']. split; [reflexivity|].
  destruct F as [f|], F' as [f'|]; try discriminate E'; [|reflexivity].
  injection E' as E'. f_equal. now apply dchars_inj.
Qed.

Lemma bare_eq : forall x y, bare x -> bare y -> n_sign y = n_sign x -> mantissa_text y = mantissa_text x -> y = x.
Proof.
  intros [sx ix fx ex] [sy iy fy ey] (X1 & X2 & X3) (Y1 & Y2 & Y3) S E. cbn in *. subst.
  rewrite !mant_text in E. cbn in E. rewrite !frac_odig in X3, Y3. cbn in X3, Y3.
  destruct (mant_inj _ _ _ _ _ Y2 Y3 X2 X3 E) as [-> ->]. reflexivity.
Qed.

(** The scanner on any bare number. *)
Lemma scan_any : forall t x c rest, bare x -> cannot_continue x c ->
  let s := mantissa_text x ++ c :: rest in
  exists y st e r, part_taken x y /\ scan_inv (decimal_q (fmt_of t)) s (n_sign y) (n_int y) (n_frac y) st /\
    e = Z.min (zlen (mantissa_text x)) 2049 /\
    skipn (Z.to_nat e) s = (if zlen (mantissa_text x) <=? 2049 then c :: rest else r) /\
    (2049 < zlen (mantissa_text x) -> ~ e_letter (hd 0 r) /\ r <> []) /\
    parse_digits (fmt_of t) s = Ok (digit_result (n_sign y) st e).
Proof.
  intros t x c rest (X1 & X2 & X3) Hc s. pose proof (cannot_stops _ _ Hc) as Hs. rewrite frac_odig in X3.
  assert (Es : s = mant (n_sign x) (n_int x) (n_frac x) ++ c :: rest) by (unfold s; now rewrite mant_text).
  destruct (Z.le_gt_cases (zlen (mantissa_text x)) 2049) as [L|L].
  - destruct (parse_digits_ok t s _ _ _ c rest X2 X3 Es Hs ltac:(now rewrite <- mant_text)) as (st & Hi & Hp).
    rewrite <- mant_text in Hp.
    exists x, st, (zlen (mantissa_text x)), []. split.
    { split; [split; [exact X1|split; [exact X2|now rewrite frac_odig]]|]. split; [reflexivity|]. left. split; [|reflexivity]. unfold zlen, parser_limit in *. lia. }
    split; [exact Hi|]. split; [lia|]. split.
    { destruct (Z.leb_spec (zlen (mantissa_text x)) 2049); [|lia]. unfold s. apply skipn_zlen. }
    split; [lia|exact Hp].
  - rewrite mant_text in L.
    destruct (parse_digits_over t s _ _ _ c rest X2 X3 Es (proj1 Hs) L) as (I2 & F2 & z & r & st & E1 & E2 & (q & E3) & Hi & E4 & E5 & Hp).
    set (y := {| n_sign := n_sign x; n_int := I2; n_frac := F2; n_exp := None |}).
    assert (EP : exists b, mant (n_sign x) (n_int x) (n_frac x) = mant (n_sign x) I2 F2 ++ b).
    { exists (skipn (List.length (mant (n_sign x) I2 F2)) (mant (n_sign x) (n_int x) (n_frac x))).
      rewrite <- (firstn_skipn (List.length (mant (n_sign x) I2 F2)) (mant (n_sign x) (n_int x) (n_frac x))) at 1. f_equal.
      assert (X : firstn (List.length (mant (n_sign x) I2 F2)) s = mant (n_sign x) I2 F2) by (rewrite E1, firstn_app, Nat.sub_diag, firstn_all, app_nil_r; reflexivity).
      rewrite <- X at 2. rewrite Es, firstn_app. replace (_ - _)%nat with 0%nat by (unfold zlen in *; lia). now rewrite app_nil_r. }
    destruct EP as (b & EP).
    assert (DD : Forall digit I2 /\ Forall digit (odig F2)).
    { apply (mant_digits x (n_sign x) I2 F2 (mant (n_sign x) I2 F2) b); [exact X2|now rewrite frac_odig|reflexivity|now rewrite mant_text|reflexivity|eauto]. }
    exists y, st, 2049, (z :: r). split.
    { split; [split; [reflexivity|split; [apply DD|rewrite frac_odig; apply DD]]|]. split; [reflexivity|]. right.
      rewrite !mant_text. cbn [n_sign n_int n_frac y]. unfold zlen, parser_limit in *. split; [lia|]. split; [lia|]. exists b. exact EP. }
    split; [exact Hi|]. rewrite mant_text. split; [lia|]. split.
    { destruct (Z.leb_spec (zlen (mant (n_sign x) (n_int x) (n_frac x))) 2049); [lia|]. exact E4. }
    split; [|exact Hp]. intros _. split; [|discriminate]. cbn [hd]. intros [H|H]; vm_compute in H; subst z; destruct E5 as [E5|(d & E5 & Hd)]; unfold digit in *; lia.
Qed.

Lemma taken_unique : forall x y y', bare x -> part_taken x y -> part_taken x y' -> y = y'.
Proof.
  intros x y y' X (Y1 & Y2 & Y3) (Z1 & Z2 & Z3). apply bare_eq; auto; [congruence|].
  destruct Y3 as [[L1 E1]|(L1 & E1 & b & E2)], Z3 as [[L2 E3]|(L2 & E3 & b' & E4)]; try lia; [congruence|].
  rewrite E2 in E4. apply (f_equal (firstn (S parser_limit))) in E4.
  rewrite !firstn_app, <- E1, firstn_all, E1, <- E3, firstn_all, E3, Nat.sub_diag, !app_nil_r in E4. exact E4.
Qed.

(** * Reading the exponent *)

Lemma moved_nonzero : forall t n d K, point_moved t n d K -> coefficient n <> 0.
Proof.
  intros t n d K (Hd & j & R & J0 & JK & JE & JC) Z0. rewrite Z0 in JE.
  pose proof (pow10_pos j J0). assert (0 < d * 10 ^ j) by (apply Z.mul_pos_pos; lia).
  destruct JC as [[-> _]|[]]; lia.
Qed.

Lemma as_int_narrow : forall a m, as_int a m -> narrow_int (wrap 32 a) = m.
Proof.
  intros a m ((k & E) & B). unfold narrow_int, wrap. change (2 ^ 32) with 4294967296 in *. change (2 ^ 31) with 2147483648 in *.
  rewrite Zplus_mod_idemp_l. replace (a + 2147483648) with (m + 2147483648 + (- k) * 4294967296) by lia.
  rewrite Z.mod_add, Z.mod_small by lia. lia.
Qed.

Lemma narrow_as_int : forall a, as_int a (narrow_int (wrap 32 a)).
Proof.
  intros a. unfold as_int, narrow_int, wrap. change (2 ^ 32) with 4294967296. change (2 ^ 31) with 2147483648.
  rewrite Zplus_mod_idemp_l. pose proof (Z.mod_pos_bound (a + 2147483648) 4294967296 ltac:(lia)).
  split; [|lia]. exists (- ((a + 2147483648) / 4294967296)). pose proof (Z.div_mod (a + 2147483648) 4294967296 ltac:(lia)). lia.
Qed.

Lemma exponent_read_unique : forall x E E', exponent_read x E -> exponent_read x E' -> E = E'.
Proof.
  intros x E E' [[C ->]|(d & k & m & P & K & A & -> & B)] [[C' ->]|(d' & k' & m' & P' & K' & A' & -> & B')].
  - reflexivity.
  - exfalso. exact (moved_nonzero _ _ _ _ P' C).
  - exfalso. exact (moved_nonzero _ _ _ _ P C').
  - destruct (moved_unique _ _ _ _ _ _ P P') as [-> ->]. apply as_int_narrow in A, A'. congruence.
Qed.

Lemma sint_bad : forall x, ~ (- 2 ^ 31 <= x < 2 ^ 31) -> sint x = Fault SignedOverflow.
Proof.
  intros x H. unfold sint. destruct ((- 2 ^ 31 <=? x) && (x <? 2 ^ 31)) eqn:E; [|reflexivity].
  apply andb_prop in E as [E1 E2]. apply Z.leb_le in E1. apply Z.ltb_lt in E2. lia.
Qed.

Lemma exponent_any : forall mk x c rest, e_letter mk -> bare x -> cannot_continue x c ->
  exists y, part_taken x y /\
  ((exists E, exponent_read y E /\ - 2 ^ 31 <= E < 2 ^ 31 /\
      parse_exponent (mk :: mantissa_text x ++ c :: rest) = Ok (E, 1 + Z.min (zlen (mantissa_text x)) 2049)) \/
   ((forall E, ~ exponent_read y E) /\ exists f, (f = TableOverrun \/ f = SignedOverflow) /\
      parse_exponent (mk :: mantissa_text x ++ c :: rest) = Fault f)).
Proof.
  intros mk x c rest Hm X Hc. destruct (scan_any Float x c rest X Hc) as (y & st & e & r & Ht & Hi & He & _ & _ & Hp).
  exists y. split; [exact Ht|]. pose proof Ht as ((Y1 & Y2 & Y3) & _ & YL).
  unfold parse_exponent. change (read (mk :: mantissa_text x ++ c :: rest) 0) with (Ok mk). cbn [bind].
  assert (ME : negb (mk =? ch_e) && negb (mk =? ch_E) = false) by (destruct Hm as [-> | ->]; reflexivity).
  rewrite ME. change (skipn 1 (mk :: mantissa_text x ++ c :: rest)) with (mantissa_text x ++ c :: rest).
  change single with (fmt_of Float). rewrite Hp. cbn [bind digit_result dp_K dp_value dp_sign dp_str_end]. rewrite <- He, negb_involutive.
  assert (KB : - 5000 <= pd_pow_gain st - pd_fraction_count st <= 5000).
  { pose proof Hi as (_ & _ & _ & _ & _ & D1 & D2 & D3 & D4 & _).
    assert (zlen (mantissa_text y) <= 2050).
    { unfold zlen, parser_limit in *. destruct YL as [[L ->]|(_ & L & _)]; lia. }
    rewrite mant_text, zlen_mant in H. rewrite zlen_app in *.
    assert (0 <= b2z (has_sign (n_sign y)) /\ 0 <= b2z (is_some (n_frac y))) by (destruct (n_sign y), (n_frac y); cbn; lia). lia. }
  destruct (Z.eq_dec (coefficient y) 0) as [C0|C0].
  - left. exists 0. split; [left; auto|]. split; [change (2 ^ 31) with 2147483648; lia|].
    destruct (scan_value _ _ _ _ _ _ Hi) as (q & R & T1 & T2 & T3 & _ & T5).
    unfold coefficient in C0. rewrite frac_odig in C0.
    assert (Z0 : dval (pd_digits st) = 0).
    { pose proof Hi as (_ & _ & _ & _ & _ & D1 & _). pose proof (dval_bounds _ D1). pose proof (pow10_pos q T1).
      destruct (Z.eq_dec (dval (pd_digits st)) 0); [assumption|exfalso].
      assert (0 < dval (pd_digits st) * 10 ^ q) by (apply Z.mul_pos_pos; lia). lia. }
    destruct (T5 Z0) as (_ & _ & ->). rewrite Z0. destruct (is_minus (n_sign y)); reflexivity.
  - destruct (scan_moved Float _ y st Y1 Hi C0) as [PM _].
    set (d := dval (pd_digits st)) in *. set (k := pd_pow_gain st - pd_fraction_count st) in *. clearbody d k.
    destruct (C54_seq_pow 10 exponent_decimal_digits k ltac:(unfold exponent_decimal_digits; lia)) as [S1 S2].
    change (Z.of_nat exponent_decimal_digits) with 3 in S1, S2.
    destruct (Z.le_gt_cases 0 k) as [K0|K0]; [destruct (Z.le_gt_cases k 3) as [K3|K3]|].
    + rewrite S1 by lia. cbn [bind]. pose proof (narrow_as_int (d * 10 ^ k)) as A. set (m := narrow_int (wrap 32 (d * 10 ^ k))) in *. clearbody m.
      pose proof A as [_ MB].
      destruct (Z.lt_ge_cases (signed (n_sign y) m) (2 ^ 31)) as [B|B].
      * left. exists (signed (n_sign y) m). split; [right; exists d, k, m; auto 6|]. split; [unfold signed in *; destruct (is_minus (n_sign y)); lia|].
        unfold signed in *. destruct (is_minus (n_sign y)); [|reflexivity]. rewrite sint_ok by lia. reflexivity.
      * right. split.
        { intros E [[C _]|(d' & k' & m' & P' & K' & A' & -> & B')]; [contradiction|].
          destruct (moved_unique _ _ _ _ _ _ PM P') as [-> ->]. apply as_int_narrow in A, A'. assert (m = m') by congruence. subst. lia. }
        exists SignedOverflow. split; [auto|]. unfold signed in *. destruct (is_minus (n_sign y)); [|lia].
        rewrite sint_bad by lia. reflexivity.
    + right. split.
      { intros E [[C _]|(d' & k' & m' & P' & K' & _)]; [contradiction|]. destruct (moved_unique _ _ _ _ _ _ PM P') as [-> ->]. lia. }
      exists TableOverrun. split; [auto|]. rewrite S2 by (left; lia). reflexivity.
    + right. split.
      { intros E [[C _]|(d' & k' & m' & P' & K' & _)]; [contradiction|]. destruct (moved_unique _ _ _ _ _ _ PM P') as [-> ->]. lia. }
      exists TableOverrun. split; [auto|]. rewrite S2 by (right; lia). reflexivity.
Qed.

(** * Mantissa and exponent *)

(** Once the mantissa is read, only what [parse_exponent] makes of the rest matters. *)
Lemma krosh_any : forall t n c r, bare n -> coefficient n <> 0 -> (List.length (mantissa_text n) <= parser_limit)%nat -> cannot_continue n c ->
  exists d K f e, point_moved t n d K /\ -5000 <= K <= 5000 /\ 2 ^ (width t - 1) <= f < 2 ^ width t /\ -100 <= e <= 100 /\
    krosh (fmt_of t) (mantissa_text n ++ c :: r) =
      ('(ev, ee) <- parse_exponent (c :: r) ;;
       K' <- sint (K + ev) ;;
       kr_scale (fmt_of t) (is_minus (n_sign n)) (zlen (mantissa_text n) + ee) K' (mk_diy f e)).
Proof.
  intros t n c r X CN L Hc. destruct (scan_any t n c r X Hc) as (y & st & e0 & r0 & Ht & Hi & He & Hs & _ & Hp).
  assert (LZ : zlen (mantissa_text n) <= 2049) by (unfold zlen, parser_limit in *; lia).
  assert (y = n) as ->.
  { apply (taken_unique n); [exact X|exact Ht|]. split; [exact X|]. split; [reflexivity|]. left. auto. }
  destruct (Z.leb_spec (zlen (mantissa_text n)) 2049); [|lia]. rewrite Z.min_l in He by lia. subst e0.
  destruct (scan_moved t _ n st (proj1 X) Hi CN) as [PM Z0].
  destruct (scan_frac _ _ _ _ _ _ Hi) as (P1 & P2 & P3).
  destruct (mantissa_total t (dval (pd_digits st)) (pd_frac st) ltac:(lia) P2 P3) as (f & e & M1 & M2 & M3).
  pose proof (width_facts t). pose proof (pow2_pos (width t - 1) ltac:(lia)).
  exists (dval (pd_digits st)), (pd_pow_gain st - pd_fraction_count st), f, e.
  split; [exact PM|]. split; [|split; [exact M2|split; [exact M3|]]].
  { pose proof Hi as (_ & _ & _ & _ & _ & D1 & D2 & D3 & D4 & _). rewrite mant_text, zlen_mant in LZ. rewrite zlen_app in *.
    assert (0 <= b2z (has_sign (n_sign n)) /\ 0 <= b2z (is_some (n_frac n))) by (destruct (n_sign n), (n_frac n); cbn; lia). lia. }
  rewrite krosh_by_parts, Hp. cbn [bind digit_result dp_special dp_value dp_frac dp_str_end dp_K dp_sign].
  destruct (Z.eqb_spec (dval (pd_digits st)) 0); [contradiction|].
  rewrite M1. cbn [bind m_f]. destruct (Z.eqb_spec f 0); [lia|].
  rewrite Hs, negb_involutive. reflexivity.
Qed.

Lemma nonzero_text : forall n, bare n -> coefficient n <> 0 -> zlen (mantissa_text n) <> 0 /\ well_formed n.
Proof.
  intros n (X1 & X2 & X3) CN. assert (W : well_formed n).
  { split; [exact X2|]. split; [exact X3|]. split; [|now rewrite X1]. intros E. apply CN. unfold coefficient. rewrite E. reflexivity. }
  split; [now apply mantissa_nonempty|exact W].
Qed.

Lemma marker_cannot : forall n c, coefficient n <> 0 -> bare n -> e_letter c -> cannot_continue n c.
Proof.
  intros n c CN X Hc. destruct (nonzero_text n X CN) as [_ (W1 & W2 & W3 & _)]. apply stops_cannot.
  destruct (marker_breaks c Hc) as [B1 B2]. rewrite frac_odig in W3. apply stops_numeral; assumption.
Qed.

(** C73: the exponent that is applied *)
Theorem C73_exponent_applied : forall t n mk x y c rest E n' c' rest',
  bare n -> coefficient n <> 0 -> (List.length (mantissa_text n) <= parser_limit)%nat -> e_letter mk ->
  bare x -> cannot_continue x c -> part_taken x y -> exponent_read y E ->
  well_formed n' -> n_sign n' = n_sign n -> n_int n' = n_int n -> n_frac n' = n_frac n ->
  exponent_value n' = E -> small_exponent n' -> within_limits n' -> ends_number c' ->
  let s := mantissa_text n ++ mk :: mantissa_text x ++ c :: rest in let s' := written n' ++ c' :: rest' in
  let used := len (mantissa_text n) + 1 + Z.min (len (mantissa_text x)) 2049 in
  (exists v st, forall want fb errno,
     atof (fmt_of t) s want fb errno = Ok (answer want errno v st used) /\
     atof (fmt_of t) s' want fb errno = Ok (answer want errno v st (len (written n')))) \/
  (forall want fb errno, atof (fmt_of t) s want fb errno = fallback_answer t s want fb errno /\
     atof (fmt_of t) s' want fb errno = fallback_answer t s' want fb errno).
Proof.
  intros t n mk x y c rest E n' c' rest' X CN L Hm Xx Hc Ht HE W' S1 S2 S3 EV SE [L1 L2] Hc' s s' used.
  destruct (exponent_any mk x c rest Hm Xx Hc) as (y' & Ht' & [(E' & HE' & _ & P1)|(HE' & _)]);
    assert (y' = y) as -> by (apply (taken_unique x); assumption); [|exfalso; exact (HE' E HE)].
  rewrite (exponent_read_unique _ _ _ HE' HE) in P1. clear E' HE'.
  destruct (nonzero_text n X CN) as [NZ W].
  assert (MT : mantissa_text n' = mantissa_text n) by (unfold mantissa_text; now rewrite S1, S2, S3).
  pose proof (parse_exponent_ok n' c' rest' W' Hc' (small_readable _ SE) L2) as P2. rewrite EV in P2.
  assert (F : exists c2 r2, exponent_text n' ++ c' :: rest' = c2 :: r2 /\ breaks c2).
  { destruct (first_after_mantissa n' c' rest' Hc') as (c2 & r2 & F1 & F2 & F3). exists c2, r2. split; [exact F1|]. split; assumption. }
  destruct F as (c2 & r2 & F1 & F2). rewrite F1 in P2.
  unfold small_exponent in SE. rewrite EV in SE.
  pose proof (same_exponent t n mk (mantissa_text x ++ c :: rest) c2 r2 E (1 + Z.min (zlen (mantissa_text x)) 2049) (zlen (exponent_text n')) W CN L (marker_breaks mk Hm) F2
    ltac:(pose proof (zlen_nonneg (mantissa_text x)); lia) (zlen_nonneg (exponent_text n')) ltac:(change (2 ^ 30) with 1073741824; lia) P1 P2) as G.
  cbn zeta in G.
  replace s' with (mantissa_text n ++ c2 :: r2) by (unfold s', written; rewrite MT, <- app_assoc, F1; reflexivity).
  replace (len (written n')) with (len (mantissa_text n) + zlen (exponent_text n')).
  2:{ unfold written, len, zlen. rewrite MT, app_length. lia. }
  replace used with (len (mantissa_text n) + (1 + Z.min (zlen (mantissa_text x)) 2049)) by (unfold used, len, zlen; lia).
  exact G.
Qed.

(** ... when it is far from zero *)
Theorem C73_exponent_far : forall t n mk x y c rest E want fb errno,
  bare n -> coefficient n <> 0 -> (List.length (mantissa_text n) <= parser_limit)%nat -> e_letter mk ->
  bare x -> cannot_continue x c -> part_taken x y -> exponent_read y E -> exponent_fits t n y -> 10000 <= Z.abs E ->
  atof (fmt_of t) (mantissa_text n ++ mk :: mantissa_text x ++ c :: rest) want fb errno =
    Ok (answer want errno (if E <? 0 then zero_of t false else infinity_of t false)
                          (if E <? 0 then underflow else overflow)
                          (len (mantissa_text n) + 1 + Z.min (len (mantissa_text x)) 2049)).
Proof.
  intros t n mk x y c rest E want fb errno X CN L Hm Xx Hc Ht HE HF FE.
  destruct (exponent_any mk x c rest Hm Xx Hc) as (y' & Ht' & [(E' & HE' & _ & P1)|(HE' & _)]);
    assert (y' = y) as -> by (apply (taken_unique x); assumption); [|exfalso; exact (HE' E HE)].
  rewrite (exponent_read_unique _ _ _ HE' HE) in P1. clear E' HE'.
  destruct (nonzero_text n X CN) as [NZ W].
  destruct (krosh_any t n mk (mantissa_text x ++ c :: rest) X CN L (marker_cannot n mk CN X Hm)) as (d & K & f & e & PM & HK & Hf & He & E1).
  destruct HF as (d' & K' & E' & PM' & HE' & B). rewrite (exponent_read_unique _ _ _ HE' HE) in B.
  destruct (moved_unique _ _ _ _ _ _ PM' PM) as [_ ->].
  rewrite P1 in E1. cbn [bind] in E1. rewrite sint_ok in E1 by exact B. cbn [bind] in E1. unfold kr_scale in E1.
  assert (EL : fpow_lo (fmt_of t) = - table_max t /\ fpow_hi (fmt_of t) = table_max t) by (destruct t; auto).
  assert (T0 : 0 <= table_max t <= 400) by (destruct t; cbn; lia).
  destruct EL as [EL1 EL2]. rewrite EL1, EL2 in E1.
  change zlen with len in *. set (u := len (mantissa_text n) + (1 + Z.min (len (mantissa_text x)) 2049)) in *.
  assert (NU : u <> 0) by (unfold u, len; lia).
  replace (len (mantissa_text n) + 1 + Z.min (len (mantissa_text x)) 2049) with u by (unfold u; lia). clearbody u.
  destruct (Z.eqb_spec (K + E) 0); [lia|].
  destruct (Z.ltb_spec E 0) as [Ne|Ne].
  - destruct (Z.leb_spec (- table_max t) (K + E)); [exfalso; lia|]. rewrite (atof_fast t _ want fb errno _ _ _ E1 NU). reflexivity.
  - destruct (Z.leb_spec (- table_max t) (K + E)); [|lia]. destruct (Z.leb_spec (K + E) (table_max t)); [lia|].
    rewrite (atof_fast t _ want fb errno _ _ _ E1 NU). destruct t; reflexivity.
Qed.

Lemma krosh_fault : forall t s f want fb errno, krosh (fmt_of t) s = Fault f -> atof (fmt_of t) s want fb errno = Fault f.
Proof. intros t s f want fb errno H. unfold atof. now rewrite H. Qed.

(** ... and when it cannot be applied *)
Theorem C73_exponent_unfit : forall t n mk x y c rest,
  bare n -> coefficient n <> 0 -> (List.length (mantissa_text n) <= parser_limit)%nat -> e_letter mk ->
  bare x -> cannot_continue x c -> part_taken x y -> ~ exponent_fits t n y ->
  exists f, (f = TableOverrun \/ f = SignedOverflow) /\
    forall want fb errno, atof (fmt_of t) (mantissa_text n ++ mk :: mantissa_text x ++ c :: rest) want fb errno = Fault f.
Proof.
  intros t n mk x y c rest X CN L Hm Xx Hc Ht HF.
  destruct (krosh_any t n mk (mantissa_text x ++ c :: rest) X CN L (marker_cannot n mk CN X Hm)) as (d & K & f & e & PM & HK & Hf & He & E1).
  destruct (exponent_any mk x c rest Hm Xx Hc) as (y' & Ht' & [(E & HE & _ & P1)|(HE & g & G1 & P1)]);
    assert (y' = y) as -> by (apply (taken_unique x); assumption).
  - exists SignedOverflow. split; [auto|]. intros want fb errno. apply krosh_fault. rewrite E1, P1. cbn [bind].
    rewrite sint_bad; [reflexivity|]. intros B. apply HF. exists d, K, E. auto.
  - exists g. split; [exact G1|]. intros want fb errno. apply krosh_fault. rewrite E1, P1. reflexivity.
Qed.

(** * All texts *)

Lemma digit_split : forall a, exists l b, a = dchars l ++ b /\ Forall digit l /\ nondigit (hd 0 b).
Proof.
  induction a as [|x a (l & b & E & D & N)].
  - exists [], []. split; [reflexivity|]. split; [constructor|]. unfold nondigit. cbn. lia.
  - destruct (Z_le_dec 48 x) as [H1|H1]; [destruct (Z_le_dec x 57) as [H2|H2]|].
    + exists ((x - 48) :: l), b. split; [|split; [constructor; [unfold digit; lia|exact D]|exact N]].
      change (dchars (x - 48 :: l)) with (48 + (x - 48) :: dchars l). rewrite E, <- app_comm_cons. f_equal. lia.
    + exists [], (x :: a). split; [reflexivity|]. split; [constructor|]. unfold nondigit. cbn [hd]. lia.
    + exists [], (x :: a). split; [reflexivity|]. split; [constructor|]. unfold nondigit. cbn [hd]. lia.
Qed.

(** every text begins with a bare number, perhaps an empty one, after which something stands
    that cannot continue it or begins a word *)
Lemma decompose : forall a, exists n b, bare n /\ a = mantissa_text n ++ b /\
  (cannot_continue n (hd 0 b) \/
   mantissa_text n = sign_text (n_sign n) /\ exists c r, b = c :: r /\ In c (text "nNiI")).
Proof.
  intros a.
  assert (S : exists sg u, a = sign_text sg ++ u /\ (sg = NoSign -> hd 0 u <> 43 /\ hd 0 u <> 45)).
  { destruct a as [|x a]; [exists NoSign, []; cbn; intuition lia|].
    destruct (Z.eq_dec x 43) as [-> |]; [exists Plus, a; split; [reflexivity|discriminate]|].
    destruct (Z.eq_dec x 45) as [-> |]; [exists Minus, a; split; [reflexivity|discriminate]|].
    exists NoSign, (x :: a). cbn. intuition lia. }
  destruct S as (sg & u & -> & HS). destruct (digit_split u) as (I & v & -> & DI & NI).
  assert (V : exists F b, v = (match F with None => [] | Some f => 46 :: dchars f end) ++ b /\ Forall digit (odig F) /\
            nondigit (hd 0 b) /\ (hd 0 b = 46 -> F <> None)).
  { destruct v as [|x v]; [exists None, []; cbn; repeat split; auto; intros; discriminate|].
    destruct (Z.eq_dec x 46) as [-> |].
    - destruct (digit_split v) as (f & b & -> & Df & Nb). exists (Some f), b. split; [reflexivity|]. split; [exact Df|]. split; [exact Nb|]. discriminate.
    - exists None, (x :: v). split; [reflexivity|]. split; [constructor|]. split; [exact NI|]. cbn [hd]. congruence. }
  destruct V as (F & b & -> & DF & NB & HF).
  set (n := {| n_sign := sg; n_int := I; n_frac := F; n_exp := None |}).
  assert (MT : mantissa_text n = sign_text sg ++ dchars I ++ match F with None => [] | Some f => 46 :: dchars f end) by (rewrite mant_text; reflexivity).
  exists n, b. split; [split; [reflexivity|split; [exact DI|now rewrite frac_odig]]|]. split; [rewrite MT, <- !app_assoc; reflexivity|].
  destruct (list_eq_dec Z.eq_dec (mantissa_text n) (sign_text sg)) as [EM|EM].
  - destruct (in_dec Z.eq_dec (hd 0 b) (text "nNiI")) as [HI|HI].
    + right. split; [exact EM|]. destruct b as [|c r]; [vm_compute in HI; intuition discriminate|]. exists c, r. auto.
    + left. split; [exact NB|]. split; [exact HF|]. split; [|intros H; contradiction].
      change (code "+") with 43. change (code "-") with 45. intros P E0. rewrite E0 in EM.
      assert (sg = NoSign) as Esg by (destruct sg; [reflexivity|discriminate EM|discriminate EM]). specialize (HS Esg). rewrite Esg in MT.
      rewrite E0 in MT. change (sign_text NoSign) with (@nil Z) in MT. cbn [app] in MT. symmetry in MT. apply app_eq_nil in MT as [M1 M2].
      rewrite M1, M2 in HS. cbn [app] in HS. lia.
  - left. split; [exact NB|]. split; [exact HF|]. split; [|intros _; exact EM].
    change (code "+") with 43. change (code "-") with 45. intros P E0. rewrite E0 in MT. symmetry in MT.
    apply app_eq_nil in MT as [M0 MT]. apply app_eq_nil in MT as [M1 M2]. apply EM. rewrite E0. now symmetry.
Qed.

(** a word, or what begins like one, counts for no digits *)
Lemma word_scan : forall t sg c r rest, In c (text "nNiI") ->
  exists dp, parse_digits (fmt_of t) (sign_text sg ++ c :: r ++ 0 :: rest) = Ok dp /\ dp_value dp = 0 /\ dp_K dp = 0 /\ dp_special dp = dp_special dp.
Proof.
  intros t sg c r rest Hc.
  set (s := sign_text sg ++ c :: r ++ 0 :: rest). set (a := sign_text sg ++ c :: r).
  assert (Es : s = a ++ 0 :: rest) by (unfold s, a; rewrite <- app_assoc; reflexivity).
  assert (I0 : inert 0) by (unfold inert; repeat split; lia).
  assert (LA : zlen (sign_text sg) + 1 <= zlen a) by (unfold a; rewrite zlen_app, zlen_cons; pose proof (zlen_nonneg r); lia).
  pose proof (zlen_nonneg (sign_text sg)) as L0.
  destruct (eat_nan_same s s a 0 0 rest rest Es Es I0 I0 (zlen (sign_text sg) + 1) ltac:(lia)) as (k & K1 & _ & K2 & _).
  destruct (eat_inf_same s s a 0 0 rest rest Es Es I0 I0 (zlen (sign_text sg) + 1) ltac:(lia)) as (j & J1 & _ & J2 & _).
  destruct (sign_facts sg) as (F1 & F2 & F3 & F4 & F5).
  assert (G : pd_pow_gain (sign_state sg) = 0 /\ pd_fraction_count (sign_state sg) = 0) by (destruct sg; auto).
  assert (ST : exists st1, step_char (decimal_q (fmt_of t)) s (sign_state sg) c = Ok (st1, true) /\ pd_digits st1 = [] /\
            pd_pow_gain st1 = 0 /\ pd_fraction_count st1 = 0).
  { assert (Hc' : (c = 110 \/ c = 78) \/ (c = 105 \/ c = 73)) by (change (text "nNiI") with [110; 78; 105; 73] in Hc; cbn [In] in Hc; intuition lia).
    unfold step_char, ch_0, ch_dot. destruct (Z.eqb_spec c 48); [lia|]. destruct (Z.leb_spec 49 c), (Z.leb_spec c 57); cbn [andb]; try lia.
    all: destruct (Z.eqb_spec c 46); [lia|].
    all: rewrite F2, sign_pos, K1, J1; cbn [bind]; cbv zeta.
    all: destruct Hc' as [Hc'|Hc'].
    all: try (assert ((c =? ch_n) || (c =? ch_N) = true) as -> by (unfold ch_n, ch_N; destruct Hc' as [-> | ->]; reflexivity)).
    all: try (assert ((c =? ch_n) || (c =? ch_N) = false) as -> by (unfold ch_n, ch_N; destruct Hc' as [-> | ->]; reflexivity);
              assert ((c =? ch_i) || (c =? ch_I) = true) as -> by (unfold ch_i, ch_I; destruct Hc' as [-> | ->]; reflexivity)).
    - eexists. split; [reflexivity|]. destruct (k =? 0); cbn [negb set_special set_pos pd_digits pd_pow_gain pd_fraction_count]; tauto.
    - eexists. split; [reflexivity|]. destruct (j =? 0); cbn [negb set_special set_pos pd_digits pd_pow_gain pd_fraction_count]; tauto. }
  destruct ST as (st1 & ST & SD & SG & SF).
  unfold parse_digits. destruct (loop_sign (decimal_q (fmt_of t)) sg (c :: r ++ 0 :: rest)) as (f & E). fold s in E. rewrite E.
  cbn [parse_loop]. rewrite sign_pos.
  pose proof (read_behind (sign_text sg) (c :: r ++ 0 :: rest) 0 c ltac:(lia) eq_refl) as R0. rewrite Z.add_0_r in R0. fold s in R0. rewrite R0. cbn [bind]. rewrite ST.
  cbn [bind orb]. cbv zeta. cbn [orb bind].
  cbn [set_pos pd_digits]. rewrite SD. cbn [rev weighted_sum bind]. eexists. split; [reflexivity|].
  cbn [dp_value dp_K dp_special pd_pow_gain pd_fraction_count set_pos]. rewrite SG, SF. repeat split.
Qed.

Lemma krosh_zero : forall t s dp, parse_digits (fmt_of t) s = Ok dp -> dp_value dp = 0 -> exists r, krosh (fmt_of t) s = Ok r.
Proof.
  intros t s dp H Z0. rewrite krosh_by_parts, H. cbn [bind]. rewrite Z0. destruct (dp_special dp); eexists; reflexivity.
Qed.

Lemma scale_ok : forall t neg se K f e, 2 ^ (width t - 1) <= f < 2 ^ width t -> -100 <= e <= 100 -> exists r, kr_scale (fmt_of t) neg se K (mk_diy f e) = Ok r.
Proof.
  intros t neg se K f e Hf He. destruct (kr_scale_total t neg se K f e Hf He) as (v & st & acc & H). eauto.
Qed.

(** for every text the parser returns, but for exponents that do not fit *)
Lemma krosh_cases : forall t a rest,
  (exists r, krosh (fmt_of t) (a ++ 0 :: rest) = Ok r) \/
  has_unfit_exponent t a.
Proof.
  intros t a rest. destruct (decompose a) as (n & b & X & -> & [Hc|(EM & c & r & -> & Hw)]).
  2:{ left. rewrite EM, <- app_assoc. destruct (word_scan t (n_sign n) c r rest Hw) as (dp & H1 & H2 & _). exact (krosh_zero t _ dp H1 H2). }
  rewrite <- app_assoc.
  assert (B : exists c r, b ++ 0 :: rest = c :: r /\ c = hd 0 b) by (destruct b; cbn; eauto).
  destruct B as (c & r & EB & EC). rewrite <- EC in Hc. rewrite EB.
  destruct (scan_any t n c r X Hc) as (y & st & e & r0 & Ht & Hi & He & Hs & Hr & Hp).
  destruct (Z.eq_dec (dval (pd_digits st)) 0) as [Z0|Z0]; [left; exact (krosh_zero t _ _ Hp Z0)|].
  destruct (Z.le_gt_cases (zlen (mantissa_text n)) 2049) as [L|L].
  - destruct (Z.leb_spec (zlen (mantissa_text n)) 2049); [|lia].
    assert (LN : (List.length (mantissa_text n) <= parser_limit)%nat) by (unfold zlen, parser_limit in *; lia).
    assert (y = n) as ->.
    { apply (taken_unique n); [exact X|exact Ht|]. split; [exact X|]. split; [reflexivity|]. left. auto. }
    assert (CN : coefficient n <> 0).
    { destruct (scan_value _ _ _ _ _ _ Hi) as (q & R & T1 & T2 & T3 & _ & _). unfold coefficient. rewrite frac_odig, T2.
      pose proof Hi as (_ & _ & _ & _ & _ & D1 & _). pose proof (dval_bounds _ D1). pose proof (pow10_pos q T1).
      assert (0 < dval (pd_digits st) * 10 ^ q) by (apply Z.mul_pos_pos; lia). lia. }
    destruct (krosh_any t n c r X CN LN Hc) as (d & K & f & e' & PM & HK & Hf & He' & E1). rewrite E1.
    assert (Easy : forall ev ee, - 2 ^ 31 <= K + ev < 2 ^ 31 -> parse_exponent (c :: r) = Ok (ev, ee) ->
      exists r0, ('(ev, ee) <- parse_exponent (c :: r) ;; K' <- sint (K + ev) ;;
       kr_scale (fmt_of t) (is_minus (n_sign n)) (zlen (mantissa_text n) + ee) K' (mk_diy f e')) = Ok r0).
    { intros ev ee HB ->. cbn [bind]. rewrite sint_ok by exact HB. cbn [bind]. now apply scale_ok. }
    destruct ((c =? ch_e) || (c =? ch_E)) eqn:EE.
    + assert (Hm : e_letter c).
      { apply orb_prop in EE. destruct EE as [EE|EE]; apply Z.eqb_eq in EE; [left|right]; exact EE. }
      destruct b as [|c0 b]; [cbn in EC; subst c; discriminate EE|]. cbn [hd] in EC. subst c0. injection EB as EB. subst r.
      destruct (decompose b) as (x & b' & Xx & -> & [Hx|(EM & cw & rw & -> & Hw)]).
      * assert (B : exists c' r', b' ++ 0 :: rest = c' :: r' /\ c' = hd 0 b') by (destruct b'; cbn; eauto).
        destruct B as (c' & r' & EB & EC). rewrite <- app_assoc, EB in Easy. pose proof Hx as Hx'. rewrite <- EC in Hx'.
        destruct (exponent_any c x c' r' Hm Xx Hx') as (y & Hy & [(E & HE & _ & P1)|(HE & g & G1 & P1)]).
        -- destruct (Z_le_dec (- 2 ^ 31) (K + E)) as [B1|B1]; [destruct (Z_lt_dec (K + E) (2 ^ 31)) as [B2|B2]|].
           { left. rewrite <- app_assoc, EB. exact (Easy _ _ (conj B1 B2) P1). }
           all: right; exists n, c, x, y, b'; (split; [reflexivity|]); repeat (split; [assumption|]); intros (d' & K' & E' & PM' & HE' & B');
             rewrite (exponent_read_unique _ _ _ HE' HE) in B'; destruct (moved_unique _ _ _ _ _ _ PM' PM) as [_ ->]; lia.
        -- right. exists n, c, x, y, b'. split; [reflexivity|]. repeat (split; [assumption|]). intros (d' & K' & E & _ & HE' & _). exact (HE E HE').
      * left. rewrite EM, <- app_assoc in *. 
        destruct (word_scan Float (n_sign x) cw rw rest Hw) as (dp & H1 & H2 & H3 & _).
        apply (Easy 0 (1 + dp_str_end dp)); [change (2 ^ 31) with 2147483648; lia|].
        unfold parse_exponent. change (read (c :: sign_text (n_sign x) ++ (cw :: rw) ++ 0 :: rest) 0) with (Ok c). cbn [bind].
        assert (negb (c =? ch_e) && negb (c =? ch_E) = false) as -> by (destruct Hm as [-> | ->]; reflexivity).
        change (skipn 1 (c :: sign_text (n_sign x) ++ (cw :: rw) ++ 0 :: rest)) with (sign_text (n_sign x) ++ cw :: rw ++ 0 :: rest).
        change single with (fmt_of Float). rewrite H1. cbn [bind]. rewrite H2, H3. destruct (dp_sign dp); reflexivity.
    + left. apply (Easy 0 0); [change (2 ^ 31) with 2147483648; lia|]. unfold parse_exponent. change (read (c :: r) 0) with (Ok c). cbn [bind].
      apply orb_false_elim in EE as [-> ->]. reflexivity.
  - left. destruct (Z.leb_spec (zlen (mantissa_text n)) 2049); [lia|]. destruct (Hr L) as [Hr1 Hr2].
    destruct (scan_frac _ _ _ _ _ _ Hi) as (P1 & P2 & P3).
    destruct (mantissa_total t (dval (pd_digits st)) (pd_frac st) ltac:(lia) P2 P3) as (f & e' & M1 & M2 & M3).
    pose proof (width_facts t). pose proof (pow2_pos (width t - 1) ltac:(lia)).
    assert (KB : - 5000 <= pd_pow_gain st - pd_fraction_count st <= 5000).
    { pose proof Hi as (_ & _ & _ & _ & _ & D1 & D2 & D3 & D4 & _). pose proof Ht as (_ & _ & YL).
      assert (zlen (mantissa_text y) <= 2050).
      { unfold zlen, parser_limit in *. destruct YL as [[L1 ->]|(_ & L1 & _)]; lia. }
      rewrite mant_text, zlen_mant in *. rewrite zlen_app in *.
      assert (0 <= b2z (has_sign (n_sign y)) /\ 0 <= b2z (is_some (n_frac y))) by (destruct (n_sign y), (n_frac y); cbn; lia). lia. }
    rewrite krosh_by_parts, Hp. cbn [bind digit_result dp_special dp_value dp_frac dp_str_end dp_K dp_sign].
    destruct (Z.eqb_spec (dval (pd_digits st)) 0); [contradiction|].
    rewrite M1. cbn [bind m_f]. destruct (Z.eqb_spec f 0); [lia|]. rewrite Hs.
    destruct r0 as [|z r0]; [contradiction|]. cbn [hd] in Hr1.
    assert (PE : parse_exponent (z :: r0) = Ok (0, 0)).
    { unfold parse_exponent. change (read (z :: r0) 0) with (Ok z). cbn [bind]. unfold ch_e, ch_E.
      destruct (Z.eqb_spec z 101) as [-> |]; [exfalso; apply Hr1; left; reflexivity|].
      destruct (Z.eqb_spec z 69) as [-> |]; [exfalso; apply Hr1; right; reflexivity|]. reflexivity. }
    rewrite PE. cbn [bind]. rewrite Z.add_0_r, sint_ok by (change (2 ^ 31) with 2147483648; lia). cbn [bind]. now apply scale_ok.
Qed.

Lemma krosh_ok_atof : forall t s r want errno, krosh (fmt_of t) s = Ok r ->
  exists r', atof (fmt_of t) s want (fun _ _ => Ok {| fb_value := 0; fb_str_end := 0; fb_errno := 0 |}) errno = Ok r'.
Proof.
  intros t s r want errno H. unfold atof. rewrite H. cbn [bind]. destruct (negb (kr_str_end r =? 0)); [|eauto]. destruct (kr_is_accurate r); cbn [bind]; eauto.
Qed.

(** C74: exactly the texts with an exponent that does not fit lead to undefined behaviour *)
Theorem C74_undefined_exactly : forall t a,
  (exists f, forall rest want fb errno, atof (fmt_of t) (a ++ 0 :: rest) want fb errno = Fault f) <->
  has_unfit_exponent t a.
Proof.
  intros t a. split.
  - intros (f & H). destruct (krosh_cases t a []) as [(r & K)|C]; [exfalso|exact C].
    destruct (krosh_ok_atof t _ r true 0 K) as (r' & A). rewrite H in A. discriminate A.
  - intros (n & mk & x & y & b & -> & X & CN & L & Hm & Xx & Hx & Hy & NF).
    destruct (C27_terminator t (mantissa_text n ++ mk :: mantissa_text x ++ b)) as [(f & _ & _ & F)|[(v & st & e & _ & G)|G]].
    + exists f. exact F.
    + exfalso. assert (B : exists c' r', b ++ [0] = c' :: r' /\ c' = hd 0 b) by (destruct b; cbn; eauto).
      destruct B as (c' & r' & EB & EC). rewrite <- EC in Hx.
      destruct (C73_exponent_unfit t n mk x y c' r' X CN L Hm Xx Hx Hy NF) as (f & _ & F).
      specialize (F true (fun _ _ => Ok {| fb_value := 0; fb_str_end := 0; fb_errno := 0 |}) 0). rewrite <- EB in F.
      specialize (G [] true (fun _ _ => Ok {| fb_value := 0; fb_str_end := 0; fb_errno := 0 |}) 0).
      rewrite <- app_assoc, <- app_comm_cons, <- app_assoc in G. rewrite F in G. discriminate G.
    + exfalso. assert (B : exists c' r', b ++ [0] = c' :: r' /\ c' = hd 0 b) by (destruct b; cbn; eauto).
      destruct B as (c' & r' & EB & EC). rewrite <- EC in Hx.
      destruct (C73_exponent_unfit t n mk x y c' r' X CN L Hm Xx Hx Hy NF) as (f & _ & F).
      specialize (F true (fun _ _ => Ok {| fb_value := 0; fb_str_end := 0; fb_errno := 0 |}) 0). rewrite <- EB in F.
      specialize (G [] true (fun _ _ => Ok {| fb_value := 0; fb_str_end := 0; fb_errno := 0 |}) 0).
      rewrite <- app_assoc, <- app_comm_cons, <- app_assoc in G. rewrite F in G. discriminate G.
Qed.

(** ... all others give an answer, if the fallback does. *)
Theorem C74_defined : forall t a rest want fb errno, (forall s n, exists r, fb s n = Ok r) ->
  ~ has_unfit_exponent t a ->
  exists r, atof (fmt_of t) (a ++ 0 :: rest) want fb errno = Ok r.
Proof.
  intros t a rest want fb errno HF NX. destruct (C27_terminator t a) as [(f & _ & _ & F)|[(v & st & e & _ & G)|G]].
  - exfalso. apply NX. apply C74_undefined_exactly. exists f. exact F.
  - eexists. apply G.
  - rewrite G. unfold fallback_answer. destruct (HF (a ++ 0 :: rest) errno) as (r & ->). eexists. reflexivity.
Qed.

(** [x] is the longest bare number at the beginning of a tame exponent *)
Lemma tame_bare : forall w x b, tame_exponent w -> bare x -> cannot_continue x (hd 0 b) -> w = mantissa_text x ++ b ->
  n_frac x = None /\ (List.length (n_int x) <= 9)%nat /\ (dval (n_int x) = 0 \/ dval (n_int x) mod 10000 <> 0).
Proof.
  intros w x b (sg & ds & v & Ew & D & LD & MD & N1 & N2 & N3) (X1 & X2 & X3) (C1 & C2 & C3 & C4) E.
  assert (D48 : forall d, code "0" + d = 48 + d) by reflexivity.
  rewrite Ew in E. rewrite frac_odig in X3. rewrite mant_text in *. unfold mant in E, C3. rewrite <- !app_assoc in E.
  change (code ".") with 46 in *. change (code "+") with 43 in *. change (code "-") with 45 in *.
  set (ft := match n_frac x with None => [] | Some f => 46 :: dchars f end) in *.
  assert (HV : v = [] \/ exists z r, v = z :: r /\ nondigit z) by (destruct v as [|z r]; [auto|right; exists z, r; split; [reflexivity|exact N1]]).
  assert (HB : ft ++ b = [] \/ exists z r, ft ++ b = z :: r /\ nondigit z).
  { unfold ft. destruct (n_frac x) as [f|]; [right; exists 46, (dchars f ++ b); split; [reflexivity|unfold nondigit; lia]|].
    destruct b as [|z r]; [auto|right; exists z, r; split; [reflexivity|exact C1]]. }
  assert (ES : sign_text sg = sign_text (n_sign x)).
  { assert (L : sg = NoSign -> hd 0 (dchars ds ++ v) <> 43 /\ hd 0 (dchars ds ++ v) <> 45).
    { intros _. destruct ds as [|d ds]; [exact (N3 eq_refl)|]. inversion_clear D. change (hd 0 (dchars (d :: ds) ++ v)) with (48 + d). unfold digit in *. lia. }
    assert (R : n_sign x = NoSign -> hd 0 (dchars (n_int x) ++ ft ++ b) <> 43 /\ hd 0 (dchars (n_int x) ++ ft ++ b) <> 45).
    { intros EN. destruct (n_int x) as [|d l] eqn:EI.
      - unfold ft in *. destruct (n_frac x) as [f|]; [cbn [dchars map app hd]; lia|]. cbn [dchars map app] in *.
        rewrite EN in C3. cbn [sign_text app] in C3. split; intros HH; apply C3; auto.
      - inversion_clear X2. change (hd 0 (dchars (d :: l) ++ ft ++ b)) with (48 + d). unfold digit in *. lia. }
    destruct sg, (n_sign x); try reflexivity; exfalso.
    - destruct (L eq_refl) as [L1 _]. apply L1. change (sign_text NoSign ++ dchars ds ++ v) with (dchars ds ++ v) in E. rewrite E. reflexivity.
    - destruct (L eq_refl) as [_ L1]. apply L1. change (sign_text NoSign ++ dchars ds ++ v) with (dchars ds ++ v) in E. rewrite E. reflexivity.
    - destruct (R eq_refl) as [R1 _]. apply R1. change (sign_text NoSign ++ dchars (n_int x) ++ ft ++ b) with (dchars (n_int x) ++ ft ++ b) in E. rewrite <- E. reflexivity.
    - apply (f_equal (hd 0)) in E. discriminate E.
    - destruct (R eq_refl) as [_ R1]. apply R1. change (sign_text NoSign ++ dchars (n_int x) ++ ft ++ b) with (dchars (n_int x) ++ ft ++ b) in E. rewrite <- E. reflexivity.
    - apply (f_equal (hd 0)) in E. discriminate E. }
  rewrite ES in E. apply app_inv_head in E.
  destruct (digits_apart _ _ _ _ D X2 HV HB E) as [-> Ev].
  split; [|auto]. unfold ft in Ev. destruct (n_frac x); [exfalso|reflexivity]. apply N2. rewrite Ev. reflexivity.
Qed.

(** In particular the behaviour is defined when every letter e in the text is followed by a tame
    exponent. *)
Theorem C74_tame_texts : forall t a rest want fb errno, (forall s n, exists r, fb s n = Ok r) ->
  (forall u mk w, a = u ++ mk :: w -> e_letter mk -> tame_exponent w) ->
  exists r, atof (fmt_of t) (a ++ 0 :: rest) want fb errno = Ok r.
Proof.
  intros t a rest want fb errno HF HS. apply C74_defined; [exact HF|].
  intros (n & mk & x & y & b & Ea & X & CN & L & Hm & Xx & Hx & Hy & NF). apply NF. clear NF.
  destruct (tame_bare _ x b (HS _ _ _ Ea Hm) Xx Hx eq_refl) as (F1 & F2 & F3).
  assert (ML : (List.length (mantissa_text x) <= parser_limit)%nat).
  { assert (zlen (mantissa_text x) <= 10); [|unfold zlen, parser_limit in *; lia].
    rewrite mant_text, zlen_mant, F1. cbn [is_some odig b2z]. rewrite zlen_nil. destruct (n_sign x); cbn [has_sign b2z]; unfold zlen; lia. }
  assert (y = x) as ->.
  { apply (taken_unique x); [exact Xx|exact Hy|]. split; [exact Xx|]. split; [reflexivity|]. left. auto. }
  destruct (krosh_any t n mk [] X CN L (marker_cannot n mk CN X Hm)) as (d & K & _ & _ & PM & HK & _).
  assert (CX : coefficient x = dval (n_int x)) by (unfold coefficient; rewrite frac_odig, F1; cbn [odig]; now rewrite app_nil_r).
  assert (SX : scale x = 0) by (unfold scale, exponent_value; rewrite (proj1 Xx), frac_odig, F1; reflexivity).
  pose proof (dval_bounds _ (proj1 (proj2 Xx))) as DB.
  assert (DB9 : dval (n_int x) < 10 ^ 9) by (apply Z.lt_le_trans with (1 := proj2 DB); apply Z.pow_le_mono_r; unfold zlen; lia).
  change (10 ^ 9) with 1000000000 in DB9.
  destruct (Z.eq_dec (coefficient x) 0) as [C0|C0].
  { exists d, K, 0. split; [exact PM|]. split; [left; auto|]. change (2 ^ 31) with 2147483648. lia. }
  destruct (scan_any Float x (hd 0 b) [] Xx Hx) as (y' & st & e & r & Ht & Hi & _).
  assert (y' = x) as -> by (apply (taken_unique x); assumption).
  destruct (scan_moved Float _ x st (proj1 Xx) Hi C0) as [PX _]. set (dx := dval (pd_digits st)) in *. set (k := pd_pow_gain st - pd_fraction_count st) in *. clearbody dx k.
  pose proof PX as (Hd & j & R & J0 & JK & JE & JC). rewrite SX in JK. assert (k = j) by lia. subst k.
  rewrite CX in *. destruct F3 as [F3|F3]; [contradiction|].
  assert (R = 0).
  { destruct JC as [[-> _]|[R1 R2]]; [reflexivity|exfalso]. assert (1 <= j) by (destruct (Z.eq_dec j 0) as [-> |]; [change (10 ^ 0) with 1 in R1; lia|lia]).
    assert (10 ^ 1 <= 10 ^ j) by (apply Z.pow_le_mono_r; lia). change (10 ^ 1) with 10 in *. change (10 ^ (exact_digits Float - 1)) with 100000000 in R2.
    assert (100000000 * 10 <= dx * 10 ^ j) by (apply Z.mul_le_mono_nonneg; lia). lia. }
  subst R. rewrite Z.add_0_r in JE.
  assert (J3 : j <= 3).
  { destruct (Z.le_gt_cases j 3); [assumption|exfalso]. apply F3. rewrite JE. replace j with (j - 4 + 4) by lia.
    rewrite Z.pow_add_r by lia. change (10 ^ 4) with 10000. rewrite Z.mul_assoc. apply Z.mod_mul. lia. }
  exists d, K, (signed (n_sign x) (dval (n_int x))). split; [exact PM|]. split.
  - right. exists dx, j, (dval (n_int x)). split; [exact PX|]. split; [lia|]. split.
    { split; [exists 0; lia|change (2 ^ 31) with 2147483648; lia]. }
    split; [reflexivity|]. unfold signed. change (2 ^ 31) with 2147483648. destruct (is_minus (n_sign x)); lia.
  - unfold signed. change (2 ^ 31) with 2147483648. destruct (is_minus (n_sign x)); lia.
Qed.
