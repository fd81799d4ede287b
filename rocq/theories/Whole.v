(** C96: what atof makes of any text, as a function. *)
From Coq Require Import Reals Lra Lia ZArith Bool List String Ascii.
From Flocq Require Import Core.
From Verif Require Import Machine MachineFacts BitOps StaticPow Fraction Format DiyFp KComp Chars Krosh Atof Spec ParseSpec TextSpec ReadSpec MeanSpec SameSpec ExactSpec WholeSpec ParseApi Instances
  DiyFacts BoundFacts TableFacts GrisuFacts FtoaFacts RoundFacts DownFacts DvalFacts CmpFacts ArithProps ScanFacts LoopFacts ParseFacts GapFacts KroshNum ShortFacts FracFacts LongFacts RangeFacts RangeProps ScaledFacts SameFacts ParseProps Refuted LocalFacts LocalProps NegFacts Marker Tokens Truncate Defined Ends Reading ErrorProps Meaning ExactFacts WholeFacts.
Open Scope Z_scope.

(** numbers without an exponent, of any length *)
Lemma bare_exactly : forall t n, bare n ->
  answered (Z.min (zlen (mantissa_text n)) 2049) (read_number t n) (krosh (fmt_of t) (mantissa_text n ++ [0])).
Proof.
  intros t n X. pose proof (seen_taken n X) as PT.
  destruct (scan_any t n 0 [] X (cannot_zero n)) as (y & st & e & z & Ht & Hi & He & Hs & Hr & Hp).
  assert (y = seen n) by (apply (taken_unique n); assumption). pose proof Ht as ((Y1 & Y2 & Y3) & YS & YL).
  assert (EV : exponent_value n = 0) by (unfold exponent_value; now rewrite (proj1 X)).
  unfold read_number. rewrite EV. rewrite <- H. rewrite krosh_by_parts, Hp. cbn [bind digit_result dp_special dp_value dp_frac dp_str_end dp_K dp_sign].
  rewrite <- He.
  destruct (Z.eqb_spec (coefficient y) 0) as [C0|C0].
  - assert (Z0 : dval (pd_digits st) = 0).
    { destruct (scan_value _ _ _ _ _ _ Hi) as (q & R & T1 & T2 & T3 & _ & _). unfold coefficient in C0. rewrite frac_odig in C0.
      pose proof (pow10_pos q T1). pose proof Hi as (_ & _ & _ & _ & _ & D1 & _). pose proof (dval_bounds _ D1). nia. }
    rewrite Z0. cbn [Z.eqb]. rewrite apply_sign_zero, YS. reflexivity.
  - destruct (scan_moved t _ y st Y1 Hi C0) as [PM Z0]. pose proof (move_point_ok t y Y2 Y3 C0) as MP.
    destruct (move_point t y) as [d K]. cbn [fst snd] in MP. rewrite Z.add_0_r. destruct (moved_unique _ _ _ _ _ _ MP PM) as [-> ->].
    destruct (scan_four t n y st X Ht Hi C0 H) as (F1 & F2 & F3).
    destruct (Z.eqb_spec (dval (pd_digits st)) 0); [contradiction|]. rewrite F1.
    destruct (scan_frac _ _ _ _ _ _ Hi) as (P1 & P2 & P3).
    destruct (scaled_answer t (is_minus (n_sign n)) e (dval (pd_digits st)) (pd_pow_gain st - pd_fraction_count st) _ ltac:(lia) F2 F3) as (f & ee & M1 & M2 & M3).
    rewrite M1. cbn [bind m_f]. pose proof (width_facts t). pose proof (pow2_pos (width t - 1) ltac:(lia)). destruct (Z.eqb_spec f 0); [lia|].
    assert (PE : parse_exponent (skipn (Z.to_nat e) (mantissa_text n ++ [0])) = Ok (0, 0)).
    { destruct (Z.le_gt_cases (zlen (mantissa_text n)) 2049) as [L|L].
      - rewrite Z.min_l in He by lia. rewrite He, skipn_zlen. reflexivity.
      - rewrite Z.min_r in He by lia. subst e. now apply (behind_cut t n 0 [] X (cannot_zero n)). }
    rewrite PE. cbn [bind].
    assert (KB : - 5000 <= pd_pow_gain st - pd_fraction_count st <= 5000).
    { pose proof Hi as (_ & _ & _ & _ & _ & D1 & D2 & D3 & D4 & _).
      assert (zlen (mantissa_text y) <= 2050).
      { unfold zlen, parser_limit in *. destruct YL as [[L1 ->]|(_ & L1 & _)]; lia. }
      rewrite mant_text, zlen_mant in *. rewrite zlen_app in *.
      assert (0 <= b2z (has_sign (n_sign y)) /\ 0 <= b2z (is_some (n_frac y))) by (destruct (n_sign y), (n_frac y); cbn; lia). lia. }
    rewrite !Z.add_0_r, sint_ok by (change (2 ^ 31) with 2147483648; lia). cbn [bind]. rewrite negb_involutive, YS. exact M3.
Qed.

(** numbers with a short mantissa *)
Lemma seen_short : forall n, well_formed n -> (List.length (mantissa_text n) <= parser_limit)%nat ->
  seen n = {| n_sign := n_sign n; n_int := n_int n; n_frac := n_frac n; n_exp := None |}.
Proof.
  intros n (W1 & W2 & _) L. set (m := {| n_sign := n_sign n; n_int := n_int n; n_frac := n_frac n; n_exp := None |}).
  change (seen n) with (seen m). apply seen_all; [|exact L]. split; [reflexivity|]. split; [exact W1|exact W2].
Qed.

Lemma read_number_short : forall t n, well_formed n -> within_limits n -> coefficient n <> 0 ->
  exists d K T, point_moved t n d K /\ looked_at t n d K T /\ read_number t n = read_exactly t (is_minus (n_sign n)) d K T.
Proof.
  intros t n W L CN. pose proof W as (W1 & W2 & _). unfold read_number. set (m := seen n).
  assert (Em : m = {| n_sign := n_sign n; n_int := n_int n; n_frac := n_frac n; n_exp := None |}) by (apply seen_short; [exact W|exact (proj1 L)]).
  assert (CM : coefficient m = coefficient n) by (rewrite Em; reflexivity). rewrite CM. destruct (Z.eqb_spec (coefficient n) 0); [contradiction|].
  assert (D1 : Forall digit (n_int m)) by (rewrite Em; exact W1). assert (D2 : Forall digit (frac_digits m)) by (rewrite Em; exact W2).
  pose proof (move_point_ok t m D1 D2 ltac:(rewrite CM; exact CN)) as PM. destruct (move_point t m) as [d K0]. cbn [fst snd] in PM.
  destruct PM as (Hd & j & R & J0 & EK & E & C).
  assert (SC : scale m + exponent_value n = scale n) by (rewrite Em; unfold scale, exponent_value, frac_digits; cbn [n_exp n_frac]; lia).
  assert (PM : point_moved t n d (K0 + exponent_value n)).
  { split; [exact Hd|]. exists j, R. split; [exact J0|]. split; [lia|]. split; [now rewrite <- CM|exact C]. }
  destruct (krosh_numeral t n 0 nil W ends_zero L) as (st & Hp & _).
  destruct (parsed_looked t n 0 nil st W ends_zero Hp CN) as (T & LA & _). pose proof (point_moved_parsed t n 0 nil st W ends_zero Hp CN) as PM'.
  destruct (point_moved_unique _ _ _ _ _ _ PM' PM) as [E1 E2]. rewrite E1, E2 in LA.
  exists d, (K0 + exponent_value n), T. split; [exact PM|]. split; [exact LA|]. f_equal.
  pose proof (four_looked t n _ _ T W1 W2 PM LA) as F4. unfold four_behind. fold m. fold (four_of t n). rewrite F4.
  assert (DA : Forall digit (n_int m ++ frac_digits m)) by (apply Forall_app; auto). pose proof (pow10_pos j J0) as PJ.
  destruct (behind_rest t _ d j R DA Hd J0 E) as (_ & Q1 & Q2); [tauto|].
  destruct (Z.eqb_spec (dval (behind t (n_int m ++ frac_digits m))) 0) as [B0|B0]; [|reflexivity].
  (* then the four digits are zero *)
  apply Q1 in B0. subst R. symmetry. destruct LA as (j' & R' & J' & EK' & EN & HR & ->).
  assert (R' = 0); [|subst R'; apply Z.div_0_l; pose proof (pow10_pos j' J'); lia].
  destruct (Z.ltb_spec (dval (n_int n)) (10 ^ exact_digits t)) as [G|G].
  - assert (j' = j) by lia. subst j'. fold (coefficient m) in E. lia.
  - set (z := zlen (frac_digits n)). pose proof (zlen_nonneg (frac_digits n)) as Z0. fold z in Z0. pose proof (pow10_pos z Z0) as PZ.
    pose proof (dval_bounds _ W2) as BF. fold z in BF. pose proof (pow10_pos j' J') as PJ'.
    assert (j = j' + z).
    { unfold scale, exponent_value, integer_only in EK'. cbn in EK'. assert (K0 + exponent_value n = scale n + j) by lia.
      unfold scale, exponent_value in H. unfold z, zlen. rewrite EK' in H. unfold frac_digits in *. lia. }
    subst j.
    assert (EI : dval (n_int n) = d * 10 ^ j' + R') by (rewrite <- EN; unfold coefficient, integer_only; cbn; now rewrite app_nil_r).
    assert (E3 : dval (n_int n ++ frac_digits n) = d * 10 ^ (j' + z)) by (rewrite Z.add_0_r in E; fold (coefficient n); rewrite <- CM; exact E).
    rewrite dval_app in E3. fold z in E3. rewrite Z.pow_add_r, EI in E3 by lia. nia.
Qed.

(** C96: what atof does with any text (terminated by a NUL), computed: undefined behaviour; or the
    value, to the last bit, the status and the number of characters taken; or a call of the
    fallback. *)
Theorem C96_any_text : forall t a rest want fb errno,
  let s := a ++ 0 :: rest in
  match read_text t a with
  | Fails => exists f, atof (fmt_of t) s want fb errno = Fault f
  | Returns v st k => atof (fmt_of t) s want fb errno = Ok (answer want errno v st k)
  | Defers => atof (fmt_of t) s want fb errno = fallback_answer t s want fb errno
  end.
Proof.
  intros t a rest want fb errno s. pose proof (C79_meaning t a rest) as G. fold s in G. unfold read_text.
  destruct (meaning_of t a) as [|sg w|m] eqn:HM.
  - destruct G as (f & G). exists f. apply G.
  - rewrite (G want fb errno). unfold word_bits, nan_of. destruct w; reflexivity.
  - (* how the plain number is read *)
    assert (P : exists e, answered e (read_number t m) (krosh (fmt_of t) (written m ++ [0])) /\ (e = 0 -> m = {| n_sign := NoSign; n_int := []; n_frac := None; n_exp := None |})).
    { unfold meaning_of in HM. destruct (split_bare a) as [n b] eqn:E. destruct (split_bare_ok a n b E) as (X & _ & _).
      assert (PN : n = m -> exists e, answered e (read_number t m) (krosh (fmt_of t) (written m ++ [0])) /\ (e = 0 -> m = {| n_sign := NoSign; n_int := []; n_frac := None; n_exp := None |})).
      { intros <-. assert (EW : written n = mantissa_text n) by (unfold written, exponent_text; rewrite (proj1 X); apply app_nil_r).
        rewrite EW. exists (Z.min (zlen (mantissa_text n)) 2049). split; [now apply bare_exactly|]. intros E0.
        assert (L0 : zlen (mantissa_text n) = 0) by lia. rewrite mant_text, zlen_mant in L0.
        destruct n as [sg I F ex]. cbn [n_sign n_int n_frac] in *. pose proof (zlen_nonneg I). pose proof (zlen_nonneg (odig F)).
        destruct X as (X1 & _). cbn [n_exp] in X1. subst ex.
        destruct sg; cbn [has_sign b2z] in L0; [|destruct F; cbn [is_some b2z] in L0; lia|destruct F; cbn [is_some b2z] in L0; lia].
        destruct F; cbn [is_some b2z odig] in *; [lia|]. destruct I as [|x I]; [reflexivity|]. rewrite zlen_cons in L0. pose proof (zlen_nonneg I). rewrite zlen_nil in L0. lia. }
      destruct (no_digits n && negb (snd (word_at b) =? 0)); [discriminate|].
      destruct b as [|mk r]; [injection HM as HM; auto|].
      destruct ((lower mk =? code "e") && negb (coefficient n =? 0) && (List.length (mantissa_text n) <=? parser_limit)%nat) eqn:B; [|injection HM as HM; auto].
      apply andb_true_iff in B as [B B3]. apply andb_true_iff in B as [B1 B2]. apply negb_true_iff, Z.eqb_neq in B2. apply Nat.leb_le in B3.
      destruct (applied t n r) as [E0|]; [|discriminate]. injection HM as <-.
      destruct (with_exponent_ok n E0 X B2 B3) as (W & SM & WL & _ & CM & _). set (m := with_exponent n E0) in *.
      exists (zlen (written m)). split; [|intros Q; exfalso; exact (written_nonempty m W Q)].
      destruct (read_number_short t m W WL ltac:(rewrite CM; exact B2)) as (d & K & T & PM & LA & ->).
      exact (krosh_exactly t m 0 [] d K T W ends_zero WL (small_readable _ SM) PM LA). }
    destruct P as (e & P & P0). destruct (Z.eq_dec e 0) as [E0|E0].
    + specialize (P0 E0). subst m e. destruct G as [(v & st & G)|G].
      * assert (Q := proj2 (G [] true (fun _ _ => Fault OutOfFuel) 0)). cbv in Q. injection Q as <- <-.
        destruct (G [] want fb errno) as [-> _]. destruct t; reflexivity.
      * exfalso. assert (Q := proj2 (G [] true (fun _ _ => Fault OutOfFuel) 0)). cbv in Q. discriminate Q.
    + unfold answered in P. destruct G as [(v & st & G)|G].
      * destruct (G [] want fb errno) as [-> _]. assert (Q := proj2 (G [] true (fun _ _ => Fault OutOfFuel) 0)).
        destruct (read_number t m) as [v' st'|].
        -- rewrite (atof_fast t _ _ _ _ _ _ _ P E0) in Q. injection Q as <- <- _. reflexivity.
        -- destruct P as (v' & st' & P). rewrite (atof_slow t _ _ _ _ _ _ _ P E0) in Q. discriminate Q.
      * destruct (G [] want fb errno) as [-> _]. assert (Q := proj2 (G [] true (fun _ _ => Fault OutOfFuel) 0)). cbv zeta in Q.
        destruct (read_number t m) as [v' st'|]; [|reflexivity].
        rewrite (atof_fast t _ _ _ _ _ _ _ P E0) in Q. discriminate Q.
Qed.

(** ... and from_string, for any string, NULs included (what is behind the first one is not seen) *)
Theorem C96_from_string : forall t a rest fb errno,
  let s := a ++ 0 :: rest in
  match read_text t a with
  | Fails => (exists f, from_string (fmt_of t) a fb errno = Fault f) /\ (exists f, from_string (fmt_of t) s fb errno = Fault f)
  | Returns v st k => from_string (fmt_of t) a fb errno = Ok (answer false errno v st k) /\ from_string (fmt_of t) s fb errno = Ok (answer false errno v st k)
  | Defers => from_string (fmt_of t) a fb errno = fallback_answer t (a ++ [0]) false fb errno /\
              from_string (fmt_of t) s fb errno = fallback_answer t (s ++ [0]) false fb errno
  end.
Proof.
  intros t a rest fb errno s. unfold from_string, s.
  pose proof (C96_any_text t a [] false fb errno) as A. pose proof (C96_any_text t a (rest ++ [0]) false fb errno) as B. cbv zeta in A, B.
  rewrite <- app_assoc. cbn [app]. destruct (read_text t a); auto.
Qed.
