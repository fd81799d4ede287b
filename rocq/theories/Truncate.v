(** C52: what happens to mantissas of more than 2049 characters. *)
From Coq Require Import Reals Lra Lia ZArith List String Ascii.
From Flocq Require Import Core.
From Verif Require Import Machine MachineFacts BitOps StaticPow Fraction Format DiyFp KComp Chars Krosh Atof Spec ParseSpec ParseApi Instances
  DiyFacts BoundFacts TableFacts GrisuFacts FtoaFacts RoundFacts DownFacts DvalFacts CmpFacts ArithProps ScanFacts LoopFacts ParseFacts GapFacts KroshNum ShortFacts FracFacts LongFacts ParseProps Refuted LocalFacts LocalProps NegFacts Marker.
Open Scope Z_scope.

(** a prefix of a mantissa is a mantissa, followed by a digit or by the first point *)
Lemma mant_prefix : forall sg I F k, Forall digit I -> Forall digit (odig F) -> zlen (sign_text sg) <= k < zlen (mant sg I F) ->
  exists I' F' x r, mant sg I F = mant sg I' F' ++ x :: r /\ zlen (mant sg I' F') = k /\
    Forall digit I' /\ Forall digit (odig F') /\ (exists q, I = I' ++ q) /\
    ((exists d, x = 48 + d /\ digit d) \/ x = 46 /\ F' = None).
Proof.
  intros sg I F k HI HF Hk. rewrite zlen_mant in Hk. rewrite zlen_sign in Hk.
  set (j := k - b2z (has_sign sg)) in *. assert (J0 : 0 <= j) by (unfold j; lia).
  destruct (Z.lt_ge_cases j (zlen I)) as [C|C].
  - rewrite <- (firstn_skipn (Z.to_nat j) I) in HI. apply Forall_app in HI as [H1 H2].
    assert (LF : zlen (firstn (Z.to_nat j) I) = j) by (unfold zlen in *; rewrite firstn_length; lia).
    destruct (skipn (Z.to_nat j) I) as [|d q] eqn:Eq.
    { exfalso. assert (zlen (skipn (Z.to_nat j) I) = 0) by (now rewrite Eq). unfold zlen in *. rewrite skipn_length in *. lia. }
    exists (firstn (Z.to_nat j) I), None, (48 + d), (dchars q ++ match F with None => [] | Some f => 46 :: dchars f end).
    split. { unfold mant. rewrite <- (firstn_skipn (Z.to_nat j) I) at 1. rewrite Eq, dchars_app. cbn [dchars map app]. change (code "0") with 48.
             rewrite <- !app_assoc. reflexivity. }
    split; [rewrite zlen_mant, LF; cbn [is_some odig b2z]; rewrite zlen_nil; unfold j; lia|].
    split; [exact H1|]. split; [constructor|]. split; [exists (d :: q); rewrite <- Eq; symmetry; apply firstn_skipn|].
    left. exists d. inversion_clear H2. auto.
  - destruct F as [f|]; [|cbn [is_some odig b2z] in Hk; rewrite zlen_nil in Hk; unfold j in *; lia].
    cbn [is_some odig b2z] in *. destruct (Z.eq_dec j (zlen I)) as [E|E].
    + exists I, None, 46, (dchars f). split; [unfold mant; rewrite app_nil_r, <- app_assoc; reflexivity|].
      split; [rewrite zlen_mant; cbn [is_some odig b2z]; rewrite zlen_nil; unfold j in *; lia|].
      split; [exact HI|]. split; [constructor|]. split; [exists []; now rewrite app_nil_r|]. right. auto.
    + set (i := j - zlen I - 1) in *. assert (I0 : 0 <= i < zlen f) by (unfold i, j in *; lia).
      rewrite <- (firstn_skipn (Z.to_nat i) f) in HF. apply Forall_app in HF as [H1 H2].
      assert (LF : zlen (firstn (Z.to_nat i) f) = i) by (unfold zlen in *; rewrite firstn_length; lia).
      destruct (skipn (Z.to_nat i) f) as [|d q] eqn:Eq.
      { exfalso. assert (zlen (skipn (Z.to_nat i) f) = 0) by (now rewrite Eq). unfold zlen in *. rewrite skipn_length in *. lia. }
      exists I, (Some (firstn (Z.to_nat i) f)), (48 + d), (dchars q).
      split. { unfold mant. rewrite <- (firstn_skipn (Z.to_nat i) f) at 1. rewrite Eq, dchars_app. cbn [dchars map app]. change (code "0") with 48.
               rewrite <- !app_assoc. reflexivity. }
      split; [rewrite zlen_mant; cbn [is_some odig b2z]; rewrite LF; unfold i, j; lia|].
      split; [exact HI|]. split; [exact H1|]. split; [exists []; now rewrite app_nil_r|].
      left. exists d. inversion_clear H2. auto.
Qed.

(** The scanner takes 2050 characters and says it took 2049. *)
Lemma parse_digits_over : forall t s sg I F c rest, Forall digit I -> Forall digit (odig F) ->
  s = mant sg I F ++ c :: rest -> nondigit c -> 2049 < zlen (mant sg I F) ->
  exists I2 F2 x r st, s = mant sg I2 F2 ++ r /\ zlen (mant sg I2 F2) = 2050 /\ (exists q, I = I2 ++ q) /\
    scan_inv (decimal_q (fmt_of t)) s sg I2 F2 st /\
    skipn 2049 s = x :: r /\ (x = 46 \/ exists d, x = 48 + d /\ digit d) /\
    parse_digits (fmt_of t) s = Ok (digit_result sg st 2049).
Proof.
  intros t s sg I F c rest HI HF Es Hc HL. destruct (kap_facts t) as (K1 & K2 & K3).
  destruct (mant_prefix sg I F 2049 HI HF) as (I' & F' & x & r & E1 & E2 & H1 & H2 & (q & Eq) & H3).
  { split; [rewrite zlen_sign; destruct sg; cbn; lia|exact HL]. }
  assert (R : read s (zlen (mant sg I F)) = Ok c) by (rewrite Es; apply read_app; reflexivity).
  assert (Es' : s = mant sg I' F' ++ (x :: r ++ c :: rest)) by (rewrite Es, E1, <- app_assoc; reflexivity).
  destruct (loop_mant (decimal_q (fmt_of t)) s sg I' F' (x :: r ++ c :: rest) (zlen (mant sg I F)) c 2 K1 K2 H1 H2 Es' R Hc ltac:(lia) ltac:(lia)) as (st & P1 & P2).
  assert (L2 : List.length (mant sg I' F') = Z.to_nat 2049) by (unfold zlen in E2; lia).
  assert (FU : (List.length (mant sg I' F') + 2)%nat = parse_fuel) by (rewrite L2; unfold parse_fuel, maximum_offset; lia).
  rewrite FU in P1.
  assert (Rx : read s 2049 = Ok x) by (rewrite Es'; apply read_app; now rewrite E2).
  pose proof P2 as (B1 & _). rewrite E2 in B1.
  assert (G : exists st' I2 F2, step_char (decimal_q (fmt_of t)) s st x = Ok (st', false) /\ pd_pos st' = 2049 /\
    scan_inv (decimal_q (fmt_of t)) s sg I2 F2 (set_pos (pd_pos st' + 1) st') /\ mant sg I2 F2 = mant sg I' F' ++ [x] /\ exists q', I = I2 ++ q').
  { destruct H3 as [(d & -> & Hd)|[-> EF]].
    - destruct (step_digit _ s sg I' F' st d (zlen (mant sg I F)) c P2 Hd K1 K2 ltac:(rewrite E2; lia) ltac:(lia) R Hc) as (st' & S1 & S2 & S3).
      exists st', (extI I' F' [d]), (extF F' [d]). split; [exact S1|]. split; [lia|]. split; [exact S3|]. split; [apply mant_ext|].
      destruct F'; cbn [extI]; [eauto|]. 
      assert (X : mant sg I' None ++ (48 + d :: r) = mant sg I F) by (now rewrite E1).
      unfold mant in X. rewrite app_nil_r, Eq, dchars_app, <- !app_assoc in X.
      apply app_inv_head in X. apply app_inv_head in X.
      destruct q as [|d' q]; cbn [dchars map app] in X.
      + destruct F; cbn [app] in X; [|discriminate X]. apply (f_equal (hd 0)) in X. cbn [hd] in X. change (48 + d = 46) in X. unfold digit in Hd. lia.
      + pose proof (f_equal (hd 0) X) as Y. cbn [hd] in Y. change (48 + d = 48 + d') in Y. exists q. assert (d = d') as -> by lia. now rewrite <- app_assoc.
    - subst F'. destruct (step_dot _ s sg I' st P2) as (S1 & S2). exists (set_dot st), I', (Some []). split; [exact S1|].
      split; [exact B1|]. split; [exact S2|]. split; [|eauto]. unfold mant. cbn [dchars map]. rewrite app_nil_r, <- app_assoc. reflexivity. }
  destruct G as (st' & I2 & F2 & S1 & S2 & S3 & S4 & S5).
  exists I2, F2, x, (r ++ c :: rest), (set_pos (pd_pos st' + 1) st').
  assert (L50 : zlen (mant sg I2 F2) = 2050) by (rewrite S4, zlen_app, E2; reflexivity).
  split; [rewrite S4, <- app_assoc; exact Es'|]. split; [exact L50|]. split; [exact S5|]. split; [exact S3|].
  split. { rewrite Es'. replace 2049%nat with (List.length (mant sg I' F')) by lia. rewrite skipn_app, Nat.sub_diag, skipn_all. reflexivity. }
  split; [destruct H3 as [H3|[H3 _]]; auto|].
  unfold parse_digits. rewrite P1. cbn [parse_loop]. rewrite B1, Rx. cbn [bind]. rewrite S1. cbn [bind orb]. rewrite S2.
  change (maximum_offset <? 2049) with true. cbv iota.
  destruct (finish_digits t s sg I2 F2 _ S3) as (W & K).
  { rewrite zlen_mant in L50. rewrite zlen_app. assert (0 <= b2z (has_sign sg) /\ 0 <= b2z (is_some F2)) by (destruct sg, F2; cbn; lia). lia. }
  rewrite S2 in W, K. cbn [bind]. rewrite W, K. cbn [bind].
  unfold digit_result. pose proof S3 as (C1 & C2 & C3 & C4 & C5 & C6). rewrite S2 in C4, C5. rewrite C4, C5. reflexivity.
Qed.

(** What becomes of a mantissa of more than 2049 characters. *)
Lemma krosh_cut : forall t n c r, well_formed n -> 2049 < zlen (mantissa_text n) -> breaks c ->
  let s := mantissa_text n ++ c :: r in
  exists I2 F2 r2 st, s = mant (n_sign n) I2 F2 ++ r2 /\ zlen (mant (n_sign n) I2 F2) = 2050 /\ (exists q, n_int n = I2 ++ q) /\
    scan_inv (decimal_q (fmt_of t)) s (n_sign n) I2 F2 st /\
    parse_digits (fmt_of t) s = Ok (digit_result (n_sign n) st 2049) /\
    -5000 <= pd_pow_gain st - pd_fraction_count st <= 5000 /\
    (dval (pd_digits st) = 0 -> krosh (fmt_of t) s =
       Ok {| kr_value := apply_sign (fmt_of t) (negb (is_minus (n_sign n))) 0; kr_str_end := 2049; kr_status := success; kr_is_accurate := true |}) /\
    (dval (pd_digits st) <> 0 -> exists f e, kr_mantissa (fmt_of t) (dval (pd_digits st)) (pd_frac st) = Ok (mk_diy f e) /\
       2 ^ (width t - 1) <= f < 2 ^ width t /\ -100 <= e <= 100 /\
       krosh (fmt_of t) s = kr_scale (fmt_of t) (is_minus (n_sign n)) 2049 (pd_pow_gain st - pd_fraction_count st) (mk_diy f e)).
Proof.
  intros t n c r W L Hc s. pose proof W as (W1 & W2 & W3 & W4). rewrite frac_odig in W2.
  assert (Es : s = mant (n_sign n) (n_int n) (n_frac n) ++ c :: r) by (unfold s; now rewrite mant_text).
  rewrite mant_text in L.
  destruct (parse_digits_over t s (n_sign n) (n_int n) (n_frac n) c r W1 W2 Es (proj1 Hc) L)
    as (I2 & F2 & x & r2 & st & E1 & E2 & E3 & Hi & Hx & Hd & Hp).
  assert (PL : plain (mantissa_text n)).
  { rewrite <- (app_nil_r (mantissa_text n)). apply begins_plain, mantissa_begins, W. }
  destruct (parse_digits_same s s (mantissa_text n) c c r r eq_refl eq_refl Hc Hc (or_intror PL) t) as (dp & P1 & _ & _ & Q2 & Q3 & Q4 & _).
  rewrite Hp in P1. injection P1 as <-. cbn [digit_result dp_value dp_frac] in Q2, Q3, Q4.
  exists I2, F2, r2, st. split; [exact E1|]. split; [exact E2|]. split; [exact E3|]. split; [exact Hi|]. split; [exact Hp|].
  pose proof Hi as (_ & _ & _ & _ & _ & D1 & D2 & D3 & D4 & _).
  assert (HK : -5000 <= pd_pow_gain st - pd_fraction_count st <= 5000).
  { rewrite zlen_mant in E2. rewrite zlen_app in *.
    assert (0 <= b2z (has_sign (n_sign n)) /\ 0 <= b2z (is_some F2)) by (destruct (n_sign n), F2; cbn; lia). lia. }
  split; [exact HK|].
  rewrite krosh_by_parts, Hp. cbn [bind digit_result dp_special dp_value dp_frac dp_str_end dp_K dp_sign].
  split.
  - intros Z0. rewrite Z0. reflexivity.
  - intros Z0. destruct (mantissa_total t (dval (pd_digits st)) (pd_frac st) ltac:(lia) Q3 Q4) as (f & e & M1 & M2 & M3).
    pose proof (width_facts t). pose proof (pow2_pos (width t - 1) ltac:(lia)).
    exists f, e. split; [exact M1|]. split; [exact M2|]. split; [exact M3|].
    destruct (Z.eqb_spec (dval (pd_digits st)) 0); [contradiction|].
    rewrite M1. cbn [bind m_f]. destruct (Z.eqb_spec f 0); [lia|].
    change (Z.to_nat 2049) with 2049%nat. rewrite Hx.
    assert (PE : parse_exponent (x :: r2) = Ok (0, 0)).
    { unfold parse_exponent. change (read (x :: r2) 0) with (Ok x). cbn [bind]. unfold ch_e, ch_E.
      destruct (Z.eqb_spec x 101). { destruct Hd as [Hd|(d & Hd & Dd)]; unfold digit in *; lia. }
      destruct (Z.eqb_spec x 69). { destruct Hd as [Hd|(d & Hd & Dd)]; unfold digit in *; lia. }
      reflexivity. }
    rewrite PE. cbn [bind]. rewrite Z.add_0_r, sint_ok by lia. cbn [bind]. rewrite negb_involutive. reflexivity.
Qed.

Lemma no_digit_breaks : forall c, ~ between "0" "9" c -> c <> code "." -> breaks c.
Proof. intros c H1 H2. split; [exact H1|exact H2]. Qed.

(** C52: what follows a mantissa of more than 2049 characters, an exponent in particular, is
    not looked at; the number of characters consumed is 2049. *)
Theorem C52_rest_ignored : forall t n, well_formed n -> (parser_limit < List.length (mantissa_text n))%nat ->
  (exists v st, forall c rest want fb errno, ~ between "0" "9" c -> c <> code "." ->
     atof (fmt_of t) (mantissa_text n ++ c :: rest) want fb errno = Ok (answer want errno v st 2049)) \/
  (forall c rest want fb errno, ~ between "0" "9" c -> c <> code "." ->
     let s := mantissa_text n ++ c :: rest in
     atof (fmt_of t) s want fb errno = fallback_answer t s want fb errno).
Proof.
  intros t n W L. assert (LZ : 2049 < zlen (mantissa_text n)) by (unfold zlen, parser_limit in *; lia).
  assert (B0 : breaks 0) by (split; [unfold nondigit|]; lia).
  assert (PL : plain (mantissa_text n)).
  { rewrite <- (app_nil_r (mantissa_text n)). apply begins_plain, mantissa_begins, W. }
  destruct (krosh_cut t n 0 [] W LZ B0) as (I2 & F2 & r2 & st & E1 & E2 & E3 & Hi & Hp & HK & Kz & Kn).
  assert (Same : forall c r, breaks c -> krosh (fmt_of t) (mantissa_text n ++ c :: r) = krosh (fmt_of t) (mantissa_text n ++ [0])).
  { intros c r Hc. set (s := mantissa_text n ++ c :: r). set (s0 := mantissa_text n ++ [0]) in *.
    destruct (krosh_cut t n c r W LZ Hc) as (J2 & G2 & q2 & su & _ & _ & _ & _ & Hq & _ & Uz & Un).
    destruct (parse_digits_same s s0 (mantissa_text n) c 0 r [] eq_refl eq_refl Hc B0 (or_intror PL) t) as (dp & P1 & P2 & _).
    rewrite Hp in P2. injection P2 as <-. fold s in Hq. rewrite Hq in P1. unfold digit_result in P1.
    injection P1 as P1 P2 P3. fold s in Uz, Un. rewrite P1, P2, P3 in *.
    destruct (Z.eq_dec (dval (pd_digits st)) 0) as [Z0|Z0]; [now rewrite Kz, Uz|].
    destruct (Kn Z0) as (f & e & M1 & _ & _ & ->). destruct (Un Z0) as (f' & e' & M1' & _ & _ & ->).
    rewrite M1 in M1'. injection M1' as <- <-. reflexivity. }
  destruct (Z.eq_dec (dval (pd_digits st)) 0) as [Z0|Z0].
  - left. specialize (Kz Z0). eexists _, _. intros c rest want fb errno H1 H2.
    specialize (Same c rest (no_digit_breaks c H1 H2)). rewrite Kz in Same.
    exact (atof_fast t _ want fb errno _ _ _ Same ltac:(discriminate)).
  - destruct (Kn Z0) as (f & e & M1 & M2 & M3 & M4).
    destruct (scale_signs t 2049 (pd_pow_gain st - pd_fraction_count st) f e M2 M3) as (v & v' & sx & acc & _ & _ & G).
    specialize (G (is_minus (n_sign n)) 0). rewrite Z.add_0_r in G. rewrite M4, G in Same.
    destruct acc; [left|right].
    + eexists _, _. intros c rest want fb errno H1 H2.
      exact (atof_fast t _ want fb errno _ _ _ (Same c rest (no_digit_breaks c H1 H2)) ltac:(discriminate)).
    + intros c rest want fb errno H1 H2.
      exact (atof_slow t _ want fb errno _ _ _ (Same c rest (no_digit_breaks c H1 H2)) ltac:(discriminate)).
Qed.

(** the first 2050 characters *)
Lemma cut_here : forall n c r sg I2 F2 r2 a b, mantissa_text n = a ++ b -> zlen a = 2050 ->
  mantissa_text n ++ c :: r = mant sg I2 F2 ++ r2 -> zlen (mant sg I2 F2) = 2050 -> mant sg I2 F2 = a.
Proof.
  intros n c r sg I2 F2 r2 a b E La Es Lm. rewrite E, <- app_assoc in Es.
  destruct (app_split a (mant sg I2 F2) _ _ ltac:(lia) Es) as (m & E1 & E2).
  assert (zlen m = 0) by (rewrite E1, zlen_app in Lm; lia). destruct m; [now rewrite app_nil_r in E1|].
  rewrite zlen_cons in *. pose proof (zlen_nonneg m). lia.
Qed.

Lemma zero_dchars : forall l, Forall digit l -> Forall (fun x => ~ between "1" "9" x) (dchars l) -> dval l = 0.
Proof.
  induction l as [|d l IH]; intros H1 H2; [reflexivity|]. inversion_clear H1 as [|? ? D1 D2]. cbn [dchars map] in H2.
  inversion_clear H2 as [|? ? N1 N2]. rewrite dval_cons, (IH D2 N2). unfold between, digit in *.
  change (~ (49 <= 48 + d <= 57)) in N1. assert (d = 0) by lia. subst. reflexivity.
Qed.

Lemma Forall_app_2 : forall A (P : A -> Prop) l m, Forall P (l ++ m) -> Forall P m.
Proof. intros A P l m H. now apply Forall_app in H. Qed.
Lemma Forall_app_1 : forall A (P : A -> Prop) l m, Forall P (l ++ m) -> Forall P l.
Proof. intros A P l m H. now apply Forall_app in H. Qed.

Lemma mant_digits : forall n sg I F a b, Forall digit (n_int n) -> Forall digit (frac_digits n) -> n_sign n = sg ->
  mantissa_text n = a ++ b -> mant sg I F = a -> (exists q, n_int n = I ++ q) -> Forall digit I /\ Forall digit (odig F).
Proof.
  intros n sg I F a b H1 H2 <- Ea Em (q & Eq). rewrite Eq in H1. pose proof (Forall_app_1 _ _ _ _ H1) as HI. split; [exact HI|].
  destruct F as [f|]; [|constructor]. cbn [odig]. rewrite mant_text in Ea. rewrite <- Em in Ea. unfold mant in Ea.
  rewrite Eq, dchars_app, <- !app_assoc in Ea. apply app_inv_head in Ea. apply app_inv_head in Ea.
  destruct q as [|d q].
  - cbn [dchars map app] in Ea. destruct (n_frac n) as [g|] eqn:Eg; [|discriminate Ea].
    cbn [app] in Ea. injection Ea as Ea. unfold frac_digits in H2. rewrite Eg in H2.
    clear - H2 Ea. revert f Ea. induction g as [|d g IH]; intros f Ea.
    + destruct f; [constructor|discriminate Ea].
    + destruct f as [|d' f]; [constructor|]. inversion_clear H2 as [|? ? Hd Hg].
      pose proof (f_equal (hd 0) Ea) as X. cbn [dchars map app hd] in X. change (48 + d = 48 + d') in X.
      apply (f_equal (@tl Z)) in Ea. cbn [dchars map app tl] in Ea.
      constructor; [replace d' with d by lia; exact Hd|]. now apply IH.
  - exfalso. apply Forall_app_2 in H1. inversion_clear H1 as [|? ? Hd _].
    apply (f_equal (hd 0)) in Ea. cbn [dchars map app hd] in Ea. change (48 + d = 46) in Ea. unfold digit in Hd. lia.
Qed.

(** C52: zero, if the first digit that is not zero comes too late. *)
Theorem C52_late_digits_lost : forall t n a b c rest want fb errno, well_formed n -> mantissa_text n = a ++ b -> List.length a = Z.to_nat 2050 ->
  Forall (fun x => ~ between "1" "9" x) a -> ~ between "0" "9" c -> c <> code "." ->
  atof (fmt_of t) (mantissa_text n ++ c :: rest) want fb errno
  = Ok (answer want errno (zero_of t (is_minus (n_sign n))) success 2049).
Proof.
  intros t n a b c rest want fb errno W Ea La Ha C1 C2. pose proof W as (W1 & W2 & _).
  assert (La' : zlen a = 2050) by (unfold zlen; lia).
  assert (LZ : 2049 < zlen (mantissa_text n)) by (rewrite Ea, zlen_app; pose proof (zlen_nonneg b); lia).
  destruct (krosh_cut t n c rest W LZ (no_digit_breaks c C1 C2)) as (I2 & F2 & r2 & st & E1 & E2 & E3 & Hi & Hp & HK & Kz & Kn).
  pose proof (cut_here n c rest _ I2 F2 r2 a b Ea La' E1 E2) as Em.
  destruct (mant_digits n (n_sign n) I2 F2 a b W1 W2 eq_refl Ea Em E3) as [DI DF].
  destruct (scan_value _ _ _ _ _ _ Hi) as (tt & R & T1 & T2 & T3 & _ & _).
  pose proof Hi as (_ & _ & _ & _ & _ & D1 & _). pose proof (dval_bounds _ D1). pose proof (pow10_pos tt T1).
  assert (V0 : dval (I2 ++ odig F2) = 0).
  { rewrite <- Em in Ha. unfold mant in Ha. apply Forall_app_2 in Ha. pose proof (Forall_app_1 _ _ _ _ Ha) as HA1. apply Forall_app_2 in Ha.
    rewrite dval_app, (zero_dchars I2 DI HA1). destruct F2 as [f|]; [|reflexivity]. inversion_clear Ha. cbn [odig] in *. now rewrite (zero_dchars f DF). }
  assert (Z0 : dval (pd_digits st) = 0) by nia.
  rewrite (atof_fast t _ want fb errno _ _ _ (Kz Z0) ltac:(discriminate)). f_equal. unfold answer. f_equal.
  destruct t, (n_sign n); reflexivity.
Qed.

(** C52: infinity, and plus infinity whatever the sign, if an integer part of more than 2050
    digits begins with fewer than 1680 zeros. *)
Theorem C52_long_integer : forall t n A d B c rest want fb errno, well_formed n -> n_int n = A ++ d :: B -> d <> 0 ->
  (List.length A <= Z.to_nat 1680)%nat -> (Z.to_nat 2050 <= List.length (n_int n))%nat -> ~ between "0" "9" c -> c <> code "." ->
  atof (fmt_of t) (mantissa_text n ++ c :: rest) want fb errno = Ok (answer want errno (infinity_of t false) overflow 2049).
Proof.
  intros t n A d B c rest want fb errno W EI Hd LA LI C1 C2. pose proof W as (W1 & W2 & _).
  assert (LA' : zlen A <= 1680) by (unfold zlen; lia). assert (LI' : 2050 <= zlen (n_int n)) by (unfold zlen; lia).
  assert (0 <= b2z (has_sign (n_sign n)) <= 1) by (destruct (n_sign n); cbn; lia).
  assert (LZ : 2049 < zlen (mantissa_text n)).
  { rewrite mant_text, zlen_mant. pose proof (zlen_nonneg (odig (n_frac n))). assert (0 <= b2z (is_some (n_frac n))) by (destruct (n_frac n); cbn; lia). lia. }
  destruct (krosh_cut t n c rest W LZ (no_digit_breaks c C1 C2)) as (I2 & F2 & r2 & st & E1 & E2 & (q & Eq) & Hi & Hp & HK & Kz & Kn).
  assert (EF : F2 = None).
  { destruct F2 as [f|]; [exfalso|reflexivity]. rewrite zlen_mant in E2. cbn [is_some odig b2z] in E2. pose proof (zlen_nonneg f).
    rewrite Eq, zlen_app in LI'. destruct q as [|x q]; [rewrite zlen_nil in LI'; lia|].
    rewrite mant_text in E1. unfold mant in E1. rewrite Eq, dchars_app, <- !app_assoc in E1. apply app_inv_head in E1. apply app_inv_head in E1.
    apply (f_equal (hd 0)) in E1. cbn [dchars map app hd] in E1. change (48 + x = 46) in E1.
    rewrite Eq in W1. apply Forall_app_2 in W1. inversion_clear W1 as [|? ? Hx _]. unfold digit in Hx. lia. }
  subst F2. rewrite zlen_mant in E2. cbn [is_some odig b2z] in E2. rewrite zlen_nil in E2.
  destruct (scan_value _ _ _ _ _ _ Hi) as (tt & R & T1 & T2 & T3 & T4 & _). cbn [odig] in *. rewrite app_nil_r, zlen_nil in *.
  pose proof Hi as (_ & _ & _ & _ & _ & D1 & _ & _ & _ & DX).
  assert (LD : zlen (pd_digits st) <= exact_digits t).
  { rewrite <- exact_digits_eq. destruct DX as [(X & _)|[(_ & X & _)|(X & _)]]; [rewrite X, zlen_nil; lia|lia|lia]. }
  pose proof (dval_bounds _ D1) as BP. pose proof (pow10_pos tt T1) as PT.
  rewrite Eq in EI. symmetry in EI.
  destruct (app_split A I2 _ _ ltac:(lia) EI) as (m & Em & Em2).
  destruct m as [|d' m]; [exfalso; rewrite Em, app_nil_r in E2; lia|]. injection Em2 as <- Em2.
  assert (DI : Forall digit I2) by (rewrite Eq in W1; now apply Forall_app_1 in W1).
  assert (LOW : 10 ^ zlen m <= dval I2).
  { rewrite Em in DI. rewrite Em, dval_app. pose proof (dval_lower d m (Forall_app_2 _ _ _ _ DI) Hd).
    pose proof (dval_bounds _ (Forall_app_1 _ _ _ _ DI)). pose proof (pow10_pos (zlen (d :: m)) (zlen_nonneg _)) as PZ.
    assert (0 <= dval A * 10 ^ zlen (d :: m)) by (apply Z.mul_nonneg_nonneg; lia). lia. }
  assert (LM : zlen I2 = zlen A + 1 + zlen m) by (rewrite Em, zlen_app, zlen_cons; lia).
  assert (K0 : 0 <= exact_digits t <= 19) by (destruct t; cbn; lia).
  assert (UP : dval I2 < 10 ^ (exact_digits t + tt)).
  { rewrite Z.pow_add_r by lia. assert (dval (pd_digits st) + 1 <= 10 ^ exact_digits t).
    { assert (10 ^ zlen (pd_digits st) <= 10 ^ exact_digits t) by (apply Z.pow_le_mono_r; lia). lia. }
    rewrite T2. apply Z.lt_le_trans with ((dval (pd_digits st) + 1) * 10 ^ tt); [nia|]. apply Z.mul_le_mono_nonneg_r; lia. }
  assert (TB : zlen m < exact_digits t + tt).
  { destruct (Z.lt_ge_cases (zlen m) (exact_digits t + tt)) as [|G]; [assumption|exfalso]. assert (10 ^ (exact_digits t + tt) <= 10 ^ zlen m) by (apply Z.pow_le_mono_r; lia). lia. }
  assert (NZ : dval (pd_digits st) <> 0).
  { intros Z0. rewrite Z0 in T2. assert (tt <= 0 \/ 0 < tt) as [?|?] by lia.
    - lia.
    - destruct DX as [(X & X0 & _)|[(X & _ & X1 & _)|(X & X1 & _)]].
      + pose proof (pow10_pos (zlen m) (zlen_nonneg m)). rewrite app_nil_r in X0. lia.
      + destruct (pd_digits st) as [|u l]; [congruence|]. cbn [hd] in X1. pose proof (dval_lower u l D1 X1). pose proof (pow10_pos (zlen l) (zlen_nonneg l)). lia.
      + destruct (pd_digits st) as [|u l]; [cbn in X1; congruence|]. cbn [hd] in X1. pose proof (dval_lower u l D1 X1). pose proof (pow10_pos (zlen l) (zlen_nonneg l)). lia. }
  destruct (Kn NZ) as (f & e & _ & _ & _ & KR). specialize (T4 NZ). set (K := pd_pow_gain st - pd_fraction_count st) in *.
  assert (KB : 343 < K) by lia.
  assert (KS : kr_scale (fmt_of t) (is_minus (n_sign n)) 2049 K (mk_diy f e)
     = Ok {| kr_value := infinity_of t false; kr_str_end := 2049; kr_status := overflow; kr_is_accurate := true |}).
  { unfold kr_scale. destruct (Z.eqb_spec K 0); [lia|].
    assert (fpow_lo (fmt_of t) <=? K = true) as -> by (apply Z.leb_le; destruct t; [change (fpow_lo (fmt_of Float)) with (-50)|change (fpow_lo (fmt_of Double)) with (-343)]; lia).
    assert (K <=? fpow_hi (fmt_of t) = false) as -> by (apply Z.leb_gt; destruct t; [change (fpow_hi (fmt_of Float)) with 50|change (fpow_hi (fmt_of Double)) with 343]; lia).
    destruct t; reflexivity. }
  rewrite KS in KR. exact (atof_fast t _ want fb errno _ _ _ KR ltac:(discriminate)).
Qed.

(** further digits change nothing once the mantissa is full and rounded *)
Lemma dig_inv_frozen : forall t s so D nf st l, dig_inv (decimal_q (fmt_of t)) s so D nf st -> Forall digit l -> Forall digit D ->
  ~ (exists d j, 0 <= d < 10 ^ exact_digits t /\ 0 <= j /\ dval D = d * 10 ^ j) ->
  dig_inv (decimal_q (fmt_of t)) s so (D ++ l) (nf + zlen l) st.
Proof.
  intros t s so D nf st l (D1 & D2 & D3 & D4 & DX) Hl HD N. pose proof (zlen_nonneg l) as L0. rewrite exact_digits_eq in DX.
  pose proof (dval_bounds _ D1) as BP. assert (KP : 0 < exact_digits t) by (destruct t; cbn; lia). unfold dig_inv. rewrite zlen_app, exact_digits_eq.
  split; [exact D1|]. split; [lia|]. split; [lia|]. split; [lia|].
  destruct DX as [(X & X0 & _)|[(X & X1 & _ & _ & X2 & _)|(X & X1 & tt & R & T1 & T2 & T3 & T4 & TX)]].
  - exfalso. apply N. exists 0, 0. pose proof (pow10_pos (exact_digits t) ltac:(lia)). rewrite X0. lia.
  - exfalso. apply N. exists (dval (pd_digits st)), (pd_zeros st). assert (10 ^ zlen (pd_digits st) <= 10 ^ exact_digits t) by (apply Z.pow_le_mono_r; lia). lia.
  - right. right. split; [exact X|]. split; [exact X1|]. exists (tt + zlen l), (R * 10 ^ zlen l + dval l).
    pose proof (dval_bounds l Hl). pose proof (pow10_pos (zlen l) L0). rewrite Z.pow_add_r by lia.
    split; [lia|]. split; [rewrite dval_app, T2; ring|].
    split. { split; [nia|]. apply Z.lt_le_trans with ((R + 1) * 10 ^ zlen l); [lia|]. apply Z.mul_le_mono_nonneg_r; lia. }
    split; [lia|]. right. destruct TX as [(_ & R0 & _)|(F1 & F2 & F3)].
    { exfalso. apply N. exists (dval (pd_digits st)), tt. rewrite X in BP. lia. }
    split; [exact F1|]. split; [nia|]. destruct F3 as (L1 & d & L2 & z1 & T & G1 & G2 & G3 & G4 & G5 & G6 & G7).
    exists L1, d, (L2 ++ l), z1, T. split; [rewrite G1, <- app_assoc; reflexivity|]. split; [exact G2|]. split; [exact G3|]. split; [exact G4|].
    split; [|auto]. rewrite zlen_app. replace (zlen D + zlen l - (nf + zlen l)) with (zlen D - nf) by lia. exact G5.
Qed.

Lemma dchars_inj : forall l m, dchars l = dchars m -> l = m.
Proof.
  induction l as [|x l IH]; destruct m as [|y m]; intros E; try discriminate; [reflexivity|].
  pose proof (f_equal (hd 0) E) as X. cbn [dchars map hd] in X. change (48 + x = 48 + y) in X.
  apply (f_equal (@tl Z)) in E. cbn [dchars map tl] in E. f_equal; [lia|now apply IH].
Qed.

(** C52: of a number with a long fraction only the first 2049 characters are consumed, yet
    the value is right, if there are enough significant digits among the first 2050. *)
Theorem C52_long_fraction : forall t n f1 f2 c rest want fb errno, well_formed n -> ends_number c -> n_exp n = None ->
  n_frac n = Some (f1 ++ f2) -> List.length (sign_text (n_sign n) ++ dchars (n_int n) ++ code "." :: dchars f1) = Z.to_nat 2050 ->
  ~ (exists d j, 0 <= d < 10 ^ exact_digits t /\ 0 <= j /\ dval (n_int n ++ f1) = d * 10 ^ j) ->
  in_range t (value n) -> (t = Float -> (pow10 (-42) <= Rabs (value n))%R) ->
  clear_of_ties t (any_length_margin t) (value n) ->
  ~ carries t (value n) -> ~ just_above_power t (any_length_margin t) (value n) ->
  exists v, atof (fmt_of t) (written n ++ c :: rest) want fb errno = Ok (answer want errno v success 2049) /\
     correctly_rounded t (is_minus (n_sign n)) (value n) v.
Proof.
  intros t n f1 f2 c rest want fb errno W Hc HX EF La N R HF CT NC NJ. pose proof W as (W1 & W2 & _).
  set (a := sign_text (n_sign n) ++ dchars (n_int n) ++ code "." :: dchars f1) in *.
  assert (La' : zlen a = 2050) by (unfold zlen; lia).
  assert (Ea : mantissa_text n = a ++ dchars f2).
  { rewrite mant_text. unfold mant, a. rewrite EF, dchars_app, <- !app_assoc. reflexivity. }
  assert (EW : written n = mantissa_text n) by (unfold written, exponent_text; rewrite HX; apply app_nil_r).
  assert (LZ : 2049 < zlen (mantissa_text n)) by (rewrite Ea, zlen_app; pose proof (zlen_nonneg (dchars f2)); lia).
  destruct (krosh_cut t n c rest W LZ (ends_breaks _ Hc)) as (I2 & F2 & r2 & st & E1 & E2 & (q & Eq) & Hi & Hp & HK & Kz & Kn).
  pose proof (cut_here n c rest _ I2 F2 r2 a _ Ea La' E1 E2) as Em.
  assert (II : I2 = n_int n /\ F2 = Some f1).
  { unfold mant, a in Em. rewrite Eq, dchars_app, <- !app_assoc in Em. apply app_inv_head in Em. apply app_inv_head in Em.
    destruct q as [|x q].
    - rewrite app_nil_r in Eq. cbn [dchars map app] in Em. destruct F2 as [f|]; [|discriminate Em]. injection Em as Em.
      split; [now symmetry|]. f_equal. now apply dchars_inj.
    - exfalso. rewrite Eq in W1. apply Forall_app_2 in W1. inversion_clear W1 as [|? ? Hx _].
      destruct F2 as [f|]; [|discriminate Em]. apply (f_equal (hd 0)) in Em. cbn [dchars map app hd] in Em. change (46 = 48 + x) in Em. unfold digit in Hx. lia. }
  destruct II as [-> ->].
  assert (DF : Forall digit (f1 ++ f2)) by (unfold frac_digits in W2; now rewrite EF in W2).
  pose proof Hi as (P1 & P2 & P3 & P4 & P5 & DI). cbn [odig] in DI.
  apply (dig_inv_frozen t _ _ _ _ _ f2) in DI; [|now apply Forall_app_2 in DF| |exact N].
  2:{ apply Forall_app. split; [exact W1|now apply Forall_app_1 in DF]. }
  set (st' := set_pos (zlen (mantissa_text n)) st).
  assert (Hp' : parsed t n (written n ++ c :: rest) st').
  { unfold parsed. rewrite EW, EF. split; [unfold st'; cbn [set_pos pd_pos]; now rewrite mant_text, EF|].
    split; [exact P2|]. split; [exact P3|]. split; [exact P4|]. split; [exact P5|].
    cbn [odig]. rewrite zlen_app, app_assoc. exact DI. }
  assert (CN : coefficient n <> 0).
  { intros C0. apply N. exists 0, 0. pose proof (pow10_pos (exact_digits t) ltac:(destruct t; cbn; lia)).
    unfold coefficient, frac_digits in C0. rewrite EF, app_assoc, dval_app in C0.
    assert (D1 : Forall digit (n_int n ++ f1)) by (apply Forall_app; split; [exact W1|now apply Forall_app_1 in DF]).
    pose proof (dval_bounds _ D1). pose proof (dval_bounds _ (Forall_app_2 _ _ _ _ DF)). pose proof (pow10_pos (zlen f2) (zlen_nonneg f2)). nia. }
  assert (NZ : dval (pd_digits st) <> 0).
  { destruct (scan_value _ _ _ _ _ _ Hp') as (tt & Q & _ & _ & _ & _ & T5). intros Z0. apply CN.
    unfold coefficient. rewrite frac_odig. now apply T5. }
  destruct (Kn NZ) as (f & e & M1 & M2 & M3 & KR).
  destruct (long_core t n c rest st' 2049 W Hc CN Hp') as (v & V1 & V2); try assumption.
  { intros w Hw _. unfold st' in Hw. cbn [set_pos pd_digits pd_frac] in Hw. rewrite M1 in Hw. injection Hw as <-.
    rewrite EW, KR. unfold power_of, exponent_value. rewrite HX, Z.add_0_r. reflexivity. }
  exists v. split; [exact (atof_fast t _ want fb errno _ _ _ V1 ltac:(discriminate))|exact V2].
Qed.
