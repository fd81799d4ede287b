(** C91: what the global locale can change. *)
From Coq Require Import Reals Lra Lia ZArith List String Ascii.
From Verif Require Import Machine MachineFacts BitOps StaticPow Fraction Format DiyFp KComp Chars Krosh Atof Spec ParseSpec TextSpec ReadSpec Api ParseApi Instances ScanFacts LoopFacts ParseFacts KroshNum
  Locale LocaleProps RoundFacts DvalFacts LocalFacts LocalProps Ends Defined Reading Meaning Refuted.
Import ListNotations.
Open Scope Z_scope.

(** What a locale does with a character in [std::tolower]; nothing is assumed but that NUL stays NUL. *)
Definition locale (lower : Z -> Z) : Prop := lower 0 = 0.

(** The same outcome, except for where the end is reported to be. *)
Definition same_but_end (x y : res atof_result) : Prop :=
  match x, y with
  | Fault f, Fault g => f = g
  | Ok a, Ok b => at_value a = at_value b /\ at_status a = at_status b /\ at_errno a = at_errno b /\ at_used_fallback a = at_used_fallback b /\
                  (at_str_end a = None <-> at_str_end b = None)
  | _, _ => False
  end.

(** the text begins with nan or inf, in any capitalisation, with an optional sign *)
Definition begins_word (a : list Z) : Prop := exists n b, split_bare a = (n, b) /\ no_digits n = true /\ fst (word_at b) <> NoWord.

(** ... or it begins with a number that is not zero, has at most 2049 characters and is followed by
    the letter e and such a word *)
Definition word_exponent (a : list Z) : Prop := exists n mk b, split_bare a = (n, mk :: b) /\ coefficient n <> 0 /\
  (List.length (mantissa_text n) <= parser_limit)%nat /\ e_letter mk /\ begins_word b.

Lemma locale_fixed : forall l, locale l -> nul_fixed l.
Proof. intros l H. unfold nul_fixed. rewrite H. unfold ch_a. lia. Qed.

Lemma nul_from_start : forall a rest, nul_from (a ++ 0 :: rest) 0.
Proof. intros a rest. split; [|intros; lia]. exists (zlen a). split; [apply zlen_nonneg|now apply read_app]. Qed.

(** a word seen in the C string is a word of the text *)
Lemma word_seen_text : forall a rest q, nul_from (a ++ 0 :: rest) q -> 0 <= q -> word_seen (a ++ 0 :: rest) q ->
  exists pre x y z post, a = pre ++ x :: y :: z :: post /\ zlen pre = q /\
    ((x = 110 \/ x = 78) /\ (y = 97 \/ y = 65) /\ (z = 110 \/ z = 78) \/ (x = 105 \/ x = 73) /\ (y = 110 \/ y = 78) /\ (z = 102 \/ z = 70)).
Proof.
  intros a rest q [_ N] Hq (x & y & z & X & Y & Z & C). unfold ch_n, ch_N, ch_a, ch_A, ch_i, ch_I, ch_f, ch_F in C.
  assert (E : read (a ++ 0 :: rest) (zlen a) = Ok 0) by now apply read_app.
  assert (L : q + 2 < zlen a).
  { pose proof (zlen_nonneg a). destruct (Z.lt_ge_cases (zlen a) q) as [B|B]; [exfalso; apply (N (zlen a)); [lia|exact E]|].
    destruct (Z.eq_dec q (zlen a)) as [->|]; [exfalso; rewrite E in X; injection X as <-; lia|].
    destruct (Z.eq_dec (q + 1) (zlen a)) as [e|]; [exfalso; rewrite e, E in Y; injection Y as <-; lia|].
    destruct (Z.eq_dec (q + 2) (zlen a)) as [e|]; [exfalso; rewrite e, E in Z; injection Z as <-; lia|]. lia. }
  rewrite read_app1 in X, Y, Z by lia. destruct (read_split a q x X) as (pre & t1 & -> & P).
  exists pre, x.
  assert (R : forall k, 0 <= k -> read (pre ++ x :: t1) (q + 1 + k) = read t1 k).
  { intros k Hk. replace (pre ++ x :: t1) with ((pre ++ [x]) ++ t1) by (rewrite <- app_assoc; reflexivity).
    rewrite read_app2; rewrite zlen_app, zlen_cons, zlen_nil; [|lia]. f_equal. lia. }
  pose proof (R 0 ltac:(lia)) as R0. pose proof (R 1 ltac:(lia)) as R1. rewrite Z.add_0_r in R0. replace (q + 1 + 1) with (q + 2) in R1 by lia.
  rewrite R0 in Y. rewrite R1 in Z. destruct t1 as [|y' [|z' post]]; [discriminate|discriminate|].
  unfold read in Y, Z. cbn in Y, Z. injection Y as ->. injection Z as ->. exists y, z, post. auto.
Qed.

Lemma starts_word : forall x y z post,
  (x = 110 \/ x = 78) /\ (y = 97 \/ y = 65) /\ (z = 110 \/ z = 78) \/ (x = 105 \/ x = 73) /\ (y = 110 \/ y = 78) /\ (z = 102 \/ z = 70) ->
  fst (word_at (x :: y :: z :: post)) <> NoWord.
Proof.
  intros x y z post H. unfold word_at.
  assert (A : starts (text "nan") (x :: y :: z :: post) = true \/ starts (text "inf") (x :: y :: z :: post) = true).
  { destruct H as [([-> | ->] & [-> | ->] & [-> | ->])|([-> | ->] & [-> | ->] & [-> | ->])]; [left|left|left|left|left|left|left|left|right|right|right|right|right|right|right|right]; reflexivity. }
  destruct (starts (text "nan") (x :: y :: z :: post)); [discriminate|]. destruct A as [A|A]; [discriminate|]. rewrite A.
  destruct (starts (text "infinity") (x :: y :: z :: post)); discriminate.
Qed.

Lemma begins_is_word : forall a rest, begins (a ++ 0 :: rest) -> begins_word a.
Proof.
  intros a rest (q & N & W & Q).
  destruct (word_seen_text a rest q N ltac:(lia) W) as (pre & x & y & z & post & -> & P & C).
  assert (M : forall sg, maximal {| n_sign := sg; n_int := []; n_frac := None; n_exp := None |} x).
  { intros sg. apply word_maximal. change (text "nNiI") with [110; 78; 105; 73]. cbn [In]. lia. }
  assert (B : forall sg, bare {| n_sign := sg; n_int := []; n_frac := None; n_exp := None |}) by (intros sg; repeat split; constructor).
  assert (G : exists sg, pre = sign_text sg).
  { destruct Q as [Q|[Q S]].
    - exists NoSign. destruct pre; [reflexivity|]. rewrite zlen_cons in P. pose proof (zlen_nonneg pre). lia.
    - destruct pre as [|g pre]; [rewrite zlen_nil in P; lia|]. rewrite zlen_cons in P. destruct pre as [|? pre]; [|rewrite zlen_cons in P; pose proof (zlen_nonneg pre); lia].
      destruct S as (c & S1 & S2). cbn in S1. injection S1 as ->. destruct S2 as [-> | ->]; [exists Minus|exists Plus]; reflexivity. }
  destruct G as [sg ->]. exists {| n_sign := sg; n_int := []; n_frac := None; n_exp := None |}, (x :: y :: z :: post).
  split; [|split; [reflexivity|now apply starts_word]].
  pose proof (split_bare_full _ (x :: y :: z :: post) (B sg) (M sg)) as E. unfold mantissa_text in E. cbn [n_sign n_int n_frac dchars map app] in E. rewrite app_nil_r in E. exact E.
Qed.

Lemma has_word_text : forall t a rest, has_word tolower (fmt_of t) (a ++ 0 :: rest) -> begins_word a \/ word_exponent a.
Proof.
  intros t a rest [H|(dp & c & D & S & V & R & C & B)]; [left; now apply begins_is_word with rest|]. rewrite parse_digits_C in D.
  destruct (split_bare a) as [n b] eqn:E. destruct (split_bare_ok a n b E) as (X & Ea & _).
  destruct (reading_digits t a rest n b E) as [(dp' & _ & _ & P1 & P2 & _)|(c' & r & Es & Ec & _ & H & ML)].
  { exfalso. rewrite P1 in D. injection D as <-. contradiction. }
  destruct (scan_any t n c' r X H) as (y & st & e & z & PT & SI & He & Sk & NE & Hp). destruct PT as (PB & PS & PT). rewrite <- Es in Hp, Sk. rewrite Hp in D. injection D as <-.
  cbn [digit_result dp_str_end dp_value dp_special] in *. rewrite Sk in R, B.
  destruct (Z.leb_spec (zlen (mantissa_text n)) 2049) as [L|L].
  - right. assert (EL : e_letter c').
    { cbn in R. injection R as <-. destruct C as [-> | ->]; [now left|now right]. }
    destruct b as [|mk b]; [exfalso; subst c'; cbn in EL; destruct EL as [F|F]; vm_compute in F; discriminate F|]. cbn [hd] in Ec. subst mk.
    exists n, c', b. split; [exact E|]. split.
    + intros Z0. apply V. destruct PT as [[_ PT]|[PT _]]; [|exfalso; unfold zlen, parser_limit in *; lia].
      assert (y = n) as -> by (now apply bare_eq).
      destruct (scan_value _ _ _ _ _ _ SI) as (q & R0 & T1 & T2 & T3 & _ & _). unfold coefficient in Z0. rewrite frac_odig, T2 in Z0.
      pose proof SI as (_ & _ & _ & _ & _ & D1 & _). pose proof (dval_bounds _ D1). pose proof (pow10_pos q T1). destruct (Z.eq_dec (dval (pd_digits st)) 0) as [Z1|Z1]; [exact Z1|]. assert (0 < dval (pd_digits st) * 10 ^ q) by (apply Z.mul_pos_pos; lia). lia.
    + split; [unfold zlen, parser_limit in *; lia|]. split; [exact EL|].
      assert (r = b ++ 0 :: rest) as ->.
      { rewrite Ea, <- app_assoc in Es. apply app_inv_head in Es. cbn [app] in Es. now injection Es as ->. }
      cbn [skipn] in B. now apply begins_is_word with rest.
  - exfalso. destruct (NE L) as [NE1 NE2]. destruct z as [|z0 z]; [congruence|]. cbn in R. injection R as ->. apply NE1. cbn [hd].
    destruct C as [-> | ->]; [now left|now right].
Qed.

(** C91: The value, the status, errno and whether the fallback is called do not depend on the global
    locale, and neither does which undefined behaviour there is, if any. *)
Theorem C91_value_status : forall t l1 l2 a rest want fb errno, locale l1 -> locale l2 ->
  same_but_end (atof_in l1 (fmt_of t) (a ++ 0 :: rest) want fb errno) (atof_in l2 (fmt_of t) (a ++ 0 :: rest) want fb errno).
Proof.
  intros t l1 l2 a rest want fb errno L1 L2.
  assert (R : forall x, same_but_end x x) by (intros [x|f]; cbn; tauto).
  unfold atof_in.
  destruct (krosh_scans l1 l2 (fmt_of t) _ (locale_fixed l1 L1) (locale_fixed l2 L2) (nul_from_start a rest)) as [->|(r & e1 & e2 & -> & -> & E1 & E2 & _)]; [apply R|].
  cbn [bind with_end kr_str_end kr_is_accurate kr_value kr_status].
  destruct (Z.eqb_spec e1 0), (Z.eqb_spec e2 0); try lia. cbn [negb]. destruct (kr_is_accurate r); [|apply R].
  cbn. destruct want; intuition discriminate.
Qed.

(** The end does not depend on it either, unless the text begins with nan or inf, or the number at its
    beginning is followed by the letter e and nan or inf. *)
Theorem C91_no_word : forall t l1 l2 a rest want fb errno, locale l1 -> locale l2 -> ~ begins_word a -> ~ word_exponent a ->
  atof_in l1 (fmt_of t) (a ++ 0 :: rest) want fb errno = atof_in l2 (fmt_of t) (a ++ 0 :: rest) want fb errno.
Proof.
  intros t l1 l2 a rest want fb errno L1 L2 B W.
  assert (G : forall l, locale l -> krosh_in l (fmt_of t) (a ++ 0 :: rest) = krosh_in tolower (fmt_of t) (a ++ 0 :: rest)).
  { intros l L. destruct (krosh_scans tolower l (fmt_of t) _ (locale_fixed tolower eq_refl) (locale_fixed l L) (nul_from_start a rest)) as [->|(r & e1 & e2 & _ & _ & _ & _ & H)]; [reflexivity|].
    exfalso. apply has_word_text in H. tauto. }
  unfold atof_in. now rewrite (G l1 L1), (G l2 L2).
Qed.


Lemma number_no_word : forall a, begins_number a -> ~ begins_word a.
Proof.
  intros a (sg & y & u & -> & Hy) (m & x & E & ND & NW). destruct (split_bare_ok _ _ _ E) as (X & Ea & _).
  pose proof (proj1 (no_digits_text m X) ND) as MT. rewrite MT in Ea.
  assert (Hx : In (hd 0 x) (text "nNiI")).
  { destruct (in_dec Z.eq_dec (hd 0 x) (text "nNiI")) as [H|H]; [exact H|]. exfalso. apply NW. apply word_letters in H. unfold word_at in *.
    destruct (starts (text "nan") x); [|destruct (starts (text "infinity") x); [discriminate|destruct (starts (text "inf") x); [discriminate|destruct (_ || _); reflexivity]]].
    exfalso. cbn [snd] in H. destruct (skipn 3 x) as [|c r]; [discriminate|]. destruct (_ && _); [|discriminate]. pose proof (closing_nonneg r) as CN. lia. }
  change (text "nNiI") with [110; 78; 105; 73] in Hx. cbn [In] in Hx. unfold between in Hy. change (code "0") with 48 in Hy. change (code "9") with 57 in Hy. change (code ".") with 46 in Hy.
  destruct x as [|c x]; [cbn in Hx; lia|]. cbn [hd] in Hx. destruct sg, (n_sign m); cbn in Ea; injection Ea as E1 E2; try (injection E2 as E3 E4); subst; change (code "+") with 43 in *; change (code "-") with 45 in *; lia.
Qed.

(** In particular the properties of numbers proved for the "C" locale hold in every locale. *)
Theorem C91_numbers : forall t l n r rest want fb errno, locale l -> well_formed n -> ends_number (hd 0 r) ->
  atof_in l (fmt_of t) (written n ++ r ++ 0 :: rest) want fb errno = atof (fmt_of t) (written n ++ r ++ 0 :: rest) want fb errno.
Proof.
  intros t l n r rest want fb errno L W H. transitivity (atof_in tolower (fmt_of t) (written n ++ r ++ 0 :: rest) want fb errno); [|apply atof_C]. rewrite app_assoc.
  apply C91_no_word; [exact L|reflexivity| |].
  - unfold written. rewrite <- app_assoc. now apply number_no_word, mantissa_begins.
  - intros (m & mk & b & E & _ & _ & Hm & Hb). revert Hb. 
    set (n0 := {| n_sign := n_sign n; n_int := n_int n; n_frac := n_frac n; n_exp := None |}).
    unfold written in E. rewrite <- app_assoc in E. change (mantissa_text n) with (mantissa_text n0) in E.
    pose proof W as (W1 & W2 & W3 & W4). 
    assert (B0 : bare n0) by (split; [reflexivity|split; [exact W1|exact W2]]).
    assert (NE : mantissa_text n0 <> []).
    { intros C. destruct (mantissa_begins n W []) as (sg & x & u & F & _). change (mantissa_text n) with (mantissa_text n0) in F. rewrite C in F. destruct sg; discriminate. }
    rewrite split_bare_full in E; [injection E as <- E|exact B0|].
    + apply number_no_word. unfold exponent_text in E. destruct (n_exp n) as [p|]; cbn [app] in E.
      * exists (x_sign p). destruct W4 as [Wd Wn]. destruct (x_digits p) as [|d ds]; [congruence|]. inversion_clear Wd. exists (code "0" + d), (dchars ds ++ r).
        split; [|left; now apply between_digit]. destruct (x_upper p); cbn [text list_ascii_of_string map app] in E; injection E as _ <-; now rewrite <- app_assoc.
      * exfalso. subst r. cbn [hd] in H. destruct H as (_ & _ & H1 & H2). destruct Hm; congruence.
    + assert (HH : forall c, ends_number c \/ c = 101 \/ c = 69 -> maximal n0 c).
      { intros c Hc. split; [|split]; [| |intros _; exact NE].
        - unfold nondigit. destruct Hc as [(Hc & _)|Hc]; [change (code "0") with 48 in Hc; change (code "9") with 57 in Hc|]; lia.
        - intros ->. destruct Hc as [(_ & Hc & _)|Hc]; [exfalso; now apply Hc|lia]. }
      apply HH. unfold exponent_text. destruct (n_exp n) as [p|]; [right; destruct (x_upper p); [right|left]; reflexivity|left; exact H].
Qed.

(** Two locales that treat the characters of the array alike give the same results, ends included. *)
Lemma payload_agree : forall l1 l2 s, (forall c, In c s -> l1 c = l2 c) -> forall n cp, nan_payload_end_in l1 s n cp = nan_payload_end_in l2 s n cp.
Proof.
  intros l1 l2 s H. induction n as [|n IH]; intros cp; cbn [nan_payload_end_in]; [reflexivity|]. destruct (read s (cp + 1)) as [c|] eqn:R; cbn [bind]; [|reflexivity].
  unfold is_nchar_in. rewrite (H c) by (apply read_spec in R as [_ R]; now apply nth_error_In in R). now rewrite IH.
Qed.

Lemma suffix_agree : forall l1 l2 s, (forall c, In c s -> l1 c = l2 c) -> forall x cp, match_suffix_in l1 s x cp = match_suffix_in l2 s x cp.
Proof.
  intros l1 l2 s H. induction x as [|x t IH]; intros cp; cbn [match_suffix_in]; [reflexivity|]. destruct (read s cp) as [c|] eqn:R; cbn [bind]; [|reflexivity].
  rewrite (H c) by (apply read_spec in R as [_ R]; now apply nth_error_In in R). now rewrite IH.
Qed.

Lemma digits_agree : forall l1 l2 T s, (forall c, In c s -> l1 c = l2 c) -> parse_digits_in l1 T s = parse_digits_in l2 T s.
Proof.
  intros l1 l2 T s H. unfold parse_digits_in. generalize (decimal_q T) as k. set (st := pstate_init). clearbody st. set (fuel := parse_fuel). clearbody fuel.
  intros k. assert (E : parse_loop_in l1 k s fuel st = parse_loop_in l2 k s fuel st); [|now rewrite E].
  revert st. induction fuel as [|n IH]; intros st; cbn [parse_loop_in]; [reflexivity|]. destruct (read s (pd_pos st)) as [c|]; cbn [bind]; [|reflexivity].
  assert (E : step_char_in l1 k s st c = step_char_in l2 k s st c).
  { unfold step_char_in, eat_nan_in, eat_inf_in. now rewrite (payload_agree l1 l2 s H), (suffix_agree l1 l2 s H). }
  rewrite E. destruct (step_char_in l2 k s st c) as [[st1 go]|]; cbn [bind]; [|reflexivity]. now rewrite IH.
Qed.

Lemma in_skipn : forall (s : list Z) n c, In c (skipn n s) -> In c s.
Proof. intros s n c H. rewrite <- (firstn_skipn n s). apply in_or_app. now right. Qed.

Theorem C91_same_letters : forall t l1 l2 s want fb errno, (forall c, In c s -> l1 c = l2 c) ->
  atof_in l1 (fmt_of t) s want fb errno = atof_in l2 (fmt_of t) s want fb errno.
Proof.
  intros t l1 l2 s want fb errno H.
  assert (K : krosh_in l1 (fmt_of t) s = krosh_in l2 (fmt_of t) s).
  { unfold krosh_in, parse_mantissa_in. rewrite (digits_agree l1 l2 _ s H).
    destruct (parse_digits_in l2 (fmt_of t) s) as [dp|]; cbn [bind]; [|reflexivity]. destruct (mantissa_result (fmt_of t) dp) as [mp|]; cbn [bind]; [|reflexivity].
    destruct (mp_special mp); [|reflexivity|reflexivity]. destruct (negb _); [|reflexivity].
    assert (E : parse_exponent_in l1 (skipn (Z.to_nat (mp_str_end mp)) s) = parse_exponent_in l2 (skipn (Z.to_nat (mp_str_end mp)) s)); [|now rewrite E].
    unfold parse_exponent_in. destruct (read _ 0) as [c|]; cbn [bind]; [|reflexivity]. destruct (_ && _)%bool; [reflexivity|].
    rewrite (digits_agree l1 l2); [reflexivity|]. intros d D. apply H. apply in_skipn in D. now apply in_skipn in D. }
  unfold atof_in. now rewrite K.
Qed.

(** A Turkish locale (as a single-byte encoding or wchar_t has it): the small letter of I is a dotless i. *)
Definition turkish (c : Z) : Z := if c =? 73 then 305 else if c =? 304 then 105 else tolower c.

Ltac run_in := intros; unfold atof_in; match goal with |- context [krosh_in ?l ?T ?s] => let r := eval vm_compute in (krosh_in l T s) in
    replace (krosh_in l T s) with r by (vm_compute; reflexivity) end; reflexivity.

(** The end does depend on the locale: in the Turkish one, "INFINITY" is still infinity, but only INF is
    consumed, and the payload of "NAN(BIT)" is none; words in small letters are read alike. *)
Theorem C91_turkish : locale turkish /\
  (forall want fb errno, atof_in turkish (fmt_of Double) (cstr "INFINITY") want fb errno = Ok (answer want errno (infinity_of Double false) success 3)) /\
  (forall want fb errno, atof (fmt_of Double) (cstr "INFINITY") want fb errno = Ok (answer want errno (infinity_of Double false) success 8)) /\
  (forall want fb errno, atof_in turkish (fmt_of Double) (cstr "infinity") want fb errno = Ok (answer want errno (infinity_of Double false) success 8)) /\
  (exists v, (forall want fb errno, atof_in turkish (fmt_of Double) (cstr "NAN(BIT)") want fb errno = Ok (answer want errno v success 3)) /\
             (forall want fb errno, atof (fmt_of Double) (cstr "NAN(BIT)") want fb errno = Ok (answer want errno v success 8))) /\
  (exists v, (forall want fb errno, atof_in turkish (fmt_of Double) (cstr "1eINFINITY") want fb errno = Ok (answer want errno v success 5)) /\
             (forall want fb errno, atof (fmt_of Double) (cstr "1eINFINITY") want fb errno = Ok (answer want errno v success 10))).
Proof.
  split; [reflexivity|]. split; [run_in|]. split; [run|]. split; [run_in|]. split; eexists; (split; [run_in|run]).
Qed.

(** the hypotheses of C91_no_word and C91_numbers are met by ordinary texts *)
Example meets_no_word : ~ begins_word (text "-12.5e-3 INFINITY") /\ ~ word_exponent (text "-12.5e-3 INFINITY").
Proof.
  split.
  - intros (n & b & E & N & _). vm_compute in E. injection E as <- <-. discriminate N.
  - intros (n & mk & b & E & _ & _ & _ & (m & u & E1 & N & _)). vm_compute in E. injection E as <- <- <-. vm_compute in E1. injection E1 as <- <-. discriminate N.
Qed.

Example turkish_numbers : forall rest want fb errno,
  atof_in turkish (fmt_of Float) (text "-12.5e-3" ++ text " I" ++ 0 :: rest) want fb errno = atof (fmt_of Float) (text "-12.5e-3" ++ text " I" ++ 0 :: rest) want fb errno.
Proof.
  intros. apply (C91_numbers Float turkish {| n_sign := Minus; n_int := [1; 2]; n_frac := Some [5]; n_exp := Some {| x_upper := false; x_sign := Minus; x_digits := [3] |} |}); [reflexivity| |].
  - repeat split; repeat constructor; try (unfold digit; lia); discriminate.
  - vm_compute. intuition congruence.
Qed.
