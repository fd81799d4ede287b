(** C108: numbers of JSON documents. *)
From Coq Require Import ZArith Bool List String Ascii Reals Lia.
From Flocq Require Import Core.
From Verif Require Import Machine MachineFacts Format DiyFp Ftoa Krosh Atof Spec ParseSpec Instances Api DvalFacts PrettifyFacts ShownFacts FtoaFacts WrittenFacts PrintProps JsonSpec ParseApi ParseProps Truncate.
Import ListNotations.
Open Scope Z_scope.

Lemma dchars_between : forall ds, Forall digit ds -> Forall (between "0" "9") (dchars ds).
Proof. intros ds F. unfold dchars. apply Forall_map. revert F. apply Forall_impl. intros a H. unfold digit in H. unfold between. change (code "0") with 48. change (code "9") with 57. lia. Qed.
Lemma dchars_json : forall ds, Forall digit ds -> ds <> [] -> json_digits (dchars ds).
Proof. intros ds F N. split; [destruct ds; [congruence|discriminate]|now apply dchars_between]. Qed.
Lemma between_dchars : forall cs, Forall (between "0" "9") cs -> exists ds, cs = dchars ds /\ Forall digit ds.
Proof.
  induction 1 as [|c cs H F (ds & -> & D)]; [exists []; auto|]. exists (c - 48 :: ds). unfold between in H. change (code "0") with 48 in H. change (code "9") with 57 in H. split.
  - cbn [dchars map]. change (code "0") with 48. f_equal. lia.
  - constructor; [unfold digit; lia|exact D].
Qed.

(** C108: every finite number is printed as a JSON number *)
Theorem C108_printed : forall t v, finite t v -> exists s, prints t v s /\ json_number s.
Proof.
  intros t v F. destruct (classify t v (proj1 F)) as [C|[C|[C|C]]].
  - destruct C as (_ & C & _), F as [_ F]. contradiction.
  - destruct C as (_ & C & _), F as [_ F]. contradiction.
  - exists (text "0"). split; [now apply ftoa_zero|]. exists (text "0"), []. split; [reflexivity|]. exists [], (text "0"), []. repeat split; constructor.
  - destruct (C04_grammar t v C) as (m & P & W & S1 & S2 & S3 & S4). exists (written m). split; [exact P|].
    destruct (C09_no_redundant_digits t v m C W P) as (L & _ & _).
    exists (mantissa_text m), (exponent_text m). split; [reflexivity|]. exists (sign_text (n_sign m)), (dchars (n_int m)), (match n_frac m with None => [] | Some ds => text "." ++ dchars ds end).
    destruct W as (W1 & W2 & W3 & W4). split; [reflexivity|]. split; [destruct (n_sign m); [constructor|congruence|constructor]|]. split; [|split].
    + destruct L as [L|L]; [rewrite L; constructor|]. destruct (n_int m) as [|d ds]; [congruence|]. inversion W1 as [|? ? D1 D2]; subst. cbn [dchars map]. constructor; [|now apply dchars_between].
      cbn [hd] in L. unfold digit in D1. unfold between. change (code "0") with 48. change (code "1") with 49. change (code "9") with 57. lia.
    + unfold frac_digits in W2. destruct (n_frac m) as [f|]; [|constructor]. constructor. apply dchars_json; [exact W2|congruence].
    + unfold exponent_text. destruct (n_exp m) as [x|]; [|constructor]. destruct W4 as (W4 & W5), S4 as (S4 & S5 & _). rewrite S4. change (text "e") with [code "e"]. cbn [app].
      constructor; [left; reflexivity| |now apply dchars_json]. destruct (x_sign x); [left|congruence|right; left]; reflexivity.
Qed.

Lemma json_start : forall j, json_number j -> exists c r, j = c :: r /\ (c = code "-" /\ (exists c' r', r = c' :: r' /\ between "0" "9" c') \/ between "0" "9" c).
Proof.
  assert (I : forall i, json_int i -> exists c r, i = c :: r /\ between "0" "9" c).
  { intros i [|c ds H _]; [exists 48, []; split; [reflexivity|cbv; split; discriminate]|]. exists c, ds. split; [reflexivity|]. unfold between in *. change (code "0") with 48. change (code "1") with 49 in H. lia. }
  intros j (m & x & -> & sg & i & f & -> & S & H & _ & _). destruct (I i H) as (c & r & -> & B). destruct S; cbn [app].
  - exists c, ((r ++ f) ++ x). split; [reflexivity|auto].
  - exists (code "-"), (c :: (r ++ f) ++ x). split; [reflexivity|]. left. split; [reflexivity|]. exists c, ((r ++ f) ++ x). auto.
Qed.
(** C108: nan and the infinities are not *)
Theorem C108_special : forall t v, nan t v \/ infinite t v -> exists s, prints t v s /\ ~ json_number s.
Proof.
  assert (Q : forall s, In s [text "nan"; text "inf"; text "-inf"] -> ~ json_number s).
  { intros s I J. destruct (json_start s J) as (c & r & -> & H). destruct I as [I|[I|[I|[]]]]; injection I as <- <-.
    - destruct H as [[H _]|[_ H]]; [discriminate H|revert H; cbv; congruence].
    - destruct H as [[H _]|[_ H]]; [discriminate H|revert H; cbv; congruence].
    - destruct H as [(_ & c' & r' & E & _ & H)|[H _]]; [injection E as <- <-; revert H; cbv; congruence|revert H; cbv; congruence]. }
  intros t v [C|C].
  - exists (text "nan"). split; [now apply ftoa_nan|apply Q; left; reflexivity].
  - pose proof (ftoa_inf t v C) as P. destruct (sign_field t v =? 1); eexists; (split; [exact P|apply Q; cbn; auto]).
Qed.

(** a JSON number is a number of the documented format *)
Theorem C108_documented : forall m x, json_number_parts m x -> exists n, well_formed n /\ mantissa_text n = m /\ exponent_text n = x.
Proof.
  intros m x (sg & i & f & -> & S & I & F & X).
  assert (exists s, sg = sign_text s) as (s & ->) by (destruct S; [exists NoSign|exists Minus]; reflexivity).
  assert (exists ds, i = dchars ds /\ Forall digit ds /\ ds <> []) as (ds & -> & D & N).
  { destruct I as [|c cs B C]; [exists [0]; split; [reflexivity|split; [repeat constructor; discriminate|discriminate]]|].
    destruct (between_dchars (c :: cs)) as (ds & E & D); [constructor; [unfold between in *; change (code "0") with 48; change (code "1") with 49 in B; lia|exact C]|].
    exists ds. split; [exact E|split; [exact D|intros ->; discriminate E]]. }
  assert (exists o, f = match o with None => [] | Some ds => text "." ++ dchars ds end /\ Forall digit (match o with None => [] | Some ds => ds end)) as (o & -> & O).
  { destruct F as [|cs [_ C]]; [exists None; auto|]. destruct (between_dchars cs C) as (fs & -> & Q). exists (Some fs). auto. }
  assert (exists y, x = match y with None => [] | Some x => text (if x_upper x then "E" else "e") ++ sign_text (x_sign x) ++ dchars (x_digits x) end /\
            match y with None => True | Some x => Forall digit (x_digits x) /\ x_digits x <> [] end) as (y & -> & Y).
  { destruct X as [|e sg cs E G [NE C]]; [exists None; auto|]. destruct (between_dchars cs C) as (xs & -> & Q).
    assert (exists u, [e] = text (if u : bool then "E" else "e")) as (u & U) by (destruct E as [<-|[<-|[]]]; [exists false|exists true]; reflexivity).
    assert (exists g, sg = sign_text g) as (g & ->) by (destruct G as [<-|[<-|[<-|[]]]]; [exists NoSign|exists Minus|exists Plus]; reflexivity).
    exists (Some {| x_upper := u; x_sign := g; x_digits := xs |}). cbn [x_upper x_sign x_digits]. rewrite <- U. split; [reflexivity|]. split; [exact Q|intros ->; apply NE; reflexivity]. }
  exists {| n_sign := s; n_int := ds; n_frac := o; n_exp := y |}. split; [|split; [reflexivity|unfold exponent_text; cbn [n_exp]; destruct y; reflexivity]].
  unfold well_formed, frac_digits; cbn [n_int n_frac n_exp]. split; [exact D|]. split; [exact O|]. split; [destruct ds; [congruence|discriminate]|]. exact Y.
Qed.

Lemma json_follow_ends : forall c, json_follow c -> ends_number c.
Proof. intros c H. repeat (destruct H as [<-|H]; [repeat split; cbv; intuition discriminate|]). destruct H. Qed.

Lemma code0 : code "0" = 48. Proof. reflexivity. Qed.
Lemma some_digit : forall ds, Forall digit ds -> (dval ds = 0 <-> ~ Exists (between "1" "9") (dchars ds)).
Proof.
  induction 1 as [|d ds D F IH]; [split; [intros _ X; inversion X|reflexivity]|].
  rewrite dval_cons. pose proof (dval_bounds ds F) as B. cbn [dchars map]. rewrite Exists_cons, code0. unfold digit in D. unfold between at 1. change (code "1") with 49. change (code "9") with 57.
  assert (P : 0 < 10 ^ zlen ds) by (apply Z.pow_pos_nonneg; [lia|apply zlen_nonneg]).
  split.
  - intros E [X|X]; [nia|]. apply IH; [nia|exact X].
  - intros X. destruct (Z.eq_dec d 0) as [->|]; [|exfalso; apply X; left; lia]. rewrite Z.mul_0_l. apply IH. intros Y. apply X. now right.
Qed.
Lemma mantissa_some_digit : forall n, well_formed n -> (coefficient n = 0 <-> ~ Exists (between "1" "9") (mantissa_text n)).
Proof.
  intros n (W1 & W2 & _). unfold coefficient. rewrite some_digit by (apply Forall_app; auto). rewrite dchars_app. unfold mantissa_text. rewrite !Exists_app.
  assert (S : ~ Exists (between "1" "9") (sign_text (n_sign n))).
  { unfold between. change (code "1") with 49. change (code "9") with 57. intros X. destruct (n_sign n); [inversion X| |]; apply Exists_cons in X as [X|X]; [revert X; cbv; tauto|inversion X|revert X; cbv; tauto|inversion X]. }
  assert (E : Exists (between "1" "9") (dchars (frac_digits n)) <-> Exists (between "1" "9") (match n_frac n with None => [] | Some ds => text "." ++ dchars ds end)).
  { unfold frac_digits. destruct (n_frac n); [|reflexivity]. rewrite Exists_app. split; [auto|]. intros [X|X]; [|exact X]. exfalso. apply Exists_cons in X as [X|X]; [revert X; cbv; tauto|inversion X]. }
  rewrite E. tauto.
Qed.

Lemma sign_digits_inj : forall s1 s2 a b, Forall digit a -> Forall digit b -> In s1 [[]; text "-"; text "+"] -> In s2 [[]; text "-"; text "+"] ->
  s1 ++ dchars a = s2 ++ dchars b -> dchars a = dchars b.
Proof.
  intros s1 s2 a b A B I1 I2 E.
  assert (Q : forall c ds r, Forall digit ds -> dchars ds = c :: r -> 48 <= c).
  { intros c ds r F H. destruct ds as [|d ds]; [discriminate|]. pose proof (f_equal (hd 0) H) as E1. cbn [dchars map hd] in E1. rewrite code0 in E1. pose proof (Forall_inv F) as D. unfold digit in D. lia. }
  destruct I1 as [<-|[<-|[<-|[]]]], I2 as [<-|[<-|[<-|[]]]]; cbn [app text map list_ascii_of_string] in E;
    try exact E; try (injection E as E; exact E); try (apply Q in E; [revert E; cbv; congruence|assumption]); try (symmetry in E; apply Q in E; [revert E; cbv; congruence|assumption]); discriminate E.
Qed.
Lemma sign_text_in : forall s, In (sign_text s) [[]; text "-"; text "+"].
Proof. destruct s; cbn; auto. Qed.
Lemma tame_readable : forall D, 0 <= D < 10 ^ 9 -> D = 0 \/ D mod 10000 <> 0 ->
  exists d k, D = d * 10 ^ k /\ 0 <= d < 10 ^ 9 /\ 0 <= k <= 3 /\ (d mod 10 <> 0 \/ d = 0) /\ d * 10 ^ k <= 2000000000.
Proof.
  intros D B M. change (10 ^ 9) with 1000000000 in *.
  assert (T : exists k d, D = d * 10 ^ k /\ 0 <= k <= 3 /\ 0 <= d <= D /\ (d mod 10 <> 0 \/ d = 0)); [|destruct T as (k & d & E & T1 & T2 & T3); exists d, k; split; [exact E|]; split; [lia|]; split; [lia|]; split; [exact T3|lia]].
  destruct M as [->|M]; [exists 0, 0; cbn; lia|].
  destruct (Z.eq_dec (D mod 10) 0) as [M0|M0]; [|exists 0, D; rewrite Z.pow_0_r; split; [lia|split; [lia|split; [lia|now left]]]].
  pose proof (Z.div_mod D 10 ltac:(lia)) as E0. rewrite M0 in E0. set (D1 := D / 10) in *.
  destruct (Z.eq_dec (D1 mod 10) 0) as [M1|M1]; [|exists 1, D1; rewrite Z.pow_1_r; split; [lia|split; [lia|split; [lia|now left]]]].
  pose proof (Z.div_mod D1 10 ltac:(lia)) as E1. rewrite M1 in E1. set (D2 := D1 / 10) in *.
  destruct (Z.eq_dec (D2 mod 10) 0) as [M2|M2]; [|exists 2, D2; change (10 ^ 2) with 100; split; [lia|split; [lia|split; [lia|now left]]]].
  pose proof (Z.div_mod D2 10 ltac:(lia)) as E2. rewrite M2 in E2. set (D3 := D2 / 10) in *.
  exists 3, D3. change (10 ^ 3) with 1000. split; [lia|split; [lia|split; [lia|left]]].
  intros M3. pose proof (Z.div_mod D3 10 ltac:(lia)) as E3. rewrite M3 in E3. apply M. replace D with (D3 / 10 * 10000) by lia. apply Z.mod_mul. lia.
Qed.
Lemma modest_readable : forall n, well_formed n -> modest_exponent (exponent_text n) -> readable_exponent n /\ (List.length (exponent_text n) <= 11)%nat.
Proof.
  intros n (_ & _ & _ & W) M. unfold readable_exponent, exponent_value, exponent_text in *. destruct (n_exp n) as [x|]; [|split; [|cbn; lia]; exists 0, 0; cbn; lia].
  destruct W as [W _]. destruct M as [M|(e & sg & ds & E & S & D & L & M)]; [destruct (x_upper x); discriminate M|].
  assert (E' : sign_text (x_sign x) ++ dchars (x_digits x) = sg ++ dchars ds) by (destruct (x_upper x); injection E as _ E; exact E).
  assert (X : x_digits x = ds).
  { exact (dchars_inj _ _ (sign_digits_inj _ _ _ _ W D (sign_text_in _) S E')). }
  split.
  - replace (Z.abs (signed (x_sign x) (dval (x_digits x)))) with (dval ds).
    + apply tame_readable; [|exact M]. pose proof (dval_bounds ds D) as B. split; [lia|]. apply Z.lt_le_trans with (1 := proj2 B). apply Z.pow_le_mono_r; [lia|]. unfold zlen. lia.
    + rewrite X. pose proof (dval_bounds ds D) as B. unfold signed. destruct (is_minus _); lia.
  - rewrite app_length, E', app_length, dchars_length. assert (List.length sg <= 1)%nat by (destruct S as [<-|[<-|[<-|[]]]]; cbn; lia). destruct (x_upper x); cbn [text map list_ascii_of_string List.length]; lia.
Qed.

(** C108: a JSON number other than zero, of at most 2049 characters in front of its exponent and
    with a modest exponent, wherever it stands in a document, is consumed exactly *)
Theorem C108_read : forall t m x c rest want fb errno, json_number_parts m x -> Exists (between "1" "9") m ->
  (List.length m <= 2049)%nat -> modest_exponent x -> json_follow c ->
  let s := (m ++ x) ++ c :: rest in
  (exists v st, atof (fmt_of t) s want fb errno = Ok (answer want errno v st (Z.of_nat (List.length (m ++ x))))) \/
  atof (fmt_of t) s want fb errno = fallback_answer t s want fb errno.
Proof.
  intros t m x c rest want fb errno J X L M F. destruct (C108_documented m x J) as (n & W & <- & <-). destruct (modest_readable n W M) as [R LX].
  apply (C28_consumed t n c rest want fb errno W); [|exact R| |now apply json_follow_ends].
  - intros C. apply mantissa_some_digit in C; [contradiction|exact W].
  - split; [unfold parser_limit; lia|unfold parser_limit; lia].
Qed.
(** C108: of a zero only the part in front of its exponent is consumed *)
Theorem C108_zero : forall t m x c rest want fb errno, json_number_parts m x -> ~ Exists (between "1" "9") m ->
  (List.length m <= 2049)%nat -> (List.length x <= 2050)%nat -> json_follow c ->
  atof (fmt_of t) ((m ++ x) ++ c :: rest) want fb errno =
    Ok (answer want errno (zero_of t (hd 0 m =? code "-")) success (Z.of_nat (List.length m))).
Proof.
  intros t m x c rest want fb errno J X L LX F. destruct (C108_documented m x J) as (n & W & <- & <-).
  change ((mantissa_text n ++ exponent_text n) ++ c :: rest) with (written n ++ c :: rest). rewrite (C39_zero_mantissa t n c rest want fb errno W (json_follow_ends c F)); [|split; unfold parser_limit; lia|now apply mantissa_some_digit].
  f_equal. f_equal. f_equal. destruct J as (sg & i & f & E & S & I & _). unfold mantissa_text in E |- *. destruct (n_sign n); cbn [is_minus sign_text app text map list_ascii_of_string hd]; [|reflexivity|reflexivity].
  destruct W as (W1 & _). destruct (n_int n) as [|d ds].
  - cbn [dchars map app] in E |- *. destruct (n_frac n); reflexivity.
  - cbn [dchars map app hd]. inversion W1 as [|? ? D _]; subst. unfold digit in D. symmetry. apply Z.eqb_neq. rewrite code0. change (code "-") with 45. lia.
Qed.
