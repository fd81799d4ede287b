(** atof looks at no more than the first 4103 characters of a text, unless there is a "nan(" in it: C88. *)
From Coq Require Import Reals Lra Lia ZArith List String Ascii.
From Flocq Require Import Core.
From Verif Require Import Machine MachineFacts BitOps StaticPow Fraction Format DiyFp KComp Chars Krosh Atof Spec ParseSpec TextSpec ReadSpec Api ParseApi Instances LocalProps Tokens.
Import ListNotations.
Open Scope Z_scope.

(** the two texts read the same below [N] *)
Definition agree (N : Z) (s s' : list Z) : Prop := forall i, i < N -> read s i = read s' i.

(** no parenthesis below [N] *)
Definition no_paren (N : Z) (s : list Z) : Prop := forall i, i < N -> read s i <> Ok ch_lpar.

Lemma bind_ext : forall A B (m : res A) (k k' : A -> res B), (forall a, m = Ok a -> k a = k' a) -> bind m k = bind m k'.
Proof. intros A B m k k' H. destruct m as [a|f]; cbn; [now apply H|reflexivity]. Qed.

Lemma read_skipn : forall s k i, 0 <= i -> read (skipn k s) i = read s (i + Z.of_nat k).
Proof.
  intros s k i Hi. unfold read. destruct (Z.ltb_spec i 0); [lia|]. destruct (Z.ltb_spec (i + Z.of_nat k) 0); [lia|].
  replace (Z.to_nat (i + Z.of_nat k)) with (k + Z.to_nat i)%nat by lia.
  revert s. induction k as [|k IH]; intros s; [reflexivity|]. destruct s as [|c s]; cbn [skipn Nat.add nth_error].
  - now destruct (Z.to_nat i).
  - apply IH; lia.
Qed.

Lemma agree_skipn : forall N s s' k, agree N s s' -> agree (N - Z.of_nat k) (skipn k s) (skipn k s').
Proof.
  intros N s s' k A i Hi. destruct (Z.ltb_spec i 0) as [L|L].
  - unfold read. apply Z.ltb_lt in L. now rewrite L.
  - rewrite !read_skipn by lia. apply A. lia.
Qed.

Lemma no_paren_skipn : forall N s k, no_paren N s -> no_paren (N - Z.of_nat k) (skipn k s).
Proof.
  intros N s k A i Hi. destruct (Z.ltb_spec i 0) as [L|L].
  - unfold read. apply Z.ltb_lt in L. rewrite L. discriminate.
  - rewrite read_skipn by lia. apply A. lia.
Qed.

Lemma agree_le : forall N M s s', M <= N -> agree N s s' -> agree M s s'.
Proof. intros N M s s' L A i Hi. apply A. lia. Qed.

Section Two.
  Variables (N : Z) (s s' : list Z).
  Hypothesis A : agree N s s'.
  Hypothesis NP : no_paren N s.

  Lemma eat_nan_agree : forall p, p + 2 < N -> eat_nan s p = eat_nan s' p.
  Proof.
    intros p Hp. unfold eat_nan. rewrite <- (A p), <- (A (p + 1)), <- (A (p + 2)) by lia.
    destruct (read s p) as [c0|]; cbn [bind]; [|reflexivity]. destruct (_ || _); [|reflexivity].
    destruct (read s (p + 1)) as [c1|]; cbn [bind]; [|reflexivity]. destruct (_ || _); [|reflexivity].
    destruct (read s (p + 2)) as [c2|] eqn:R; cbn [bind]; [|reflexivity].
    destruct (Z.eqb_spec c2 ch_lpar) as [->|]; [|reflexivity]. exfalso. now apply (NP (p + 2)).
  Qed.

  Lemma match_suffix_agree : forall w cp, cp + Z.of_nat (length w) <= N -> match_suffix s w cp = match_suffix s' w cp.
  Proof.
    induction w as [|x w IH]; intros cp H; [reflexivity|]. cbn [length] in H. cbn [match_suffix]. rewrite <- (A cp) by lia.
    apply bind_ext. intros c _. destruct (_ =? _); [|reflexivity]. apply IH. lia.
  Qed.

  Lemma eat_inf_agree : forall p, p + 7 <= N -> eat_inf s p = eat_inf s' p.
  Proof.
    intros p Hp. unfold eat_inf. rewrite <- (A p), <- (A (p + 1)), <- (A (p + 2)) by lia.
    apply bind_ext. intros c0 _. destruct (_ || _); [|reflexivity].
    apply bind_ext. intros c1 _. destruct (_ || _); [|reflexivity].
    apply bind_ext. intros c2 _. destruct (_ || _); [|reflexivity].
    rewrite match_suffix_agree by (cbn [length]; lia). reflexivity.
  Qed.

  Lemma extract_agree : forall k p, p + Z.of_nat k <= N -> extract_loop s p k = extract_loop s' p k.
  Proof.
    induction k as [|k IH]; intros p H; [reflexivity|]. cbn [extract_loop]. rewrite <- (A p) by lia.
    apply bind_ext. intros c _. destruct (_ && _); [|reflexivity]. rewrite IH by lia. reflexivity.
  Qed.

  Lemma step_char_agree : forall kappa st c, pd_pos st <= 2049 -> 2053 <= N -> step_char kappa s st c = step_char kappa s' st c.
  Proof.
    intros kappa st c Hp HN. unfold step_char.
    destruct (c =? ch_0); [reflexivity|]. destruct (_ && _).
    { unfold step_nonzero. destruct (_ <? _); [reflexivity|]. destruct (negb _); [|reflexivity].
      unfold extract_fraction_digits. rewrite extract_agree; [reflexivity|].
      assert (0 <= wrap 64 (len_z (pd_digits (flush_zeros kappa st)) + pd_zeros (flush_zeros kappa st) - Z.of_nat kappa)) by (apply Z.mod_pos_bound; reflexivity).
      assert (pd_pos (flush_zeros kappa st) = pd_pos st) by (unfold flush_zeros; destruct (_ && _); reflexivity).
      change (Z.of_nat fraction_decimal_digits) with 4. lia. }
    destruct (c =? ch_dot); [reflexivity|].
    destruct (_ || _).
    { destruct (Z.eqb_spec (pd_pos st) (b2z (pd_sign_set st))) as [E|]; [|reflexivity]. rewrite eat_nan_agree; [reflexivity|].
      destruct (pd_sign_set st); cbn [b2z] in E; lia. }
    destruct (_ || _).
    { destruct (Z.eqb_spec (pd_pos st) (b2z (pd_sign_set st))) as [E|]; [|reflexivity]. rewrite eat_inf_agree; [reflexivity|].
      destruct (pd_sign_set st); cbn [b2z] in E; lia. }
    reflexivity.
  Qed.

  Lemma parse_loop_agree : forall kappa fuel st, pd_pos st <= 2049 -> 2053 <= N -> parse_loop kappa s fuel st = parse_loop kappa s' fuel st.
  Proof.
    induction fuel as [|n IH]; intros st Hp HN; [reflexivity|]. cbn [parse_loop]. rewrite <- (A (pd_pos st)) by lia.
    apply bind_ext. intros c _. rewrite <- step_char_agree by assumption. apply bind_ext. intros [st1 go] _.
    destruct (Z.ltb_spec maximum_offset (pd_pos st1)) as [L|L]; [rewrite orb_true_r; reflexivity|].
    destruct (go || false); [reflexivity|]. apply IH; [|assumption]. unfold maximum_offset in L. cbn [set_pos pd_pos]. lia.
  Qed.

  Lemma parse_digits_agree : forall T, 2053 <= N -> parse_digits T s = parse_digits T s'.
  Proof. intros T HN. unfold parse_digits. rewrite parse_loop_agree; [reflexivity| |assumption]. cbn. lia. Qed.
End Two.

(** how far the scanner gets *)
Lemma step_char_pos : forall kappa s st c st1 go, step_char kappa s st c = Ok (st1, go) ->
  (pd_special st1 = sp_no -> pd_pos st1 <= Z.max (pd_pos st) 2) /\ (go = false -> pd_special st1 = pd_special st).
Proof.
  intros kappa s st c st1 go E. unfold step_char in E.
  destruct (c =? ch_0). { injection E as <- <-. unfold step_zero. destruct (_ || _); cbn; split; auto; lia. }
  destruct (_ && _).
  { unfold step_nonzero in E. assert (P : pd_pos (flush_zeros kappa st) = pd_pos st /\ pd_special (flush_zeros kappa st) = pd_special st) by (unfold flush_zeros; destruct (_ && _); split; reflexivity).
    destruct P as [P Q].
    destruct (_ <? _); cbn [bind] in E; [injection E as <- <-; cbn; split; auto; lia|].
    destruct (if negb _ then _ else _) as [fr|] in E; [|discriminate]. cbn [bind] in E. injection E as <- <-. cbn. split; auto. lia. }
  destruct (c =? ch_dot). { injection E as <- <-. cbn. split; auto. lia. }
  destruct (_ || _).
  { destruct (Z.eqb_spec (pd_pos st) (b2z (pd_sign_set st))) as [e|e]; [|injection E as <- <-; split; auto; lia].
    destruct (eat_nan s _) as [n|]; [|discriminate]. cbn [bind] in E.
    assert (b2z (pd_sign_set st) <= 1) by (destruct (pd_sign_set st); cbn; lia).
    destruct (Z.eqb_spec n 0) as [e0|e0]; cbn [negb] in E; injection E as <- <-; cbn [set_special set_pos pd_pos pd_special] in *; (split; [|discriminate]); [lia|discriminate]. }
  destruct (_ || _).
  { destruct (Z.eqb_spec (pd_pos st) (b2z (pd_sign_set st))) as [e|e]; [|injection E as <- <-; split; auto; lia].
    destruct (eat_inf s _) as [n|]; [|discriminate]. cbn [bind] in E.
    assert (b2z (pd_sign_set st) <= 1) by (destruct (pd_sign_set st); cbn; lia).
    destruct (Z.eqb_spec n 0) as [e0|e0]; cbn [negb] in E; injection E as <- <-; cbn [set_special set_pos pd_pos pd_special] in *; (split; [|discriminate]); [lia|discriminate]. }
  destruct (_ || _). { destruct (_ =? 0); injection E as <- <-; cbn; (split; [lia|auto]). }
  injection E as <- <-. split; [lia|discriminate].
Qed.

Lemma parse_loop_pos : forall kappa s fuel st st2, parse_loop kappa s fuel st = Ok st2 -> pd_special st = sp_no -> pd_special st2 = sp_no ->
  pd_pos st <= 2049 -> pd_pos st2 <= 2050.
Proof.
  induction fuel as [|n IH]; intros st st2 E S0 S2 Hp; [discriminate|]. cbn [parse_loop] in E.
  destruct (read s (pd_pos st)) as [c|]; [|discriminate]. cbn [bind] in E.
  destruct (step_char kappa s st c) as [[st1 go]|] eqn:SC; [|discriminate]. cbn [bind] in E.
  destruct (step_char_pos _ _ _ _ _ _ SC) as [P Q].
  destruct (Z.ltb_spec maximum_offset (pd_pos st1)) as [L|L].
  - rewrite orb_true_r in E. injection E as <-. cbn [set_pos pd_special pd_pos] in *. specialize (P S2). lia.
  - rewrite orb_false_r in E. destruct go.
    + injection E as <-. cbn [set_pos pd_special pd_pos] in *. specialize (P S2). lia.
    + apply (IH _ _ E); [cbn; rewrite Q by reflexivity; exact S0|exact S2|]. cbn [set_pos pd_pos]. unfold maximum_offset in L. lia.
Qed.

Lemma parse_digits_end : forall T s dp, parse_digits T s = Ok dp -> dp_special dp = sp_no -> dp_str_end dp <= 2049.
Proof.
  intros T s dp E S. unfold parse_digits in E. destruct (parse_loop _ _ _ _) as [st|] eqn:P; [|discriminate]. cbn [bind] in E.
  destruct (weighted_sum _ _ _ _ _) as [v|]; [|discriminate]. cbn [bind] in E. injection E as <-. cbn [dp_special dp_str_end] in *.
  pose proof (parse_loop_pos _ _ _ _ _ P eq_refl S ltac:(cbn; lia)). lia.
Qed.

Lemma parse_exponent_agree : forall s s', agree 2054 s s' -> no_paren 2054 s -> parse_exponent s = parse_exponent s'.
Proof.
  intros s s' A NP. unfold parse_exponent. rewrite <- (A 0) by lia. apply bind_ext. intros c _. destruct (_ && _); [reflexivity|].
  rewrite (parse_digits_agree 2053 (skipn 1 s) (skipn 1 s')); [reflexivity| | |lia].
  - exact (agree_skipn 2054 s s' 1 A).
  - exact (no_paren_skipn 2054 s 1 NP).
Qed.

Lemma krosh_agree : forall T s s', agree 4103 s s' -> no_paren 4103 s -> krosh T s = krosh T s'.
Proof.
  intros T s s' A NP.
  assert (PD : parse_digits T s = parse_digits T s') by (apply (parse_digits_agree 4103); [exact A|exact NP|lia]).
  assert (PM : parse_mantissa T s = parse_mantissa T s') by (unfold parse_mantissa; now rewrite PD).
  unfold krosh. rewrite <- PM. apply bind_ext. intros mp E. destruct (mp_special mp) eqn:S; [|reflexivity|reflexivity].
  destruct (negb _); [|reflexivity].
  assert (K : mp_str_end mp <= 2049).
  { unfold parse_mantissa in E. destruct (parse_digits T s) as [dp|] eqn:D; [|discriminate]. cbn [bind] in E.
    destruct (dp_special dp) eqn:SD.
    - destruct (if negb _ then _ else _) as [v|] in E; [|discriminate]. cbn [bind] in E. injection E as <-. cbn [mp_str_end].
      exact (parse_digits_end _ _ _ D SD).
    - injection E as <-. discriminate S.
    - injection E as <-. discriminate S. }
  rewrite (parse_exponent_agree (skipn (Z.to_nat (mp_str_end mp)) s) (skipn (Z.to_nat (mp_str_end mp)) s')); [reflexivity| |].
  - intros i Hi. apply (agree_skipn 4103 s s' (Z.to_nat (mp_str_end mp)) A). lia.
  - intros i Hi. apply (no_paren_skipn 4103 s (Z.to_nat (mp_str_end mp)) NP). lia.
Qed.

(** without parentheses words are short, too *)
Lemma eat_nan_short : forall s p e, (forall i, i < 2053 -> read s i <> Ok ch_lpar) -> p + 2 < 2053 -> eat_nan s p = Ok e -> 0 <= e <= 2.
Proof.
  intros s p e NP Hp E. unfold eat_nan in E.
  destruct (read s p) as [c0|]; [|discriminate]. cbn [bind] in E. destruct (_ || _); [|injection E as <-; lia].
  destruct (read s (p + 1)) as [c1|]; [|discriminate]. cbn [bind] in E. destruct (_ || _); [|injection E as <-; lia].
  destruct (read s (p + 2)) as [c2|] eqn:R; [|discriminate]. cbn [bind] in E.
  destruct (Z.eqb_spec c2 ch_lpar) as [->|]; [exfalso; now apply (NP (p + 2))|]. injection E as <-. lia.
Qed.

Lemma match_suffix_len : forall s w cp r, match_suffix s w cp = Ok (Some r) -> r = cp + Z.of_nat (List.length w).
Proof.
  induction w as [|x w IH]; intros cp r E; cbn [match_suffix] in E; [injection E as <-; cbn; lia|].
  destruct (read s cp) as [c|]; [|discriminate]. cbn [bind] in E. destruct (_ =? _); [|discriminate]. apply IH in E. cbn [List.length]. lia.
Qed.

Lemma eat_inf_short : forall s p e, eat_inf s p = Ok e -> 0 <= e <= 7.
Proof.
  intros s p e E. unfold eat_inf in E.
  destruct (read s p) as [c0|]; [|discriminate]. cbn [bind] in E. destruct (_ || _); [|injection E as <-; lia].
  destruct (read s (p + 1)) as [c1|]; [|discriminate]. cbn [bind] in E. destruct (_ || _); [|injection E as <-; lia].
  destruct (read s (p + 2)) as [c2|]; [|discriminate]. cbn [bind] in E. destruct (_ || _); [|injection E as <-; lia].
  destruct (match_suffix _ _ _) as [[r|]|] eqn:MS; [| |discriminate]; cbn [bind] in E; injection E as <-; [|lia].
  apply match_suffix_len in MS. cbn [List.length] in MS. lia.
Qed.

Lemma step_char_near : forall kappa s st c st1 go, (forall i, i < 2053 -> read s i <> Ok ch_lpar) ->
  step_char kappa s st c = Ok (st1, go) -> pd_pos st1 <= Z.max (pd_pos st) 9.
Proof.
  intros kappa s st c st1 go NP E. unfold step_char in E.
  destruct (c =? ch_0). { injection E as <- <-. unfold step_zero. destruct (_ || _); cbn; lia. }
  destruct (_ && _).
  { unfold step_nonzero in E. assert (P : pd_pos (flush_zeros kappa st) = pd_pos st) by (unfold flush_zeros; destruct (_ && _); reflexivity).
    destruct (_ <? _); cbn [bind] in E; [injection E as <- <-; cbn; lia|].
    destruct (if negb _ then _ else _) as [fr|] in E; [|discriminate]. cbn [bind] in E. injection E as <- <-. cbn. lia. }
  destruct (c =? ch_dot). { injection E as <- <-. cbn. lia. }
  destruct (_ || _).
  { destruct (Z.eqb_spec (pd_pos st) (b2z (pd_sign_set st))) as [e|e]; [|injection E as <- <-; lia].
    assert (b2z (pd_sign_set st) <= 1) by (destruct (pd_sign_set st); cbn; lia).
    destruct (eat_nan s _) as [n|] eqn:EN; [|discriminate]. apply eat_nan_short in EN; [|exact NP|lia]. cbn [bind] in E.
    destruct (Z.eqb_spec n 0) as [e0|e0]; cbn [negb] in E; injection E as <- <-; cbn [set_special set_pos pd_pos] in *; lia. }
  destruct (_ || _).
  { destruct (Z.eqb_spec (pd_pos st) (b2z (pd_sign_set st))) as [e|e]; [|injection E as <- <-; lia].
    assert (b2z (pd_sign_set st) <= 1) by (destruct (pd_sign_set st); cbn; lia).
    destruct (eat_inf s _) as [n|] eqn:EN; [|discriminate]. apply eat_inf_short in EN. cbn [bind] in E.
    destruct (Z.eqb_spec n 0) as [e0|e0]; cbn [negb] in E; injection E as <- <-; cbn [set_special set_pos pd_pos] in *; lia. }
  destruct (_ || _). { destruct (_ =? 0); injection E as <- <-; cbn; lia. }
  injection E as <- <-. lia.
Qed.

Lemma parse_digits_near : forall T s dp, (forall i, i < 2053 -> read s i <> Ok ch_lpar) -> parse_digits T s = Ok dp -> dp_str_end dp <= 2049.
Proof.
  intros T s dp NP E. unfold parse_digits in E. destruct (parse_loop _ _ _ _) as [st|] eqn:P; [|discriminate]. cbn [bind] in E.
  destruct (weighted_sum _ _ _ _ _) as [v|]; [|discriminate]. cbn [bind] in E. injection E as <-. cbn [dp_str_end].
  enough (pd_pos st <= 2050) by lia. assert (I : pd_pos pstate_init <= 2049) by (cbn; lia). revert P I. generalize parse_fuel, pstate_init, (decimal_q T).
  clear - NP. intros fuel st0 kappa. revert st0. induction fuel as [|n IH]; intros st0 E Hp; [discriminate|]. cbn [parse_loop] in E.
  destruct (read s (pd_pos st0)) as [c|]; [|discriminate]. cbn [bind] in E.
  destruct (step_char kappa s st0 c) as [[st1 go]|] eqn:SC; [|discriminate]. cbn [bind] in E.
  pose proof (step_char_near _ _ _ _ _ _ NP SC) as B.
  destruct (Z.ltb_spec maximum_offset (pd_pos st1)) as [L|L].
  - rewrite orb_true_r in E. injection E as <-. cbn [set_pos pd_pos]. lia.
  - rewrite orb_false_r in E. destruct go; [injection E as <-; cbn [set_pos pd_pos]; lia|].
    apply (IH _ E). cbn [set_pos pd_pos]. unfold maximum_offset in L. lia.
Qed.

Lemma krosh_near : forall T s r, no_paren 4103 s -> krosh T s = Ok r -> kr_str_end r <= 4099.
Proof.
  intros T s r NP E. unfold krosh in E.
  destruct (parse_mantissa T s) as [mp|] eqn:PM; [|discriminate]. cbn [bind] in E.
  assert (K : mp_str_end mp <= 2049).
  { unfold parse_mantissa in PM. destruct (parse_digits T s) as [dp|] eqn:D; [|discriminate]. cbn [bind] in PM.
    assert (dp_str_end dp <= 2049) by (apply (parse_digits_near T s); [intros i Hi; apply NP; lia|exact D]).
    destruct (dp_special dp).
    - destruct (if negb _ then _ else _) as [v|] in PM; [|discriminate]. cbn [bind] in PM. now injection PM as <-.
    - now injection PM as <-.
    - now injection PM as <-. }
  destruct (mp_special mp); [|injection E as <-; cbn [kr_str_end]; lia|injection E as <-; cbn [kr_str_end]; lia].
  destruct (negb (m_f (mp_value mp) =? 0)); [|injection E as <-; cbn [kr_str_end]; lia].
  destruct (parse_exponent _) as [[ev eend]|] eqn:PE; [|discriminate]. cbn [bind] in E.
  assert (X : eend <= 2050).
  { unfold parse_exponent in PE. destruct (read _ 0) as [c|]; [|discriminate]. cbn [bind] in PE. destruct (_ && _); [injection PE as _ <-; lia|].
    destruct (parse_digits single _) as [dp|] eqn:D; [|discriminate]. cbn [bind] in PE.
    destruct (seq_pow _ _ _) as [pw|]; [|discriminate]. cbn [bind] in PE.
    destruct (if negb _ then _ else _) as [v|] in PE; [|discriminate]. cbn [bind] in PE. assert (QQ : eend = 1 + dp_str_end dp) by congruence.
    assert (Q : dp_str_end dp <= 2049); [|lia]. apply (parse_digits_near single _ _) in D; [exact D|]. intros i Hi.
    apply (no_paren_skipn (4103 - Z.of_nat (Z.to_nat (mp_str_end mp)))); [apply no_paren_skipn; exact NP|]. lia. }
  destruct (sint _) as [K0|]; [|discriminate]. cbn [bind] in E.
  assert (F : forall w, (w0 <- normalize T w;; v <- downsample T w0;;
      Ok {| kr_value := apply_sign T (mp_sign mp) (ds_value v); kr_str_end := mp_str_end mp + eend; kr_status := ds_status v; kr_is_accurate := ds_is_accurate v |}) = Ok r -> kr_str_end r <= 4099).
  { intros w. destruct (normalize T w) as [w0|]; [|discriminate]. cbn [bind]. destruct (downsample T w0) as [v|]; [|discriminate]. cbn [bind].
    intros H. injection H as <-. cbn [kr_str_end]. lia. }
  destruct (negb (K0 =? 0)); [|exact (F _ E)].
  destruct (_ && _).
  - destruct (cached_power T K0) as [c|]; [|discriminate]. exact (F _ E).
  - destruct (negb _); injection E as <-; cbn [kr_str_end]; lia.
Qed.

(** C88: Nothing behind the first 4103 characters has any influence, and no character behind them
    is looked at -- there need not be a terminator -- unless there is an opening parenthesis among them. *)
Theorem C88_bounded : forall t a r1 r2 want fb errno, 4103 <= len a -> ~ In (code "(") a ->
  fb (a ++ r1) errno = fb (a ++ r2) errno ->
  atof (fmt_of t) (a ++ r1) want fb errno = atof (fmt_of t) (a ++ r2) want fb errno.
Proof.
  intros t a r1 r2 want fb errno L NP HF. unfold atof. rewrite HF.
  rewrite (krosh_agree (fmt_of t) (a ++ r1) (a ++ r2)); [reflexivity| |].
  - intros i Hi. unfold read. destruct (Z.ltb_spec i 0); [reflexivity|]. unfold len in L. rewrite !nth_error_app1 by lia. reflexivity.
  - intros i Hi. unfold read. destruct (Z.ltb_spec i 0); [discriminate|]. unfold len in L. rewrite nth_error_app1 by lia.
    destruct (nth_error a (Z.to_nat i)) as [x|] eqn:E; [|discriminate]. intros X. injection X as ->. apply NP. apply nth_error_In in E. exact E.
Qed.


Lemma paren_free : forall a b, 4103 <= len a -> ~ In (code "(") a -> no_paren 4103 (a ++ b).
Proof.
  intros a b L NP i Hi. unfold read. destruct (Z.ltb_spec i 0); [discriminate|]. unfold len in L. rewrite nth_error_app1 by lia.
  destruct (nth_error a (Z.to_nat i)) as [x|] eqn:E; [|discriminate]. intros X. injection X as ->. apply NP. apply nth_error_In in E. exact E.
Qed.

(** ... in particular without any rest: on 4103 characters without a terminator atof behaves as on
    a terminated text, and consumes at most 4099 characters. *)
Theorem C88_unterminated : forall t a, 4103 <= len a -> ~ In (code "(") a ->
  (exists f, (f = TableOverrun \/ f = SignedOverflow) /\ forall want fb errno, atof (fmt_of t) a want fb errno = Fault f) \/
  (exists v st e, 0 <= e <= 4099 /\ forall want fb errno, atof (fmt_of t) a want fb errno = Ok (answer want errno v st e)) \/
  (forall want fb errno, atof (fmt_of t) a want fb errno = fallback_answer t a want fb errno).
Proof.
  intros t a L NP.
  assert (K : krosh (fmt_of t) a = krosh (fmt_of t) (a ++ [0])).
  { rewrite <- (app_nil_r a) at 1. apply krosh_agree; [|now apply paren_free]. intros i Hi. unfold read. destruct (Z.ltb_spec i 0); [reflexivity|].
    unfold len in L. rewrite !nth_error_app1 by lia. reflexivity. }
  assert (N : forall r, krosh (fmt_of t) (a ++ [0]) = Ok r -> kr_str_end r <= 4099).
  { intros r. apply krosh_near. now apply paren_free. }
  destruct (C27_terminator t a) as [(f & F1 & _ & F2)|[(v & st & e & E1 & E2)|F]].
  - left. exists f. split; [exact F1|]. intros want fb errno.
    pose proof (F2 [] true (fun _ _ => Fault OutOfFuel) 0) as X. unfold atof in X. unfold atof. rewrite K.
    destruct (krosh (fmt_of t) (a ++ [0])) as [r|g] eqn:KR; cbn [bind] in *; [|injection X as ->; reflexivity].
    exfalso. destruct (negb (kr_str_end r =? 0)); [|discriminate]. destruct (kr_is_accurate r); [discriminate|]. injection X as <-. destruct F1; discriminate.
  - right; left. exists v, st, e.
    assert (Q : forall want fb errno, atof (fmt_of t) a want fb errno = Ok (answer want errno v st e)).
    { intros want fb errno. rewrite <- (E2 [] want fb errno).
      pose proof (E2 [] true (fun _ _ => Fault OutOfFuel) 0) as X. unfold atof in X. unfold atof. rewrite K.
      destruct (krosh (fmt_of t) (a ++ [0])) as [r|g] eqn:KR; cbn [bind] in *; [|discriminate].
      destruct (negb (kr_str_end r =? 0)); [|reflexivity]. destruct (kr_is_accurate r); [reflexivity|discriminate]. }
    split; [|exact Q]. split; [lia|].
    pose proof (E2 [] true (fun _ _ => Fault OutOfFuel) 0) as X. unfold atof in X.
    destruct (krosh (fmt_of t) (a ++ [0])) as [r|g] eqn:KR; cbn [bind] in *; [|discriminate]. specialize (N r eq_refl).
    destruct (negb (kr_str_end r =? 0)); [destruct (kr_is_accurate r); [|discriminate]|]; injection X as _ _ X; lia.
  - right; right. intros want fb errno.
    pose proof (F [] true (fun _ _ => Fault OutOfFuel) 0) as X. unfold atof, fallback_answer in X. cbn [bind] in X. unfold atof. rewrite K.
    destruct (krosh (fmt_of t) (a ++ [0])) as [r|g] eqn:KR; cbn [bind] in *.
    + destruct (Z.eqb_spec (kr_str_end r) 0); cbn [negb] in *; [discriminate|]. destruct (kr_is_accurate r); [discriminate|]. reflexivity.
    + injection X as ->. pose proof (F [] true (fun _ _ => Fault IllegalShift) 0) as Y. unfold atof, fallback_answer in Y. rewrite KR in Y. discriminate Y.
Qed.

(** The condition is needed: with "nan(" the end of the text can matter however far away it is. *)
Theorem C88_payload_unbounded : forall t n want fb errno,
  atof (fmt_of t) (text "nan(" ++ repeat (code "7") n ++ text ")" ++ [0]) want fb errno = Ok (answer want errno (nan_of t false) success (Z.of_nat n + 5)) /\
  atof (fmt_of t) (text "nan(" ++ repeat (code "7") n ++ text "-" ++ [0]) want fb errno = Ok (answer want errno (nan_of t false) success 3).
Proof.
  intros t n want fb errno.
  assert (Sp : spells (text "nan") (text "nan")) by (repeat constructor).
  assert (Pl : Forall payload_char (repeat (code "7") n)).
  { apply Forall_forall. intros x Hx. apply repeat_spec in Hx. subst x. vm_compute. intuition congruence. }
  split.
  - etransitivity; [exact (C37_nan_payload t NoSign (text "nan") (repeat (code "7") n) [0] want fb errno Sp Pl)|].
    do 2 f_equal. unfold len. rewrite !app_length, repeat_length. cbn [List.length]. change (List.length (sign_text NoSign)) with 0%nat.
    change (List.length (text "nan")) with 3%nat. change (List.length (text "(")) with 1%nat. change (List.length (text ")")) with 1%nat. lia.
  - etransitivity; [refine (C37_nan_open t NoSign (text "nan") (repeat (code "7") n) (code "-") [0] want fb errno Sp Pl _ _)|reflexivity].
    + vm_compute. intuition congruence.
    + vm_compute. congruence.
Qed.

(** a text of 5000 digits without a terminator *)
Example C88_meets : 4103 <= len (repeat (code "7") 5000) /\ ~ In (code "(") (repeat (code "7") 5000).
Proof.
  split; [vm_compute; congruence|]. intros H. apply repeat_spec in H. vm_compute in H. discriminate H.
Qed.
