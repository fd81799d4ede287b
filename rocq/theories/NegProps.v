(** C48: a sign in front of a text. *)
From Coq Require Import Reals Lra Lia ZArith List String Ascii.
From Flocq Require Import Core.
From Verif Require Import Machine MachineFacts BitOps StaticPow Fraction Format DiyFp KComp Chars Krosh Atof Spec ParseSpec ParseApi Instances
  DiyFacts BoundFacts TableFacts GrisuFacts FtoaFacts RoundFacts DownFacts DvalFacts CmpFacts ArithProps ScanFacts LoopFacts ParseFacts GapFacts KroshNum ShortFacts FracFacts LongFacts ParseProps Refuted LocalFacts LocalProps Tokens NegFacts.
Open Scope Z_scope.

(** the text does not begin with a sign *)
Definition unsigned_text (a : list Z) : Prop := forall x u, a = x :: u -> x <> code "+" /\ x <> code "-".

Lemma qnan_pattern : forall t, pattern t (qnan_bits (fmt_of t)) /\ pattern t (inf_bits (fmt_of t)) /\ pattern t 0.
Proof. intros []; repeat split; vm_compute; congruence. Qed.

Lemma krosh_sign : forall t a c r sg, ends_number c -> separator c \/ self_contained a -> unsigned_text a -> zlen a <= 2048 -> sg <> NoSign ->
  (exists f, krosh (fmt_of t) (a ++ c :: r) = Fault f /\ krosh (fmt_of t) (sign_text sg ++ a ++ c :: r) = Fault f) \/
  (exists v v' e st acc, krosh (fmt_of t) (a ++ c :: r) = Ok {| kr_value := v; kr_str_end := e; kr_status := st; kr_is_accurate := acc |} /\
     krosh (fmt_of t) (sign_text sg ++ a ++ c :: r) = Ok {| kr_value := v'; kr_str_end := e + 1; kr_status := st; kr_is_accurate := acc |} /\
     pattern t v /\ 0 <= e <= zlen a /\ (v' = (if is_minus sg then opposite t v else v) \/ v' = v /\ st <> success)).
Proof.
  intros t a c r sg N Cl U Lm Hs. set (s := a ++ c :: r).
  assert (Wd : inert c \/ plain a) by (destruct Cl as [?|[? _]]; [now left|right; now apply begins_plain]).
  assert (Us : forall x, read a 0 = Ok x -> ~ is_sign x).
  { intros x Hx. destruct a as [|z a']; [discriminate|]. cbn in Hx. injection Hx as <-. destruct (U z a' eq_refl) as [U1 U2]. intros [-> | ->]; [now apply U2|now apply U1]. }
  destruct (digits_shift a c r (if is_minus sg then 45 else 43) (negb (is_minus sg)) N Wd t Lm Us) as (dp & D1 & D2 & D3).
  { destruct sg; [congruence|right|left]; split; reflexivity. }
  assert (Es : sign_text sg ++ s = (if is_minus sg then 45 else 43) :: s) by (destruct sg; [congruence| |]; reflexivity).
  rewrite Es. fold s in D1, D3. set (y := if is_minus sg then 45 else 43) in *.
  destruct (parse_digits_same s s a c c r r eq_refl eq_refl (ends_breaks _ N) (ends_breaks _ N)) with (t := t) as (dp' & P1 & _ & Q1 & Q2 & Q3 & Q4 & Q5); [destruct Wd; auto|].
  rewrite D1 in P1. injection P1 as <-.
  rewrite !krosh_by_parts, D1, D3. cbn [bind dp_special dp_value dp_sign dp_str_end dp_frac dp_K]. rewrite D2.
  assert (V : forall v, pattern t v -> apply_sign (fmt_of t) (negb (is_minus sg)) v = if is_minus sg then opposite t v else v).
  { intros v Hv. unfold apply_sign. rewrite negb_involutive. destruct (is_minus sg); [now apply neg_bits_opposite|reflexivity]. }
  destruct (qnan_pattern t) as (B1 & B2 & B3).
  destruct (dp_special dp).
  2:{ right. do 5 eexists. split; [reflexivity|]. split; [reflexivity|]. split; [exact B1|]. split; [exact Q1|]. left. now apply V. }
  2:{ right. do 5 eexists. split; [reflexivity|]. split; [reflexivity|]. split; [exact B2|]. split; [exact Q1|]. left. now apply V. }
  destruct (Z.eqb_spec (dp_value dp) 0) as [Z0|Z0].
  { right. do 5 eexists. split; [reflexivity|]. split; [reflexivity|]. split; [exact B3|]. split; [exact Q1|]. left. now apply V. }
  destruct (mantissa_total t (dp_value dp) (dp_frac dp) ltac:(lia) Q3 Q4) as (f & e & M1 & M2 & M3).
  rewrite M1. cbn [bind m_f]. pose proof (width_facts t). pose proof (pow2_pos (width t - 1) ltac:(lia)).
  destruct (Z.eqb_spec f 0); [lia|].
  replace (Z.to_nat (dp_str_end dp + 1)) with (S (Z.to_nat (dp_str_end dp))) by lia. cbn [skipn].
  assert (KE : match parse_exponent (skipn (Z.to_nat (dp_str_end dp)) s) with Ok (v, k) => 0 <= k /\ dp_str_end dp + k <= zlen a | Fault _ => True end).
  { unfold s. rewrite skipn_app_le by assumption. set (a' := skipn (Z.to_nat (dp_str_end dp)) a).
    assert (La : zlen a' = zlen a - dp_str_end dp) by (unfold a', zlen in *; rewrite skipn_length; lia).
    destruct (skipn_suffix a (Z.to_nat (dp_str_end dp))) as (x & Ex). fold a' in Ex.
    destruct (exponent_local a' c c r r N N) as (_ & X2).
    { intros e0 z Ey He. destruct Cl as [?|[_ Cl]]; [left; split; assumption|right]. apply begins_plain. apply (Cl x e0 z); [now rewrite <- Ey|exact He]. }
    destruct X2 as [(v & k & -> & K1 & _)|(ff & -> & _)]; [lia|exact I]. }
  destruct (parse_exponent _) as [[ev k]|ff]; cbn [bind]; [|left; eauto].
  destruct (sint (dp_K dp + ev)) as [K|ff]; cbn [bind]; [|left; eauto].
  right. cbn [negb]. rewrite negb_involutive.
  destruct (scale_signs t (dp_str_end dp + k) K f e M2 M3) as (v & v' & st & acc & F1 & F2 & F3).
  exists v, (if is_minus sg then v' else v), (dp_str_end dp + k), st, acc.
  split; [|split; [|split; [exact F1|split; [lia|]]]].
  - pose proof (F3 false 0) as G. rewrite Z.add_0_r in G. exact G.
  - replace (dp_str_end dp + 1 + k) with (dp_str_end dp + k + 1) by lia. apply F3.
  - destruct (is_minus sg); [exact F2|]. now left.
Qed.

(** C48: putting a minus sign in front of a text negates the value, keeps the status and adds
    one consumed character -- except that an overflow or underflow may keep its sign too;
    whether the fallback decides does not change. *)
Theorem C48_minus : forall t a c r, ends_number c -> separator c \/ self_contained a -> unsigned_text a -> (List.length a <= 2048)%nat ->
  let s := a ++ c :: r in let s' := text "-" ++ s in
  (exists f, forall want fb errno, atof (fmt_of t) s want fb errno = Fault f /\ atof (fmt_of t) s' want fb errno = Fault f) \/
  (forall want fb errno, atof (fmt_of t) s want fb errno = Ok (answer want errno 0 success 0)) \/
  (exists v v' st e, (v' = opposite t v \/ v' = v /\ st <> success) /\ forall want fb errno,
     atof (fmt_of t) s want fb errno = Ok (answer want errno v st e) /\ atof (fmt_of t) s' want fb errno = Ok (answer want errno v' st (e + 1))) \/
  (forall want fb errno, atof (fmt_of t) s want fb errno = fallback_answer t s want fb errno /\
     atof (fmt_of t) s' want fb errno = fallback_answer t s' want fb errno).
Proof.
  intros t a c r N Cl U L s s'. assert (Lm : zlen a <= 2048) by (unfold zlen; lia).
  destruct (krosh_sign t a c r Minus N Cl U Lm ltac:(discriminate)) as [(f & E1 & E2)|(v & v' & e & st & acc & E1 & E2 & _ & B & V)];
    fold s in E1, E2; change (sign_text Minus ++ s) with s' in E2.
  - left. exists f. intros. unfold atof. rewrite E1, E2. split; reflexivity.
  - right. destruct (Z.eq_dec e 0) as [-> |Ne].
    + left. intros. unfold atof. rewrite E1. reflexivity.
    + right. destruct acc.
      * left. exists v, v', st, e. split; [exact V|]. intros. split; apply atof_fast; auto; lia.
      * right. intros. split; [apply (atof_slow _ _ _ _ _ v e st)|apply (atof_slow _ _ _ _ _ v' (e + 1) st)]; auto; lia.
Qed.

(** a plus sign changes nothing but the number of characters *)
Theorem C48_plus : forall t a c r, ends_number c -> separator c \/ self_contained a -> unsigned_text a -> (List.length a <= 2048)%nat ->
  let s := a ++ c :: r in let s' := text "+" ++ s in
  (exists f, forall want fb errno, atof (fmt_of t) s want fb errno = Fault f /\ atof (fmt_of t) s' want fb errno = Fault f) \/
  (forall want fb errno, atof (fmt_of t) s want fb errno = Ok (answer want errno 0 success 0)) \/
  (exists v st e, forall want fb errno,
     atof (fmt_of t) s want fb errno = Ok (answer want errno v st e) /\ atof (fmt_of t) s' want fb errno = Ok (answer want errno v st (e + 1))) \/
  (forall want fb errno, atof (fmt_of t) s want fb errno = fallback_answer t s want fb errno /\
     atof (fmt_of t) s' want fb errno = fallback_answer t s' want fb errno).
Proof.
  intros t a c r N Cl U L s s'. assert (Lm : zlen a <= 2048) by (unfold zlen; lia).
  destruct (krosh_sign t a c r Plus N Cl U Lm ltac:(discriminate)) as [(f & E1 & E2)|(v & v' & e & st & acc & E1 & E2 & _ & B & V)];
    fold s in E1, E2; change (sign_text Plus ++ s) with s' in E2.
  - left. exists f. intros. unfold atof. rewrite E1, E2. split; reflexivity.
  - assert (v' = v) as -> by (destruct V as [V|[V _]]; exact V).
    right. destruct (Z.eq_dec e 0) as [-> |Ne].
    + left. intros. unfold atof. rewrite E1. reflexivity.
    + right. destruct acc.
      * left. exists v, st, e. intros. split; apply atof_fast; auto; lia.
      * right. intros. split; [apply (atof_slow _ _ _ _ _ v e st)|apply (atof_slow _ _ _ _ _ v (e + 1) st)]; auto; lia.
Qed.

(** for the opposite number text *)
Definition negated (n : numeral) : numeral := {| n_sign := Minus; n_int := n_int n; n_frac := n_frac n; n_exp := n_exp n |}.
Lemma written_negated : forall n, n_sign n = NoSign -> written (negated n) = text "-" ++ written n.
Proof. intros n H. unfold written, mantissa_text, exponent_text, negated. cbn. now rewrite H. Qed.

Theorem C48_number : forall t n c r, well_formed n -> n_sign n = NoSign -> ends_number c -> (List.length (written n) <= 2048)%nat ->
  let s := written n ++ c :: r in let s' := written (negated n) ++ c :: r in
  (exists f, forall want fb errno, atof (fmt_of t) s want fb errno = Fault f /\ atof (fmt_of t) s' want fb errno = Fault f) \/
  (forall want fb errno, atof (fmt_of t) s want fb errno = Ok (answer want errno 0 success 0)) \/
  (exists v v' st e, (v' = opposite t v \/ v' = v /\ st <> success) /\ forall want fb errno,
     atof (fmt_of t) s want fb errno = Ok (answer want errno v st e) /\ atof (fmt_of t) s' want fb errno = Ok (answer want errno v' st (e + 1))) \/
  (forall want fb errno, atof (fmt_of t) s want fb errno = fallback_answer t s want fb errno /\
     atof (fmt_of t) s' want fb errno = fallback_answer t s' want fb errno).
Proof.
  intros t n c r W Hs N L s s'. unfold s'. rewrite written_negated by assumption. rewrite <- app_assoc.
  apply (C48_minus t (written n) c r N); [right; now apply written_self_contained| |assumption].
  intros x u E. destruct (written_self_contained n W) as [(sg & x' & u' & E' & D) _].
  assert (E2 : written n = dchars (n_int n) ++ match n_frac n with None => [] | Some ds => text "." ++ dchars ds end ++ exponent_text n).
  { unfold written, mantissa_text. rewrite Hs. cbn [sign_text app]. now rewrite <- app_assoc. }
  destruct W as (W1 & W2 & W3 & _). unfold frac_digits in *. rewrite E in E2.
  destruct (n_int n) as [|d i].
  - destruct (n_frac n) as [f|]; [|cbn in W3; congruence]. cbn in E2. injection E2 as -> _. split; vm_compute; congruence.
  - inversion_clear W1 as [|? ? Hd _]. unfold digit in Hd. 
    assert (Hx : x = 48 + d) by (apply (f_equal (fun l => hd 0 l)) in E2; exact E2). clear - Hx Hd.
    change (code "+") with 43. change (code "-") with 45. lia.
Qed.

(** with an exponent the parser can read nothing goes wrong, and every character is consumed *)
Theorem C48_readable_number : forall t n c r, well_formed n -> n_sign n = NoSign -> ends_number c -> coefficient n <> 0 ->
  readable_exponent n -> (List.length (written n) <= 2048)%nat ->
  let s := written n ++ c :: r in let s' := written (negated n) ++ c :: r in
  (exists v v' st, (v' = opposite t v \/ v' = v /\ st <> success) /\ forall want fb errno,
     atof (fmt_of t) s want fb errno = Ok (answer want errno v st (len (written n))) /\
     atof (fmt_of t) s' want fb errno = Ok (answer want errno v' st (len (written n) + 1))) \/
  (forall want fb errno, atof (fmt_of t) s want fb errno = fallback_answer t s want fb errno /\
     atof (fmt_of t) s' want fb errno = fallback_answer t s' want fb errno).
Proof.
  intros t n c r W Hs N CN SE L s s'.
  assert (Lm : within_limits n).
  { unfold within_limits, written in *. rewrite app_length in L. change parser_limit with (Z.to_nat 2049). lia. }
  destruct (krosh_consumes t n c r W N Lm SE CN) as (v0 & st0 & acc0 & E0). fold s in E0.
  pose proof (written_nonempty n W) as NE.
  assert (U : unsigned_text (written n)).
  { intros x u E. assert (E2 : written n = dchars (n_int n) ++ match n_frac n with None => [] | Some ds => text "." ++ dchars ds end ++ exponent_text n).
    { unfold written, mantissa_text. rewrite Hs. cbn [sign_text app]. now rewrite <- app_assoc. }
    destruct W as (W1 & W2 & W3 & _). unfold frac_digits in *. rewrite E in E2.
    destruct (n_int n) as [|d i].
    - destruct (n_frac n) as [f|]; [|cbn in W3; congruence]. cbn in E2. injection E2 as -> _. split; vm_compute; congruence.
    - inversion_clear W1 as [|? ? Hd _]. unfold digit in Hd.
      assert (Hx : x = 48 + d) by (apply (f_equal (fun l => hd 0 l)) in E2; exact E2). clear - Hx Hd.
      change (code "+") with 43. change (code "-") with 45. lia. }
  destruct (krosh_sign t (written n) c r Minus N (or_intror (written_self_contained n W)) U ltac:(unfold zlen; lia) ltac:(discriminate))
    as [(f & E1 & E2)|(v & v' & e & st & acc & E1 & E2 & _ & B & V)]; fold s in E1, E2; rewrite E0 in E1; [discriminate|].
  injection E1 as E1a E1b E1c E1d. subst v0 e st0 acc0. cbn [is_minus] in V.
  assert (Es : sign_text Minus ++ s = s') by (unfold s, s'; rewrite written_negated by assumption; rewrite <- app_assoc; reflexivity).
  rewrite Es in E2. unfold len. fold (zlen (written n)).
  destruct acc.
  - left. exists v, v', st. split; [exact V|]. intros. split; apply atof_fast; auto; lia.
  - right. intros. split; [apply (atof_slow _ _ _ _ _ v (zlen (written n)) st)|apply (atof_slow _ _ _ _ _ v' (zlen (written n) + 1) st)]; auto; lia.
Qed.

(** 2.5 and -2.5; and an overflow that keeps its sign *)
Example C48_example : forall want fb errno,
  atof double (cstr "2.5") want fb errno = Ok (answer want errno 4612811918334230528 success 3) /\
  atof double (cstr "-2.5") want fb errno = Ok (answer want errno (opposite Double 4612811918334230528) success 4) /\
  atof double (cstr "1e999") want fb errno = Ok (answer want errno (infinity_of Double false) overflow 5) /\
  atof double (cstr "-1e999") want fb errno = Ok (answer want errno (infinity_of Double false) overflow 6).
Proof. intros. split; [run|]. split; [run|]. split; run. Qed.
