(** The decimal syntax is unambiguous: a text is the writing of at most one numeral. *)
From Coq Require Import String Ascii Reals List Lia.
From Verif Require Import Machine MachineFacts Spec DvalFacts.
Open Scope Z_scope.

Definition starts_digit (r : list Z) : Prop := match r with c :: _ => 48 <= c <= 57 | [] => False end.

Lemma dchars_cancel : forall a b r1 r2, Forall digit a -> Forall digit b ->
  ~ starts_digit r1 -> ~ starts_digit r2 -> dchars a ++ r1 = dchars b ++ r2 -> a = b /\ r1 = r2.
Proof.
  induction a as [|x a IH]; intros [|y b] r1 r2 Ha Hb N1 N2 E; cbn [dchars map app] in E.
  - split; [reflexivity|assumption].
  - exfalso. apply N1. rewrite E. inversion_clear Hb as [|? ? D _]. unfold digit in D. change (code "0") with 48. cbn [starts_digit]. lia.
  - exfalso. apply N2. rewrite <- E. inversion_clear Ha as [|? ? D _]. unfold digit in D. change (code "0") with 48. cbn [starts_digit]. lia.
  - pose proof (f_equal (hd 0) E) as E1. apply (f_equal (@tl Z)) in E. rename E into E2. cbn [hd tl] in E1, E2. inversion_clear Ha as [|? ? D Ha']. inversion_clear Hb as [|? ? D2 Hb'].
    destruct (IH b r1 r2 Ha' Hb' N1 N2 E2) as [-> ->].
    split; [|reflexivity]. f_equal. lia.
Qed.

(** a mantissa starts with a digit or a point *)
Lemma sign_cancel : forall s1 s2 x1 x2,
  (forall r, x1 <> 43 :: r) -> (forall r, x1 <> 45 :: r) -> (forall r, x2 <> 43 :: r) -> (forall r, x2 <> 45 :: r) ->
  sign_text s1 ++ x1 = sign_text s2 ++ x2 -> s1 = s2 /\ x1 = x2.
Proof.
  intros s1 s2 x1 x2 A1 A2 B1 B2 E.
  destruct s1, s2; cbn [sign_text app] in E; change (text "+") with [43] in E; change (text "-") with [45] in E; cbn [app] in E;
    try (split; [reflexivity|assumption || congruence]); exfalso;
    first [now apply (A1 _ E)|now apply (A2 _ E)|now apply (B1 _ (eq_sym E))|now apply (B2 _ (eq_sym E))|discriminate E].
Qed.

Lemma digits_not_sign : forall ds r c, Forall digit ds -> c <> 46 -> ~ (48 <= c <= 57) ->
  (forall r', r = c :: r' -> ds <> []) -> forall r', dchars ds ++ r <> c :: r'.
Proof.
  intros ds r c Hd Hc Hc2 Hr r' E. destruct ds as [|d ds]; cbn [dchars map app] in E.
  - now apply (Hr _ E).
  - apply (f_equal (hd 0)) in E. cbn [hd] in E. inversion_clear Hd as [|? ? D _]. unfold digit in D. change (code "0") with 48 in E. lia.
Qed.

Lemma exponent_text_start : forall m, exponent_text m = [] \/ exists r, exponent_text m = 101 :: r \/ exponent_text m = 69 :: r.
Proof.
  intros m. unfold exponent_text. destruct (n_exp m) as [x|]; [right|now left].
  destruct (x_upper x); eexists; [right|left]; reflexivity.
Qed.

Lemma exponent_text_inj : forall m1 m2, well_formed m1 -> well_formed m2 ->
  exponent_text m1 = exponent_text m2 -> n_exp m1 = n_exp m2.
Proof.
  intros m1 m2 (_ & _ & _ & W1) (_ & _ & _ & W2) E. unfold exponent_text in E.
  destruct (n_exp m1) as [[u1 s1 d1]|], (n_exp m2) as [[u2 s2 d2]|]; cbn [x_upper x_sign x_digits] in *.
  - assert (u1 = u2) as -> by (destruct u1, u2; try reflexivity; discriminate E).
    apply app_inv_head in E. destruct W1 as [W1 N1], W2 as [W2 N2].
    destruct (sign_cancel s1 s2 (dchars d1) (dchars d2)) as [-> E2]; try assumption.
    1-4: intros r; rewrite <- (app_nil_r (dchars _)); apply digits_not_sign; (assumption || lia || discriminate).
    f_equal. f_equal. rewrite <- (app_nil_r (dchars d1)), <- (app_nil_r (dchars d2)) in E2.
    apply dchars_cancel in E2; (tauto || assumption).
  - destruct u1; discriminate.
  - destruct u2; discriminate.
  - reflexivity.
Qed.

Theorem written_inj : forall m1 m2, well_formed m1 -> well_formed m2 ->
  written m1 = written m2 -> m1 = m2.
Proof.
  intros m1 m2 W1 W2 E. unfold written, mantissa_text in E.
  rewrite <- !app_assoc in E.
  pose proof W1 as (A1 & A2 & A3 & _). pose proof W2 as (B1 & B2 & B3 & _).
  set (f1 := match n_frac m1 with None => [] | Some ds => text "." ++ dchars ds end) in *.
  set (f2 := match n_frac m2 with None => [] | Some ds => text "." ++ dchars ds end) in *.
  assert (NE : forall m c r, well_formed m -> c <> 46 -> ~ (48 <= c <= 57) ->
      (dchars (n_int m) ++ match n_frac m with None => [] | Some ds => text "." ++ dchars ds end ++ exponent_text m) <> c :: r).
  { intros m c r (C1 & C2 & C3 & _) Hc Hc2. apply digits_not_sign; try assumption.
    intros r' Er Ei. unfold frac_digits in C3. destruct (n_frac m) as [ds|].
    - apply (f_equal (hd 0)) in Er. change (text ".") with [46] in Er. cbn [hd app] in Er. lia.
    - rewrite Ei in C3. now apply C3. }
  apply sign_cancel in E as [Es E]; try (intros r; apply NE; (assumption || lia)).
  assert (ND : forall m, ~ starts_digit (exponent_text m)).
  { intros m. destruct (exponent_text_start m) as [->|(r & [->| ->])]; cbn; lia. }
  assert (ND2 : forall m, ~ starts_digit (match n_frac m with None => [] | Some ds => text "." ++ dchars ds end ++ exponent_text m)).
  { intros m. destruct (n_frac m); [change (text ".") with [46]; cbn [app starts_digit]; lia|apply ND]. }
  apply dchars_cancel in E as [Ei E]; try assumption; try apply ND2.
  assert (Ef : n_frac m1 = n_frac m2 /\ exponent_text m1 = exponent_text m2).
  { unfold frac_digits in A2, B2. unfold f1, f2 in E.
    destruct (n_frac m1) as [d1|], (n_frac m2) as [d2|]; cbn [app] in E.
    - rewrite <- !app_assoc in E. apply app_inv_head in E. apply dchars_cancel in E as [-> ?]; try assumption; try apply ND.
      now split.
    - destruct (exponent_text_start m2) as [X|(r & [X|X])]; rewrite X in E; discriminate E.
    - destruct (exponent_text_start m1) as [X|(r & [X|X])]; rewrite X in E; discriminate E.
    - now split. }
  destruct Ef as [Ef Ee]. apply exponent_text_inj in Ee; try assumption.
  destruct m1, m2; cbn in *; congruence.
Qed.
