(** C99: where atof stops, compared with strtod. *)
From Coq Require Import Reals Lra Lia ZArith Bool List String Ascii.
From Flocq Require Import Core.
From Verif Require Import Machine MachineFacts BitOps StaticPow Fraction Format DiyFp KComp Chars Krosh Atof Spec ParseSpec TextSpec ReadSpec MeanSpec SameSpec ExactSpec WholeSpec ParseApi Instances
  ScanFacts LoopFacts KroshNum LongFacts WrittenFacts ParseFacts Refuted Tokens Truncate Defined Ends Reading Meaning WholeFacts Whole Prefix StdSpec.
Open Scope Z_scope.

Definition without_exponent (m : numeral) : numeral := {| n_sign := n_sign m; n_int := n_int m; n_frac := n_frac m; n_exp := None |}.
Lemma without_bare : forall m, well_formed m -> bare (without_exponent m).
Proof. intros m (W1 & W2 & _). split; [reflexivity|]. split; [exact W1|exact W2]. Qed.
Lemma without_text : forall m, mantissa_text (without_exponent m) = mantissa_text m.
Proof. reflexivity. Qed.

(** ** prefixes *)
Lemma prefix_shorter : forall a n b m y, split_bare a = (n, b) -> bare m -> a = mantissa_text m ++ y ->
  (List.length (mantissa_text m) <= List.length (mantissa_text n))%nat.
Proof.
  intros a n b m y E X Ea. apply (split_longer (mantissa_text m) m y n b); [|rewrite <- Ea; exact E].
  rewrite <- (app_nil_r (mantissa_text m)) at 1. apply split_bare_full; [exact X|apply maximal_zero].
Qed.
Lemma prefix_same : forall (p q y z : list Z), p ++ y = q ++ z -> (List.length p <= List.length q)%nat -> exists l, q = p ++ l.
Proof.
  induction p as [|c p IH]; intros q y z E L; [exists q; reflexivity|]. destruct q as [|d q]; [cbn in L; lia|].
  cbn [app] in E. injection E as -> E. destruct (IH q y z E) as (l & ->); [cbn in L; lia|]. exists l. reflexivity.
Qed.
Lemma prefix_eq : forall (p q y z : list Z), p ++ y = q ++ z -> List.length p = List.length q -> p = q.
Proof.
  intros p q y z E L. destruct (prefix_same p q y z E ltac:(lia)) as (l & ->). rewrite app_length in L. destruct l; [now rewrite app_nil_r|cbn in L; lia].
Qed.

Lemma e_letter_maximal : forall n c, e_letter c -> maximal n c.
Proof.
  intros n c H. unfold e_letter in H. change (code "e") with 101 in H. change (code "E") with 69 in H. split; [unfold nondigit; lia|]. split; lia.
Qed.
Lemma exponent_letter : forall m x, n_exp m = Some x -> exists c, e_letter c /\ exponent_text m = c :: behind_letter x.
Proof.
  intros m x E. unfold exponent_text. rewrite E. unfold behind_letter, e_letter. destruct (x_upper x).
  - exists (code "E"). split; [now right|reflexivity].
  - exists (code "e"). split; [now left|reflexivity].
Qed.
Lemma lower_e : forall c, lower c =? code "e" = true <-> e_letter c.
Proof.
  intros c. unfold lower, e_letter. change (code "A") with 65. change (code "Z") with 90. change (code "a") with 97. change (code "e") with 101. change (code "E") with 69.
  rewrite Z.eqb_eq. destruct (Z.leb_spec 65 c); destruct (Z.leb_spec c 90); cbn [andb]; lia.
Qed.

(** the words *)
Lemma word_letter : forall u, word_form u -> exists c r, u = c :: r /\ In c (text "nNiI").
Proof.
  intros u H.
  assert (P : forall v w, map lower v = 105 :: w \/ map lower v = 110 :: w -> exists c r, v = c :: r /\ In c (text "nNiI")).
  { intros v w Q. destruct v as [|c v]; [destruct Q; discriminate|]. exists c, v. split; [reflexivity|]. cbn [map] in Q.
    assert (L : lower c = 105 \/ lower c = 110) by (destruct Q as [Q|Q]; injection Q as Q _; auto).
    unfold lower in L. change (code "A") with 65 in L. change (code "Z") with 90 in L. change (code "a") with 97 in L. change (text "nNiI") with [110; 78; 105; 73]. cbn [In].
    destruct (Z.leb_spec 65 c); destruct (Z.leb_spec c 90); cbn [andb] in L; lia. }
  destruct H as [H|[H|[H|(v & p & -> & H & _)]]]; [eapply P; left; exact H..|eapply P; right; exact H|].
  destruct (P v (text "an")) as (c & r & -> & I); [right; exact H|]. exists c, (r ++ text "(" ++ p ++ text ")"). split; [reflexivity|exact I].
Qed.

Definition sign_only (sg : signopt) : numeral := {| n_sign := sg; n_int := []; n_frac := None; n_exp := None |}.
Lemma word_split : forall sg u y, word_form u -> split_bare ((sign_text sg ++ u) ++ y) = (sign_only sg, u ++ y).
Proof.
  intros sg u y H. destruct (word_letter u H) as (c & r & -> & I).
  replace ((sign_text sg ++ c :: r) ++ y) with (mantissa_text (sign_only sg) ++ (c :: r) ++ y).
  - apply split_bare_full; [split; [reflexivity|split; constructor]|]. cbn [hd app]. now apply word_maximal.
  - unfold mantissa_text, sign_only. cbn [n_sign n_int n_frac]. rewrite app_nil_r, <- app_assoc. reflexivity.
Qed.

Lemma starts_map : forall w u y, map lower u = w -> starts w (u ++ y) = true.
Proof.
  intros w u. revert w. induction u as [|c u IH]; intros w y <-; [reflexivity|]. cbn [map starts app]. rewrite Z.eqb_refl. apply IH. reflexivity.
Qed.
Lemma starts_take : forall w b, starts w b = true -> map lower (firstn (List.length w) b) = w.
Proof.
  induction w as [|l w IH]; intros b H; [reflexivity|]. destruct b as [|c b]; [discriminate|]. cbn [starts List.length firstn map] in *.
  apply andb_prop in H as [H1 H2]. apply Z.eqb_eq in H1. rewrite H1, IH by assumption. reflexivity.
Qed.
Lemma closing_payload : forall p y, Forall (fun c => is_payload c = true) p -> closing (p ++ code ")" :: y) = zlen p + 1.
Proof.
  induction p as [|c p IH]; intros y H; [reflexivity|]. inversion H as [|? ? H1 H2]; subst. cbn [closing app]. rewrite zlen_cons.
  destruct (Z.eqb_spec c (code ")")) as [-> |]; [discriminate H1|]. rewrite H1, (IH y H2). cbv zeta. pose proof (zlen_nonneg p).
  destruct (Z.eqb_spec (zlen p + 1) 0); lia.
Qed.
Lemma closing_take : forall r, closing r <> 0 -> exists p, firstn (Z.to_nat (closing r)) r = p ++ text ")" /\ Forall (fun c => is_payload c = true) p.
Proof.
  induction r as [|c r IH]; intros H; [cbn in H; lia|]. cbn [closing] in *. destruct (Z.eqb_spec c (code ")")) as [-> |].
  - exists []. split; [reflexivity|constructor].
  - destruct (is_payload c) eqn:P; [|lia]. cbv zeta in *. destruct (Z.eqb_spec (closing r) 0) as [|N]; [lia|].
    destruct (IH N) as (p & E & F). exists (c :: p). pose proof (closing_nonneg r). replace (Z.to_nat (1 + closing r)) with (S (Z.to_nat (closing r))) by lia.
    cbn [firstn app]. rewrite E. split; [reflexivity|now constructor].
Qed.

Lemma starts_front : forall v w b, starts (v ++ w) b = true -> starts v b = true.
Proof.
  induction v as [|l v IH]; intros w b H; [reflexivity|]. destruct b as [|c b]; [discriminate|]. cbn [starts app] in *.
  apply andb_prop in H as [H1 H2]. rewrite H1. cbn [andb]. exact (IH w b H2).
Qed.
(** every such word is seen as one, completely *)
Lemma word_seen : forall u y, word_form u -> zlen u <= snd (word_at (u ++ y)) /\ fst (word_at (u ++ y)) <> NoWord.
Proof.
  intros u y H.
  assert (Q : zlen u <= snd (word_at u) /\ fst (word_at u) <> NoWord).
  { assert (N : forall w, map lower u = 105 :: w -> starts (text "nan") u = false).
    { intros w E. destruct u as [|c r]; [discriminate|]. cbn [map] in E. injection E as E _. change (text "nan") with (110 :: text "an"). cbn [starts]. rewrite E. reflexivity. }
    assert (L : forall v w, map lower v = w -> zlen v = zlen w) by (intros v w <-; unfold zlen; now rewrite map_length).
    destruct H as [H|[H|[H|(v & p & Eu & H & F)]]].
    - pose proof (starts_map _ u [] H) as S. rewrite app_nil_r in S. rewrite (L _ _ H). unfold word_at. rewrite (N _ H), S.
      destruct (starts (text "infinity") u); cbn; split; try lia; discriminate.
    - pose proof (starts_map _ u [] H) as S. rewrite app_nil_r in S. rewrite (L _ _ H). unfold word_at. rewrite (N _ H), S. cbn. split; [lia|discriminate].
    - pose proof (starts_map _ u [] H) as S. rewrite app_nil_r in S. rewrite (L _ _ H). unfold word_at. rewrite S. cbn [fst snd]. split; [|discriminate].
      change (zlen (text "nan")) with 3. destruct (skipn 3 u) as [|c r]; [lia|]. pose proof (closing_nonneg r). destruct (_ && _); lia.
    - assert (L3 : List.length v = 3%nat) by (apply L in H; unfold zlen in H; change (List.length (text "nan")) with 3%nat in H; lia).
      assert (S : starts (text "nan") u = true) by (rewrite Eu; now apply starts_map).
      assert (K : skipn 3 u = code "(" :: p ++ code ")" :: []).
      { rewrite Eu, skipn_app, <- L3, skipn_all, Nat.sub_diag. reflexivity. }
      unfold word_at. rewrite S, K. cbn [fst snd]. split; [|discriminate]. rewrite closing_payload by assumption.
      change (code "(" =? code "(") with true. cbn [andb]. pose proof (zlen_nonneg p). destruct (Z.eqb_spec (zlen p + 1) 0); [lia|]. cbn [negb].
      rewrite Eu. unfold zlen. rewrite !app_length. change (List.length (text "(")) with 1%nat. change (List.length (text ")")) with 1%nat. lia. }
  destruct Q as [Q1 Q2]. split; [pose proof (word_grows u y); lia|].
  unfold word_at in Q2 |- *. destruct (starts (text "nan") u) eqn:S1; [rewrite (starts_app _ _ y S1); discriminate|].
  destruct (starts (text "nan") (u ++ y)); [discriminate|]. destruct (starts (text "infinity") (u ++ y)); [discriminate|].
  destruct (starts (text "inf") (u ++ y)) eqn:S3; [discriminate|].
  destruct (starts (text "infinity") u) eqn:S4.
  { apply (starts_app _ _ y) in S4. exfalso. change (text "infinity") with (text "inf" ++ text "inity") in S4. apply starts_front in S4. congruence. }
  destruct (starts (text "inf") u) eqn:S5; [apply (starts_app _ _ y) in S5; congruence|]. destruct (_ || _) in Q2; contradiction Q2; reflexivity.
Qed.
(** and what is seen as one is such a word *)
Lemma word_is : forall b, fst (word_at b) <> NoWord -> word_form (firstn (Z.to_nat (snd (word_at b))) b).
Proof.
  intros b H. unfold word_at in *. destruct (starts (text "nan") b) eqn:S1.
  { cbn [snd]. pose proof (starts_take _ _ S1) as T. change (List.length (text "nan")) with 3%nat in T. destruct (skipn 3 b) as [|c r] eqn:K; [right; right; left; exact T|].
    destruct (Z.eqb_spec c (code "(")) as [-> |]; cbn [andb]; [|right; right; left; exact T].
    destruct (Z.eqb_spec (closing r) 0) as [|N]; cbn [negb]; [right; right; left; exact T|]. right. right. right.
    destruct (closing_take r N) as (p & E & F). exists (firstn 3 b), p. split; [|split; [exact T|exact F]].
    rewrite <- (firstn_skipn 3 b) at 1. rewrite K. pose proof (closing_nonneg r) as P. replace (Z.to_nat (4 + closing r)) with (3 + S (Z.to_nat (closing r)))%nat by lia.
    assert (L3 : List.length (firstn 3 b) = 3%nat). { rewrite firstn_length. pose proof (starts_len _ _ S1) as L. change (List.length (text "nan")) with 3%nat in L. lia. }
    rewrite <- L3 at 1. rewrite firstn_app_2. cbn [firstn]. rewrite E. reflexivity. }
  destruct (starts (text "infinity") b) eqn:S2; [right; left; exact (starts_take _ _ S2)|].
  destruct (starts (text "inf") b) eqn:S3; [left; exact (starts_take _ _ S3)|]. destruct (_ || _) in H; contradiction H; reflexivity.
Qed.

(** ** the subject *)
Definition has_digit (n : numeral) : Prop := n_int n ++ frac_digits n <> [].
Lemma digit_dec : forall n, has_digit n \/ n_int n ++ frac_digits n = [].
Proof. intros n. unfold has_digit. destruct (n_int n ++ frac_digits n); [now right|left; discriminate]. Qed.

(** without digits there is no number *)
Lemma no_number : forall a n b, split_bare a = (n, b) -> n_int n ++ frac_digits n = [] -> forall m y, well_formed m -> a <> written m ++ y.
Proof.
  intros a n b E N m y W Ea. unfold written in Ea. rewrite <- app_assoc in Ea.
  pose proof (prefix_shorter a n b (without_exponent m) _ E (without_bare m W) Ea) as L. rewrite without_text in L.
  destruct (split_maximal a n b E) as (_ & Ea' & _). rewrite Ea' in Ea.
  destruct (prefix_same _ _ _ _ (eq_sym Ea) L) as (l & El).
  apply app_eq_nil in N as [N1 N2]. assert (F1 : forall c, In c (mantissa_text n) -> ~ 48 <= c <= 57).
  { intros c. unfold mantissa_text. rewrite N1. unfold frac_digits in N2. intros I. apply in_app_or in I as [I|I].
    - destruct (n_sign n); [destruct I|destruct I as [<-|[]]..]; vm_compute; intros [A B]; congruence.
    - cbn [dchars map app] in I. destruct (n_frac n) as [f|]; [|contradiction]. rewrite N2 in I. destruct I as [<-|[]]. vm_compute. intros [A B]. congruence. }
  destruct W as (W1 & W2 & W3 & _).
  assert (exists c, In c (mantissa_text m) /\ 48 <= c <= 57) as (c & I & R).
  { unfold mantissa_text. destruct (n_int m) as [|d l0].
    - unfold frac_digits in *. destruct (n_frac m) as [[|d f]|]; [contradiction W3; reflexivity| |contradiction W3; reflexivity].
      inversion W2; subst. exists (code "0" + d). split; [apply in_or_app; right; cbn; now (right; left)|]. unfold digit in *. change (code "0") with 48. lia.
    - inversion W1; subst. exists (code "0" + d). split; [apply in_or_app; right; now left|]. unfold digit in *. change (code "0") with 48. lia. }
  apply (F1 c); [rewrite El; apply in_or_app; now left|exact R].
Qed.

(** the exponent that can be seen behind a mantissa *)
Definition exponent_seen (b : list Z) : option (exponent_part * list Z) :=
  match b with
  | c :: r => if lower c =? code "e" then
                let (sg, u) := take_sign r in let (ds, b2) := take_digits u in
                match ds with [] => None | _ => Some ({| x_upper := c =? code "E"; x_sign := sg; x_digits := ds |}, b2) end
              else None
  | [] => None
  end.
Definition number_seen (n : numeral) (b : list Z) : numeral :=
  {| n_sign := n_sign n; n_int := n_int n; n_frac := n_frac n; n_exp := match exponent_seen b with Some (x, _) => Some x | None => None end |}.

Lemma exponent_seen_ok : forall b x b2, exponent_seen b = Some (x, b2) ->
  exists c, e_letter c /\ b = c :: behind_letter x ++ b2 /\ text (if x_upper x then "E" else "e") = [c] /\
    Forall digit (x_digits x) /\ x_digits x <> [] /\ nondigit (hd 0 b2).
Proof.
  intros [|c r] x b2 E; [discriminate|]. cbn [exponent_seen] in E. destruct (lower c =? code "e") eqn:L; [|discriminate]. apply lower_e in L.
  destruct (take_sign r) as [sg u] eqn:ES. destruct (take_digits u) as [ds b3] eqn:ED. destruct (take_sign_ok _ _ _ ES) as [-> _]. destruct (take_digits_ok _ _ _ ED) as (-> & D & N).
  destruct ds as [|d ds]; [discriminate|]. injection E as <- <-. exists c. split; [exact L|]. unfold behind_letter. cbn [x_sign x_digits x_upper]. rewrite <- app_assoc. split; [reflexivity|].
  split; [|split; [exact D|split; [discriminate|exact N]]].
  destruct L as [-> | ->]; reflexivity.
Qed.

(** a longer list of digits is taken of a longer text *)
Lemma take_digits_prefix : forall l y, Forall digit l -> exists l' b, take_digits (dchars l ++ y) = (l ++ l', b).
Proof.
  induction l as [|d l IH]; intros y D; [destruct (take_digits y) as [l' b] eqn:E; exists l', b; exact E|]. inversion D as [|? ? D1 D2]; subst.
  destruct (IH y D2) as (l' & b & E). exists l', b. change (dchars (d :: l) ++ y) with (code "0" + d :: dchars l ++ y). cbn [take_digits].
  unfold digit in D1. assert (is_digit (code "0" + d) = true) as -> by (apply is_digit_spec; change (code "0") with 48; lia).
  rewrite E. cbn [app]. do 2 f_equal. lia.
Qed.
Lemma exponent_seen_any : forall c x y, e_letter c -> Forall digit (x_digits x) -> x_digits x <> [] ->
  exists x' b2, exponent_seen (c :: behind_letter x ++ y) = Some (x', b2) /\ (List.length (behind_letter x) <= List.length (behind_letter x'))%nat.
Proof.
  intros c x y L D N. cbn [exponent_seen]. rewrite (proj2 (lower_e c) L). unfold behind_letter. rewrite <- app_assoc. rewrite take_sign_full.
  - destruct (take_digits_prefix (x_digits x) y D) as (l' & b & E). rewrite E. destruct (x_digits x) as [|d ds] eqn:ED; [contradiction|]. cbn [app].
    eexists. exists b. split; [reflexivity|]. cbn [x_sign x_digits]. unfold dchars. rewrite !app_length, !map_length. cbn [List.length]. rewrite app_length. lia.
  - intros _. destruct (x_digits x) as [|d ds]; [contradiction|]. inversion D as [|? ? D1 _]; subst. unfold digit in D1. change (hd 0 (dchars (d :: ds) ++ y)) with (48 + d). change (code "+") with 43. change (code "-") with 45. lia.
Qed.

Lemma number_subject : forall a n b, split_bare a = (n, b) -> has_digit n ->
  let m := number_seen n b in well_formed m /\ subject a (written m) /\
  (exists r, a = written m ++ r /\ b = exponent_text m ++ r).
Proof.
  intros a n b E H m. destruct (split_maximal a n b E) as ((X1 & X2 & X3) & Ea & M).
  assert (W : well_formed m /\ exists r, b = exponent_text m ++ r).
  { unfold m, number_seen. destruct (exponent_seen b) as [[x b2]|] eqn:EX.
    - destruct (exponent_seen_ok b x b2 EX) as (c & C1 & C2 & C3 & C4 & C5 & _). split; [split; [exact X2|split; [exact X3|split; [exact H|split; assumption]]]|].
      exists b2. unfold exponent_text. cbn [n_exp]. rewrite C3. rewrite C2 at 1. reflexivity.
    - split; [split; [exact X2|split; [exact X3|split; [exact H|exact I]]]|]. exists b. reflexivity. }
  destruct W as (W & r & Er). split; [exact W|].
  assert (EM : mantissa_text m = mantissa_text n) by reflexivity.
  assert (Ew : a = written m ++ r) by (unfold written; rewrite EM, <- app_assoc, <- Er; exact Ea).
  split; [|exists r; split; assumption]. split; [left; exists m; auto|]. split; [exists r; exact Ew|].
  intros w' b' F E'. destruct F as [(m' & W' & ->)|(sg & u & F & ->)].
  - unfold written in E'. rewrite <- app_assoc in E'. destruct (n_exp m') as [x'|] eqn:EX'.
    + destruct (exponent_letter m' x' EX') as (c & C1 & C2). rewrite C2 in E'. cbn [app] in E'.
      assert (S : split_bare a = (without_exponent m', c :: behind_letter x' ++ b')).
      { rewrite E'. rewrite <- (without_text m'). apply split_bare_full; [now apply without_bare|now apply e_letter_maximal]. }
      rewrite E in S. injection S as S1 S2. unfold written. rewrite !app_length, EM, C2. rewrite S1, without_text.
      destruct W' as (_ & _ & _ & W'). rewrite EX' in W'. destruct W' as [W1 W2].
      destruct (exponent_seen_any c x' b' C1 W1 W2) as (x2 & b2 & Q1 & Q2). rewrite <- S2 in Q1.
      assert (EXm : n_exp m = Some x2) by (unfold m, number_seen; now rewrite Q1).
      destruct (exponent_letter m x2 EXm) as (c2 & _ & ->). cbn [List.length]. lia.
    + pose proof (prefix_shorter a n b (without_exponent m') _ E (without_bare m' W') E') as L. rewrite without_text in L.
      unfold written, exponent_text at 1. rewrite EX', app_nil_r, app_length, EM. lia.
  - exfalso. pose proof (word_split sg u b' F) as S. rewrite <- E', E in S. injection S as -> _. apply H. reflexivity.
Qed.

Lemma word_subject : forall a n b, split_bare a = (n, b) -> no_digits n = true -> fst (word_at b) <> NoWord ->
  subject a (mantissa_text n ++ firstn (Z.to_nat (snd (word_at b))) b).
Proof.
  intros a n b E N W. destruct (split_maximal a n b E) as (X & Ea & M). pose proof (proj1 (no_digits_text n X) N) as T.
  split; [right; exists (n_sign n), (firstn (Z.to_nat (snd (word_at b))) b); split; [now apply word_is|now rewrite T]|].
  split; [exists (skipn (Z.to_nat (snd (word_at b))) b); now rewrite <- app_assoc, firstn_skipn|].
  intros w' b' F E'. destruct F as [(m' & W' & ->)|(sg & u & F & ->)].
  - exfalso. apply (no_number a n b E) with m' b'; [|assumption..]. unfold no_digits in N. unfold frac_digits. destruct (n_int n); [|discriminate]. destruct (n_frac n); [discriminate|reflexivity].
  - pose proof (word_split sg u b' F) as S. rewrite <- E', E in S. injection S as S1 S2. destruct (word_seen u b' F) as [L _]. rewrite <- S2 in L.
    pose proof (word_len b) as WL. rewrite T, S1. cbn [n_sign sign_only]. rewrite !app_length, firstn_length. unfold zlen in *. lia.
Qed.

Lemma nothing_subject : forall a n b, split_bare a = (n, b) -> n_int n ++ frac_digits n = [] -> (no_digits n = false \/ fst (word_at b) = NoWord) -> no_subject a.
Proof.
  intros a n b E N W w y Ea [(m & Wm & ->)|(sg & u & F & ->)].
  - exact (no_number a n b E N m y Wm Ea).
  - pose proof (word_split sg u y F) as S. rewrite <- Ea, E in S. injection S as -> ->. destruct (word_seen u y F) as [_ Q]. destruct W as [W|W]; [discriminate W|contradiction].
Qed.

(** ** atof *)
Lemma subject_one : forall a w w', subject a w -> subject a w' -> w = w'.
Proof.
  intros a w w' (F & (b & E) & L) (F' & (b' & E') & L'). apply (prefix_eq w w' b b'); [congruence|].
  pose proof (L _ _ F' E'). pose proof (L' _ _ F E). lia.
Qed.
Lemma as_strtod_number : forall a w k, subject a w -> (as_strtod a k <-> k = zlen w).
Proof.
  intros a w k S. split.
  - intros [(w' & S' & ->)|[N _]]; [rewrite (subject_one a w w' S S'); reflexivity|]. destruct S as (F & (b & E) & _). destruct (N w b E F).
  - intros ->. left. exists w. auto.
Qed.

Lemma elsewhere_inv : forall a m, well_formed m -> subject a (written m) -> elsewhere a ->
  (parser_limit < List.length (mantissa_text m))%nat \/
  coefficient m = 0 /\ n_exp m <> None \/
  coefficient m <> 0 /\ n_exp m = None /\ (exists e r, a = written m ++ e :: r /\ e_letter e) \/
  coefficient m <> 0 /\ (exists x r, n_exp m = Some x /\ a = written m ++ code "." :: r /\ (List.length (behind_letter x) < parser_limit)%nat) \/
  coefficient m <> 0 /\ (exists x, n_exp m = Some x /\ (parser_limit < List.length (behind_letter x))%nat).
Proof.
  intros a m W S EL.
  assert (U : forall m', well_formed m' -> subject a (written m') -> m' = m) by (intros m' W' S'; apply written_inj; [assumption..|now apply (subject_one a)]).
  destruct EL as [N _|m' W' S' L|m' W' S' C X|m' e r W' S' C X Ea L|m' x r W' S' C X Ea L|m' x W' S' C X L]; try (rewrite (U m' W' S') in *; clear m' W' S').
  - destruct S as (F & (b & E) & _). destruct (N _ _ E F).
  - now left.
  - right. left. auto.
  - right. right. left. eauto 6.
  - right. right. right. left. eauto 8.
  - right. right. right. right. eauto 6.
Qed.

Lemma no_digits_of : forall n, has_digit n -> no_digits n = false.
Proof. intros n H. destruct (no_digits n) eqn:E; [|reflexivity]. exfalso. apply H. unfold no_digits in E. unfold frac_digits. destruct (n_int n); [|discriminate]. destruct (n_frac n); [discriminate|reflexivity]. Qed.

Lemma exponent_length : forall x b2, Forall digit (x_digits x) -> x_digits x <> [] -> nondigit (hd 0 b2) ->
  let L := zlen (behind_letter x) in
  (hd 0 b2 <> code "." /\ mantissa_length (behind_letter x ++ b2) = Z.min L 2049) \/
  (hd 0 b2 = code "." /\ exists k, L < k /\ mantissa_length (behind_letter x ++ b2) = Z.min k 2049).
Proof.
  intros x b2 D N ND L.
  assert (SG : take_sign (behind_letter x ++ b2) = (x_sign x, dchars (x_digits x) ++ b2)).
  { unfold behind_letter. rewrite <- app_assoc. apply take_sign_full. intros _. destruct (x_digits x) as [|d ds]; [contradiction|].
    inversion D as [|? ? D1 _]; subst. unfold digit in D1. change (hd 0 (dchars (d :: ds) ++ b2)) with (48 + d). lia. }
  assert (TD : take_digits (dchars (x_digits x) ++ b2) = (x_digits x, b2)) by now apply take_digits_full.
  assert (S : split_bare (behind_letter x ++ b2) = match b2 with
     | c :: w => if c =? code "." then let (f, b) := take_digits w in ({| n_sign := x_sign x; n_int := x_digits x; n_frac := Some f; n_exp := None |}, b)
                 else ({| n_sign := x_sign x; n_int := x_digits x; n_frac := None; n_exp := None |}, b2)
     | [] => ({| n_sign := x_sign x; n_int := x_digits x; n_frac := None; n_exp := None |}, []) end).
  { unfold split_bare. rewrite SG, TD. reflexivity. }
  assert (ML : forall F, let n := {| n_sign := x_sign x; n_int := x_digits x; n_frac := F; n_exp := None |} in
     no_digits n = false /\ zlen (mantissa_text n) = L + match F with Some f => 1 + zlen f | None => 0 end).
  { intros F n. split; [unfold no_digits, n; cbn [n_int]; destruct (x_digits x); [contradiction|reflexivity]|].
    unfold n, mantissa_text, L, behind_letter, zlen. cbn [n_sign n_int n_frac]. rewrite !app_length. destruct F as [f|]; [|cbn [List.length]; lia].
    rewrite app_length. unfold dchars. rewrite !map_length. change (List.length (text ".")) with 1%nat. lia. }
  destruct b2 as [|c w].
  - left. split; [discriminate|]. unfold mantissa_length. rewrite S. destruct (ML None) as [M1 M2]. rewrite M1. cbn [andb]. unfold zlen in M2 at 1. rewrite M2. lia.
  - cbn [hd]. destruct (Z.eqb_spec c (code ".")) as [Ec|Ec].
    + right. split; [exact Ec|]. destruct (take_digits w) as [f b] eqn:TW. destruct (ML (Some f)) as [M1 M2]. exists (L + (1 + zlen f)). pose proof (zlen_nonneg f). split; [lia|].
      unfold mantissa_length. rewrite S. rewrite M1. cbn [andb]. unfold zlen in M2 at 1. rewrite M2. lia.
    + left. split; [exact Ec|]. unfold mantissa_length. rewrite S. destruct (ML None) as [M1 M2]. rewrite M1. cbn [andb]. unfold zlen in M2 at 1. rewrite M2. lia.
Qed.

Lemma length_plain : forall a n b, split_bare a = (n, b) -> has_digit n -> mantissa_length a = Z.min (zlen (mantissa_text n)) 2049.
Proof. intros a n b E H. unfold mantissa_length. rewrite E, (no_digits_of n H). reflexivity. Qed.

Lemma written_len : forall m, zlen (written m) = zlen (mantissa_text m) + match n_exp m with Some x => 1 + zlen (behind_letter x) | None => 0 end.
Proof.
  intros m. unfold written. unfold zlen at 1. rewrite app_length. destruct (n_exp m) as [x|] eqn:E.
  - destruct (exponent_letter m x E) as (c & _ & ->). unfold zlen. cbn [List.length]. lia.
  - unfold exponent_text. rewrite E. unfold zlen. cbn [List.length]. lia.
Qed.

Lemma number_stops : forall a n b, split_bare a = (n, b) -> has_digit n -> (as_strtod a (text_length a) <-> ~ elsewhere a).
Proof.
  intros a n b E H. destruct (number_subject a n b E H) as (W & S & r & Er & Eb). set (m := number_seen n b) in *.
  rewrite (as_strtod_number a (written m) _ S). pose proof (elsewhere_inv a m W S) as INV. rewrite written_len.
  change (mantissa_text m) with (mantissa_text n) in *. assert (EC : coefficient m = coefficient n) by reflexivity. rewrite EC in INV.
  pose proof (length_plain a n b E H) as LP. unfold parser_limit in *.
  assert (PL : forall l : list Z, ((List.length l <= Z.to_nat 2049)%nat <-> zlen l <= 2049)) by (intros l; unfold zlen; lia).
  assert (PL2 : forall l : list Z, ((Z.to_nat 2049 < List.length l)%nat <-> 2049 < zlen l)) by (intros l; unfold zlen; lia).
  assert (PL3 : forall l : list Z, ((List.length l < Z.to_nat 2049)%nat <-> zlen l < 2049)) by (intros l; unfold zlen; lia).
  assert (XN : 0 <= match n_exp m with Some x => 1 + zlen (behind_letter x) | None => 0 end) by (destruct (n_exp m); [pose proof (zlen_nonneg (behind_letter e)); lia|lia]).
  assert (TLC : text_length a = match b with mk :: r0 => if (lower mk =? code "e") && negb (coefficient n =? 0) && (List.length (mantissa_text n) <=? Z.to_nat 2049)%nat
      then zlen (mantissa_text n) + 1 + mantissa_length r0 else Z.min (zlen (mantissa_text n)) 2049 | [] => Z.min (zlen (mantissa_text n)) 2049 end).
  { unfold text_length. rewrite E. rewrite LP. reflexivity. }
  destruct (Z.le_gt_cases (zlen (mantissa_text n)) 2049) as [LM|LM].
  2:{ split; [|intros Q; exfalso; apply Q; apply (long_mantissa a m W S); unfold parser_limit; now apply PL2]. intros Q. exfalso.
      assert (BF : (List.length (mantissa_text n) <=? Z.to_nat 2049)%nat = false) by (apply Nat.leb_gt; apply PL2; exact LM).
      rewrite BF in TLC. destruct b as [|mk r0]; [lia|]. rewrite andb_false_r in TLC. lia. }
  assert (BT : (List.length (mantissa_text n) <=? Z.to_nat 2049)%nat = true) by (apply Nat.leb_le, PL; exact LM). rewrite BT in TLC.
  assert (NL : ~ (Z.to_nat 2049 < List.length (mantissa_text n))%nat) by (rewrite PL2; lia).
  destruct (Z.eq_dec (coefficient n) 0) as [C|C].
  { rewrite C in TLC. change (negb (0 =? 0)) with false in TLC.
    assert (TLC' : text_length a = zlen (mantissa_text n)) by (rewrite TLC; destruct b; [lia|rewrite andb_false_r; cbn [andb]; lia]). rewrite TLC'.
    destruct (n_exp m) as [x|] eqn:EX.
    - split; [pose proof (zlen_nonneg (behind_letter x)); lia|]. intros Q. exfalso. apply Q. apply (zero_with_exponent a m W S); [congruence|]. rewrite EX. discriminate.
    - split; [intros _|lia]. intros EL. destruct (INV EL) as [I|[[_ I]|[[I _]|[[I _]|[I _]]]]]; auto; congruence. }
  assert (CT : negb (coefficient n =? 0) = true) by (apply negb_true_iff, Z.eqb_neq; exact C). rewrite CT in TLC.
  destruct (exponent_seen b) as [[x b2]|] eqn:EX.
  - (* an exponent *)
    assert (EXm : n_exp m = Some x) by (unfold m, number_seen; now rewrite EX). rewrite EXm.
    destruct (exponent_seen_ok b x b2 EX) as (c & C1 & C2 & C3 & C4 & C5 & C6). rewrite C2 in TLC. cbv beta iota in TLC. rewrite (proj2 (lower_e c) C1) in TLC. cbn [andb] in TLC.
    assert (Rb : r = b2). { rewrite C2 in Eb. unfold exponent_text in Eb. rewrite EXm, C3 in Eb. fold (behind_letter x) in Eb. cbn [app] in Eb. injection Eb as Eb. now apply app_inv_head in Eb. }
    rewrite TLC. destruct (exponent_length x b2 C4 C5 C6) as [[D1 D2]|(D1 & k & D2 & D3)]; [rewrite D2|rewrite D3].
    + split.
      * intros Q EL. destruct (INV EL) as [I|[[I _]|[[_ [I _]]|[(_ & x' & r' & I1 & I2 & _)|(_ & x' & I1 & I2)]]]]; [contradiction|contradiction|congruence| |].
        -- rewrite Er in I2. apply app_inv_head in I2. rewrite Rb in I2. rewrite I2 in D1. apply D1. reflexivity.
        -- rewrite EXm in I1. injection I1 as <-. apply PL2 in I2. lia.
      * intros Q. destruct (Z.le_gt_cases (zlen (behind_letter x)) 2049) as [|G]; [lia|]. exfalso. apply Q. apply (long_exponent a m x W S); [congruence|exact EXm|unfold parser_limit; now apply PL2].
    + split.
      * intros Q EL. assert (LX : zlen (behind_letter x) = 2049) by lia. destruct (INV EL) as [I|[[I _]|[[_ [I _]]|[(_ & x' & r' & I1 & I2 & I3)|(_ & x' & I1 & I2)]]]]; [contradiction|contradiction|congruence| |].
        -- rewrite EXm in I1. injection I1 as <-. apply PL3 in I3. lia.
        -- rewrite EXm in I1. injection I1 as <-. apply PL2 in I2. lia.
      * intros Q. destruct (Z.lt_trichotomy (zlen (behind_letter x)) 2049) as [G|[G|G]]; [|lia|]; exfalso; apply Q.
        -- destruct b2 as [|c2 w]; [discriminate D1|]. cbn [hd] in D1. subst c2. apply (point_behind a m x w W S); [congruence|exact EXm|rewrite Er, Rb; reflexivity|unfold parser_limit; now apply PL3].
        -- apply (long_exponent a m x W S); [congruence|exact EXm|unfold parser_limit; now apply PL2].
  - (* none *)
    assert (EXm : n_exp m = None) by (unfold m, number_seen; now rewrite EX). rewrite EXm.
    assert (Rb : r = b) by (unfold exponent_text in Eb; rewrite EXm in Eb; now rewrite Eb).
    assert (ALL : (text_length a = zlen (mantissa_text n) /\ ~ (exists e r', b = e :: r' /\ e_letter e)) \/ (zlen (mantissa_text n) < text_length a /\ exists e r', b = e :: r' /\ e_letter e)).
    { destruct b as [|mk r0]; [left; split; [lia|intros (? & ? & Q & _); discriminate Q]|]. cbv beta iota in TLC. rewrite !andb_true_r in TLC. destruct (lower mk =? code "e") eqn:LE.
      - right. pose proof (mantissa_nonneg r0). split; [lia|]. exists mk, r0. split; [reflexivity|now apply lower_e].
      - left. split; [lia|]. intros (e & r' & Q & L). injection Q as <- <-. apply lower_e in L. congruence. }
    destruct ALL as [[A1 A2]|[A1 (e & r' & A2 & A3)]].
    + split; [intros _|lia]. intros EL. destruct (INV EL) as [I|[[I _]|[[_ [_ (e & r' & I1 & I2)]]|[(_ & x' & r' & I1 & _)|(_ & x' & I1 & _)]]]]; [contradiction|contradiction| |congruence|congruence].
      rewrite Er in I1. apply app_inv_head in I1. rewrite Rb in I1. apply A2. eauto.
    + split; [lia|]. intros Q. exfalso. apply Q. apply (dangling a m e r' W S); [congruence|exact EXm| |exact A3]. rewrite Er, Rb, A2. reflexivity.
Qed.

Lemma elsewhere_no_number : forall a, (forall m y, well_formed m -> a <> written m ++ y) -> elsewhere a -> no_subject a /\ In (hd 0 a) (text "+-.nNiI").
Proof.
  intros a N EL. assert (Q : forall m, well_formed m -> ~ subject a (written m)) by (intros m W (_ & (y & E) & _); exact (N m y W E)).
  destruct EL as [X I|m W S _|m W S _ _|m e r W S _ _ _ _|m x r W S _ _ _ _|m x W S _ _ _]; [auto|destruct (Q m W S)..].
Qed.

Lemma letters_in : forall c, In c (text "+-.nNiI") <-> c = 43 \/ c = 45 \/ c = 46 \/ lower c = 110 \/ lower c = 105.
Proof.
  intros c. change (text "+-.nNiI") with [43; 45; 46; 110; 78; 105; 73]. cbn [In]. unfold lower. change (code "A") with 65. change (code "Z") with 90. change (code "a") with 97.
  destruct (Z.leb_spec 65 c); destruct (Z.leb_spec c 90); cbn [andb]; lia.
Qed.

Lemma other_stops : forall a n b, split_bare a = (n, b) -> n_int n ++ frac_digits n = [] -> (as_strtod a (text_length a) <-> ~ elsewhere a).
Proof.
  intros a n b E N. destruct (split_maximal a n b E) as (X & Ea & M). pose proof (no_number a n b E N) as NN.
  assert (C : coefficient n = 0) by (unfold coefficient; rewrite N; reflexivity).
  assert (TL : text_length a = mantissa_length a).
  { unfold text_length. rewrite E, C. destruct b; [reflexivity|]. change (negb (0 =? 0)) with false. rewrite andb_false_r. reflexivity. }
  rewrite TL. unfold mantissa_length. rewrite E. pose proof (word_nonneg b) as W0.
  assert (WN : fst (word_at b) = NoWord -> snd (word_at b) = 0 /\ lower (hd 0 b) <> 110 /\ lower (hd 0 b) <> 105 \/ snd (word_at b) = 1 /\ (lower (hd 0 b) = 110 \/ lower (hd 0 b) = 105)).
  { unfold word_at. destruct (starts (text "nan") b); [discriminate|]. destruct (starts (text "infinity") b); [discriminate|]. destruct (starts (text "inf") b); [discriminate|].
    intros _. destruct b as [|c b0]; [left; cbn; split; [reflexivity|split; discriminate]|]. cbn [hd]. change (text "n") with [110]. change (text "i") with [105]. cbn [starts]. rewrite !andb_true_r.
    destruct (Z.eqb_spec (lower c) 110); [right; cbn; auto|]. destruct (Z.eqb_spec (lower c) 105); [right; cbn; auto|]. left. cbn. auto. }
  assert (ALL : (no_digits n = true /\ fst (word_at b) <> NoWord) \/ (no_digits n = false \/ fst (word_at b) = NoWord)).
  { destruct (no_digits n); [|auto]. destruct (fst (word_at b)); [left; split; [reflexivity|discriminate]..|auto]. }
  destruct ALL as [[ND W]|NS].
  - pose proof (word_subject a n b E ND W) as S. rewrite (as_strtod_number _ _ _ S).
    assert (WP : 0 < snd (word_at b)).
    { pose proof (word_is b W) as F. destruct (word_letter _ F) as (c & r & Ec & _). destruct (Z.to_nat (snd (word_at b))) eqn:Q; [discriminate Ec|lia]. }
    rewrite ND. destruct (Z.eqb_spec (snd (word_at b)) 0); [lia|]. cbn [negb andb]. split.
    + intros _ EL. destruct (elsewhere_no_number a NN EL) as [Q _]. destruct S as (F & (y & Ey) & _). exact (Q _ _ Ey F).
    + intros _. unfold zlen. rewrite app_length, firstn_length. pose proof (word_len b) as WL. unfold zlen in WL. lia.
  - pose proof (nothing_subject a n b E N NS) as S.
    assert (AS : forall k, as_strtod a k <-> k = 0).
    { intros k. split; [intros [(w & (F & (y & Ey) & _) & _)|[_ Q]]; [destruct (S _ _ Ey F)|exact Q]|intros ->; right; auto]. }
    rewrite AS.
    assert (EL : elsewhere a <-> In (hd 0 a) (text "+-.nNiI")) by (split; [intros Q; exact (proj2 (elsewhere_no_number a NN Q))|intros Q; exact (lone a S Q)]).
    rewrite EL, letters_in. rewrite mant_text in *. unfold mant in *. apply app_eq_nil in N as [N1 N2]. rewrite N1 in *. cbn [dchars map app] in *.
    destruct M as (M1 & M2 & M3). rewrite mant_text in M3. unfold mant in M3. rewrite N1 in M3. cbn [dchars map app] in M3.
    unfold no_digits in *. rewrite N1 in *. unfold frac_digits in N2. destruct (n_frac n) as [f|].
    + subst f. cbn [dchars map app andb] in *. rewrite app_length. cbn [List.length].
      assert (HI : hd 0 a = 43 \/ hd 0 a = 45 \/ hd 0 a = 46) by (rewrite Ea; destruct (n_sign n); cbn; auto). split; [lia|tauto].
    + rewrite app_nil_r in *. assert (W : fst (word_at b) = NoWord) by (destruct NS as [NS|NS]; [discriminate NS|exact NS]). cbn [andb].
      destruct (n_sign n) eqn:SG.
      * cbn [sign_text app] in *. subst b. assert (H1 : hd 0 a <> 43 /\ hd 0 a <> 45) by (split; intros Q; apply M3; auto). assert (H2 : hd 0 a <> 46) by (intros Q; now apply M2 in Q).
        cbn [List.length]. destruct (WN W) as [(S0 & S1 & S2)|(S0 & S1)]; rewrite S0; cbn; [split; [intros _; lia|reflexivity]|split; [lia|intros Q; exfalso; apply Q; tauto]].
      * assert (HI : hd 0 a = 43) by (rewrite Ea; reflexivity). change (List.length (sign_text Plus)) with 1%nat. split; [destruct (negb _); lia|intros Q; exfalso; apply Q; auto].
      * assert (HI : hd 0 a = 45) by (rewrite Ea; reflexivity). change (List.length (sign_text Minus)) with 1%nat. split; [destruct (negb _); lia|intros Q; exfalso; apply Q; auto].
Qed.

(** C99: atof consumes what strtod consumes (but for white space and hexadecimal numbers), with
    exactly the exceptions listed. *)
Theorem C99_stops : forall t a rest fb errno r k,
  atof (fmt_of t) (a ++ 0 :: rest) true fb errno = Ok r -> at_used_fallback r = false -> at_str_end r = Some k ->
  (as_strtod a k <-> ~ elsewhere a).
Proof.
  intros t a rest fb errno r k E U K.
  assert (k = text_length a) as ->.
  { destruct (C98_grows t a [] rest rest fb fb errno errno r r E U E U) as (k1 & k2 & K1 & _ & _).
    pose proof (C96_any_text t a rest true fb errno) as H. cbv zeta in H. unfold read_text in H. destruct (meaning_of t a) as [|sg w|n].
    - destruct H as [f H]. congruence.
    - rewrite E in H. injection H as ->. cbn in K. congruence.
    - destruct (read_number t n).
      + rewrite E in H. injection H as ->. cbn in K. congruence.
      + rewrite E in H. unfold fallback_answer in H. destruct (fb _ _); [|discriminate]. injection H as ->. discriminate U. }
  destruct (split_bare a) as [n b] eqn:S. destruct (digit_dec n) as [D|D]; [exact (number_stops a n b S D)|exact (other_stops a n b S D)].
Qed.

(** there is one answer to what strtod takes *)
Theorem C99_one : forall a k k', as_strtod a k -> as_strtod a k' -> k = k'.
Proof.
  intros a k k' [(w & S & ->)|[N ->]] [(w' & S' & ->)|[N' ->]]; [now rewrite (subject_one a w w' S S')| | |reflexivity].
  - destruct S as (F & (y & Ey) & _). destruct (N' _ _ Ey F).
  - destruct S' as (F & (y & Ey) & _). destruct (N _ _ Ey F).
Qed.
