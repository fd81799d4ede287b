(** What the parser reads: any text whatever, up to a character that stops it. *)
From Coq Require Import Reals Lra Lia ZArith List String Ascii.
From Flocq Require Import Core.
From Verif Require Import Machine MachineFacts BitOps StaticPow Fraction Format DiyFp KComp Chars Krosh Atof Spec ParseSpec Instances
  DiyFacts BoundFacts TableFacts GrisuFacts FtoaFacts RoundFacts DownFacts DvalFacts CmpFacts ArithProps ScanFacts LoopFacts ParseFacts GapFacts KroshNum ShortFacts FracFacts LongFacts.
Open Scope Z_scope.

(** A character that is no part of anything the parser knows: no letter, digit, point, sign,
    parenthesis or underscore. *)
Definition inert (c : Z) : Prop :=
  ~ (48 <= c <= 57) /\ ~ (65 <= c <= 90) /\ ~ (97 <= c <= 122) /\
  c <> 46 /\ c <> 43 /\ c <> 45 /\ c <> 40 /\ c <> 41 /\ c <> 95.

(** A text that begins like a number: optional sign, then a digit or a point. *)
Definition digit_or_dot (c : Z) : Prop := 48 <= c <= 57 \/ c = 46.
Definition is_sign (c : Z) : Prop := c = 45 \/ c = 43.
Definition plain (a : list Z) : Prop :=
  (exists x u, a = x :: u /\ digit_or_dot x) \/ (exists y x u, a = y :: x :: u /\ is_sign y /\ digit_or_dot x).

(** two results that agree and are no fault *)
Definition same {A} (r1 r2 : res A) (Q : A -> Prop) : Prop := exists x, r1 = Ok x /\ r2 = Ok x /\ Q x.

Lemma same_ok : forall A (x : A) (Q : A -> Prop), Q x -> same (Ok x) (Ok x) Q.
Proof. intros. exists x. auto. Qed.

Lemma same_bind : forall A B (m1 m2 : res A) (P : A -> Prop) (k1 k2 : A -> res B) (Q : B -> Prop),
  same m1 m2 P -> (forall x, P x -> same (k1 x) (k2 x) Q) -> same (bind m1 k1) (bind m2 k2) Q.
Proof. intros A B m1 m2 P k1 k2 Q (x & -> & -> & H) K. cbn [bind]. auto. Qed.

Lemma same_weak : forall A (m1 m2 : res A) (P Q : A -> Prop), same m1 m2 P -> (forall x, P x -> Q x) -> same m1 m2 Q.
Proof. intros A m1 m2 P Q (x & E1 & E2 & H) K. exists x. auto. Qed.

(** no digit and no point *)
Definition breaks (c : Z) : Prop := nondigit c /\ c <> 46.

Lemma ends_breaks : forall c, ends_number c -> breaks c.
Proof. intros c H. destruct (ends_facts c H) as (A & B & _). now split. Qed.

(** [s1] and [s2] are the same text [a] followed by two stopping characters *)
Section TwoTexts.
Variables (s1 s2 a : list Z) (c1 c2 : Z) (r1 r2 : list Z).
Hypothesis E1 : s1 = a ++ c1 :: r1.
Hypothesis E2 : s2 = a ++ c2 :: r2.
Let m := zlen a.
Hypothesis N1 : breaks c1.
Hypothesis N2 : breaks c2.

Lemma m_nonneg : 0 <= m. Proof. apply zlen_nonneg. Qed.

Lemma read1 : read s1 m = Ok c1. Proof. rewrite E1. now apply read_app. Qed.
Lemma read2 : read s2 m = Ok c2. Proof. rewrite E2. now apply read_app. Qed.

Lemma read_both : forall p, 0 <= p < m -> same (read s1 p) (read s2 p) (fun x => read a p = Ok x).
Proof.
  intros p H. destruct (read_in a p H) as (x & R). exists x. rewrite E1, E2. rewrite !read_app1 by (apply H). auto.
Qed.

(** reading at or before [m]: the same character, or one of the stopping characters *)
Lemma read_cases : forall p, 0 <= p <= m -> p < m \/ p = m.
Proof. intros; lia. Qed.

Lemma ends_nondigit : forall c, breaks c -> (0 <=? c - ch_0) && (c - ch_0 <=? 9) = false.
Proof.
  intros c [A _]. unfold nondigit in A. unfold ch_0.
  destruct (Z.leb_spec 0 (c - 48)), (Z.leb_spec (c - 48) 9); cbn; try reflexivity; lia.
Qed.

Lemma extract_loop_same : forall k p, 0 <= p <= m ->
  same (extract_loop s1 p k) (extract_loop s2 p k) (fun ds => List.length ds = k /\ Forall digit ds).
Proof.
  induction k as [|k IH]; intros p Hp; [apply same_ok; split; [reflexivity|constructor]|].
  cbn [extract_loop]. destruct (read_cases p Hp) as [L| ->].
  - eapply same_bind; [apply read_both; lia|]. intros x _. cbv zeta.
    destruct ((0 <=? x - ch_0) && (x - ch_0 <=? 9)) eqn:E.
    + eapply same_bind; [apply IH; lia|]. intros ds [D1 D2]. apply same_ok. split; [cbn; lia|].
      apply andb_true_iff in E as [A B]. apply Z.leb_le in A, B. constructor; [unfold digit; lia|assumption].
    + apply same_ok. split; [apply repeat_length|apply digits_zeros].
  - rewrite read1, read2. cbn [bind]. cbv zeta. rewrite !ends_nondigit by assumption.
    apply same_ok. split; [apply repeat_length|apply digits_zeros].
Qed.

Lemma extract_same : forall p, 0 <= p <= m ->
  same (extract_fraction_digits 4 s1 p) (extract_fraction_digits 4 s2 p) (fun T => 0 <= T < 10000).
Proof.
  intros p Hp. unfold extract_fraction_digits. eapply same_bind; [now apply extract_loop_same|].
  intros ds [D1 D2]. rewrite weighted_sum_ok; try assumption; try lia.
  - apply same_ok. pose proof (dval_bounds ds D2) as B. unfold zlen in B. rewrite D1 in B. exact B.
  - unfold zlen. rewrite D1. lia.
Qed.

(** nan and inf: either the text goes on with something inert, or they are not looked at *)
Section Words.
Hypothesis I1 : inert c1.
Hypothesis I2 : inert c2.

Lemma inert_neq : forall c x, inert c -> ~ inert x -> c =? x = false.
Proof. intros c x H N. apply Z.eqb_neq. intros ->. contradiction. Qed.

Lemma letter_not_inert : forall x, 65 <= x <= 90 \/ 97 <= x <= 122 \/ 48 <= x <= 57 \/ x = 40 \/ x = 41 \/ x = 95 -> ~ inert x.
Proof. unfold inert. intros. lia. Qed.

Lemma inert_nchar : forall c, inert c -> is_nchar c = false.
Proof.
  intros c (H0 & H1 & H2 & H3 & H4 & H5 & H6 & H7 & H8). unfold is_nchar, tolower, ch_0, ch_9, ch_a, ch_z, ch_under.
  destruct (Z.leb_spec 65 c), (Z.leb_spec c 90); cbn [andb]; try lia;
  destruct (Z.leb_spec 48 c), (Z.leb_spec c 57), (Z.leb_spec 97 c), (Z.leb_spec c 122), (Z.eqb_spec c 95); cbn [andb orb]; try reflexivity; lia.
Qed.

Lemma payload_same : forall f1 f2 cp, 0 <= cp < m -> m - cp <= Z.of_nat f1 -> m - cp <= Z.of_nat f2 ->
  same (nan_payload_end s1 f1 cp) (nan_payload_end s2 f2 cp) (fun q => cp < q <= m).
Proof.
  induction f1 as [|f1 IH]; intros f2 cp Hc H1 H2; [lia|]. destruct f2 as [|f2]; [lia|].
  cbn [nan_payload_end]. cbv zeta. destruct (Z.eq_dec (cp + 1) m) as [ -> |N].
  - rewrite read1, read2. cbn [bind]. rewrite !inert_nchar by assumption. apply same_ok. lia.
  - eapply same_bind; [apply read_both; lia|]. intros x _. destruct (is_nchar x).
    + eapply same_weak; [apply IH; lia|]. cbn beta. intros; lia.
    + apply same_ok. lia.
Qed.

Lemma length_m : forall r c, Z.of_nat (S (List.length (a ++ c :: r))) = m + 2 + zlen r.
Proof. intros. unfold m, zlen. rewrite app_length. cbn [List.length]. lia. Qed.

Ltac at_m := rewrite read1, read2; cbn [bind]; rewrite ?(inert_neq c1), ?(inert_neq c2) by (try assumption; apply letter_not_inert; vm_compute; intuition congruence).

Lemma eat_nan_same : forall p, 0 <= p <= m -> same (eat_nan s1 p) (eat_nan s2 p) (fun k => 0 <= k /\ p + k <= m).
Proof.
  intros p Hp. unfold eat_nan. destruct (read_cases p Hp) as [L| ->]; [|at_m; apply same_ok; lia].
  eapply same_bind; [apply read_both; lia|]. intros x _. destruct ((x =? ch_a) || (x =? ch_A)); [|apply same_ok; lia].
  destruct (Z.eq_dec (p + 1) m) as [E|N]; [rewrite E; at_m; apply same_ok; lia|].
  eapply same_bind; [apply read_both; lia|]. intros y _. destruct ((y =? ch_n) || (y =? ch_N)); [|apply same_ok; lia].
  cbv zeta. destruct (Z.eq_dec (p + 2) m) as [E|N']; [rewrite E; at_m; apply same_ok; lia|].
  eapply same_bind; [apply read_both; lia|]. intros z _. destruct (z =? ch_lpar); [|apply same_ok; lia].
  assert (Z.of_nat (S (List.length s1)) = m + 2 + zlen r1) by (rewrite E1; apply length_m).
  assert (Z.of_nat (S (List.length s2)) = m + 2 + zlen r2) by (rewrite E2; apply length_m).
  pose proof (zlen_nonneg r1). pose proof (zlen_nonneg r2).
  eapply same_bind; [apply payload_same; lia|]. cbn beta. intros q Hq.
  destruct (Z.eq_dec q m) as [ -> |Nq]; [at_m; apply same_ok; lia|].
  eapply same_bind; [apply read_both; lia|]. intros w _. destruct (w =? ch_rpar); apply same_ok; lia.
Qed.

Lemma inert_tolower : forall c, inert c -> tolower c = c.
Proof. intros c (_ & H1 & _). unfold tolower. destruct (Z.leb_spec 65 c), (Z.leb_spec c 90); cbn [andb]; try reflexivity; lia. Qed.

Lemma match_same : forall suf cp, 0 <= cp <= m -> Forall (fun x => ~ inert x) suf ->
  same (match_suffix s1 suf cp) (match_suffix s2 suf cp) (fun o => match o with Some q => cp <= q <= m | None => True end).
Proof.
  induction suf as [|x suf IH]; intros cp Hc HF; [apply same_ok; lia|]. inversion_clear HF as [|? ? F1 F2].
  cbn [match_suffix]. destruct (read_cases cp Hc) as [L| ->].
  - eapply same_bind; [apply read_both; lia|]. intros y _. destruct (tolower y =? x); [|apply same_ok; exact I].
    eapply same_weak; [apply IH; [lia|assumption]|]. cbn beta. intros [q|]; [lia|auto].
  - rewrite read1, read2. cbn [bind]. rewrite !inert_tolower by assumption. rewrite !inert_neq by assumption. apply same_ok. exact I.
Qed.

Lemma eat_inf_same : forall p, 0 <= p <= m -> same (eat_inf s1 p) (eat_inf s2 p) (fun k => 0 <= k /\ p + k <= m).
Proof.
  intros p Hp. unfold eat_inf. destruct (read_cases p Hp) as [L| ->]; [|at_m; apply same_ok; lia].
  eapply same_bind; [apply read_both; lia|]. intros x _. destruct ((x =? ch_n) || (x =? ch_N)); [|apply same_ok; lia].
  destruct (Z.eq_dec (p + 1) m) as [E|N]; [rewrite E; at_m; apply same_ok; lia|].
  eapply same_bind; [apply read_both; lia|]. intros y _. destruct ((y =? ch_f) || (y =? ch_F)); [|apply same_ok; lia].
  cbv zeta. destruct (Z.eq_dec (p + 2) m) as [E|N']; [rewrite E; at_m; apply same_ok; lia|].
  eapply same_bind; [apply read_both; lia|]. intros z _. destruct ((z =? ch_i) || (z =? ch_I)); [|apply same_ok; lia].
  eapply same_bind; [apply match_same; [lia|]|].
  - repeat constructor; apply letter_not_inert; vm_compute; intuition congruence.
  - cbn beta. intros [q|] Hq; apply same_ok; lia.
Qed.
End Words.

(** * The scanning loop *)

Hypothesis Words : inert c1 /\ inert c2 \/ plain a.

Definition linv (kap : nat) (st : pstate) : Prop :=
  0 <= pd_pos st <= m /\ 0 <= pd_zeros st <= pd_pos st /\ Forall digit (pd_digits st) /\
  zlen (pd_digits st) <= Z.of_nat kap /\ (pd_digits st <> [] -> hd 0 (pd_digits st) <> 0) /\
  0 <= pd_frac st <= 127 /\ (pd_frac st <> 0 -> zlen (pd_digits st) = Z.of_nat kap) /\
  (pd_sign_set st = true -> 1 <= pd_pos st /\ exists x, read a 0 = Ok x /\ is_sign x) /\ pd_special st = sp_no.

(** after the last iteration *)
Definition lend (kap : nat) (st : pstate) : Prop :=
  1 <= pd_pos st <= m + 1 /\ Forall digit (pd_digits st) /\
  zlen (pd_digits st) <= Z.of_nat kap /\ (pd_digits st <> [] -> hd 0 (pd_digits st) <> 0) /\
  0 <= pd_frac st <= 127 /\ (pd_frac st <> 0 -> zlen (pd_digits st) = Z.of_nat kap).

Lemma plain_first : plain a -> exists x, read a 0 = Ok x /\ (digit_or_dot x \/ is_sign x /\ exists y, read a 1 = Ok y /\ digit_or_dot y).
Proof.
  intros [(x & u & -> & D)|(y & x & u & -> & S & D)]; [exists x|exists y]; (split; [reflexivity|]); [now left|].
  right. split; [assumption|]. exists x. split; [reflexivity|assumption].
Qed.

Lemma dd_facts : forall x, digit_or_dot x -> (x =? ch_n) || (x =? ch_N) = false /\ (x =? ch_i) || (x =? ch_I) = false.
Proof.
  unfold digit_or_dot, ch_n, ch_N, ch_i, ch_I. intros x H.
  destruct (Z.eqb_spec x 110), (Z.eqb_spec x 78), (Z.eqb_spec x 105), (Z.eqb_spec x 73); cbn; split; try reflexivity; lia.
Qed.

Lemma sg_facts : forall x, is_sign x -> (x =? ch_n) || (x =? ch_N) = false /\ (x =? ch_i) || (x =? ch_I) = false.
Proof.
  unfold is_sign, ch_n, ch_N, ch_i, ch_I. intros x H.
  destruct (Z.eqb_spec x 110), (Z.eqb_spec x 78), (Z.eqb_spec x 105), (Z.eqb_spec x 73); cbn; split; try reflexivity; lia.
Qed.

(** in a text that begins like a number the words are never tried *)
Lemma plain_no_words : forall kap st x, plain a -> linv kap st -> pd_pos st < m -> read a (pd_pos st) = Ok x -> pd_pos st =? b2z (pd_sign_set st) = true ->
  (x =? ch_n) || (x =? ch_N) = false /\ (x =? ch_i) || (x =? ch_I) = false.
Proof.
  intros kap st x Hp (P & _ & _ & _ & _ & _ & _ & Sg & _) L R E. apply Z.eqb_eq in E.
  destruct (plain_first Hp) as (x0 & R0 & F). destruct (pd_sign_set st); cbn [b2z] in E.
  - destruct (Sg eq_refl) as (_ & y & Ry & Sy). rewrite R0 in Ry. injection Ry as <-.
    rewrite E in R. destruct F as [D|(_ & y & Ry & Dy)].
    + unfold digit_or_dot, is_sign in *. lia.
    + rewrite R in Ry. injection Ry as <-. now apply dd_facts.
  - rewrite E in R. rewrite R0 in R. injection R as <-. destruct F as [D|(S & _)]; [now apply dd_facts|now apply sg_facts].
Qed.

Lemma plain_past : forall kap st, plain a -> linv kap st -> pd_pos st = m -> pd_pos st =? b2z (pd_sign_set st) = false /\ pd_pos st =? 0 = false.
Proof.
  intros kap st Hp (P & _ & _ & _ & _ & _ & _ & Sg & _) L.
  assert (1 <= m) by (unfold m; destruct Hp as [(x & u & -> & _)|(y & x & u & -> & _)]; rewrite zlen_cons; pose proof (zlen_nonneg u); [lia|]; pose proof (zlen_nonneg (x :: u)); lia).
  split; apply Z.eqb_neq; [|lia].
  destruct (pd_sign_set st); cbn [b2z]; [|lia].
  destruct (Sg eq_refl) as (_ & y & Ry & Sy). intros E.
  destruct Hp as [(x & u & Ea & D)|(y' & x & u & Ea & _)].
  - rewrite Ea in Ry. cbn in Ry. injection Ry as <-. unfold digit_or_dot, is_sign in *. lia.
  - unfold m in L. rewrite Ea in L. rewrite !zlen_cons in L. pose proof (zlen_nonneg u). lia.
Qed.

Lemma stop_same : forall kap st, linv kap st -> pd_pos st = m ->
  step_char kap s1 st c1 = Ok (st, true) /\ step_char kap s2 st c2 = Ok (st, true).
Proof.
  intros kap st Hi L.
  assert (G : forall s c, breaks c -> (inert c \/ plain a) -> step_char kap s st c = Ok (st, true)).
  { intros s c [A B] W. unfold nondigit in A. unfold step_char, ch_0, ch_dot.
    destruct (Z.eqb_spec c 48); [lia|]. destruct (Z.leb_spec 49 c), (Z.leb_spec c 57); cbn [andb]; try lia.
    all: destruct (Z.eqb_spec c 46); [lia|].
    all: destruct W as [W|W].
    all: try (destruct W as (w0 & w1 & w2 & w3 & w4 & w5 & w6); unfold ch_n, ch_N, ch_i, ch_I, ch_minus, ch_plus;
      repeat match goal with |- context [?x =? ?y] => destruct (Z.eqb_spec x y); [lia|] end; reflexivity).
    all: destruct (plain_past kap st W Hi L) as [-> ->].
    all: destruct ((c =? ch_n) || (c =? ch_N)); [reflexivity|]; destruct ((c =? ch_i) || (c =? ch_I)); [reflexivity|];
      destruct ((c =? ch_minus) || (c =? ch_plus)); reflexivity. }
  split; apply G; try assumption; destruct Words as [[? ?]|?]; auto.
Qed.

Lemma wrap64_small : forall x, 0 <= x <= 5000 -> wrap 64 x = x.
Proof. intros x H. apply wrap_small. change (2 ^ 64) with 18446744073709551616. lia. Qed.

Lemma flush_linv : forall kap st, (1 <= kap)%nat -> linv kap st -> pd_pos st <= 2049 -> linv kap (flush_zeros kap st) /\
  pd_pos (flush_zeros kap st) = pd_pos st /\ pd_sign_set (flush_zeros kap st) = pd_sign_set st.
Proof.
  intros kap st Hk Hi Hp. unfold flush_zeros. pose proof Hi as (P & Zz & D & Ln & Hd & Fr & Ff & Sg & Sp).
  destruct (negb (pd_zeros st =? 0) && (len_z (pd_digits st) <? Z.of_nat kap)) eqn:E; [|auto].
  apply andb_true_iff in E as [_ E]. apply Z.ltb_lt in E. change (len_z (pd_digits st)) with (zlen (pd_digits st)) in *.
  cbv zeta. split; [|split; reflexivity]. unfold linv. cbn [pd_pos pd_zeros pd_digits pd_frac pd_sign_set pd_special].
  pose proof (zlen_nonneg (pd_digits st)).
  destruct (pd_digits st) as [|d ds] eqn:Ed; cbn [negb].
  - rewrite Z.sub_diag. change (wrap 64 0) with 0. repeat (split; [first [lia|assumption|auto]|]). auto.
  - set (z := Z.min (pd_zeros st) (Z.of_nat kap - zlen (d :: ds))).
    assert (0 <= z <= pd_zeros st) by lia.
    split; [lia|]. split; [rewrite wrap64_small; lia|]. split; [apply Forall_app; split; [assumption|apply digits_zeros]|].
    split; [rewrite zlen_app, zlen_repeat; lia|]. split; [intros _; exact (Hd ltac:(discriminate))|].
    split; [assumption|]. split; [|auto]. intros Nf. specialize (Ff Nf). rewrite <- Ed in *. lia.
Qed.

Definition after (kap : nat) (p : Z) (r : pstate * bool) : Prop :=
  let st := set_pos (pd_pos (fst r) + 1) (fst r) in
  lend kap st /\ (snd r = false -> linv kap st /\ pd_pos (fst r) = p).

Lemma linv_lend : forall kap st, linv kap st -> 1 <= pd_pos st -> lend kap st.
Proof. intros kap st (P & Zz & D & Ln & Hd & Fr & Ff & Sg & Sp) H. repeat (split; [first [lia|assumption]|]). assumption. Qed.

Lemma after_go : forall kap st p, lend kap (set_pos (pd_pos st + 1) st) -> after kap p (st, true).
Proof. intros kap st p H. split; [exact H|]. cbn. discriminate. Qed.

Lemma after_stay : forall kap st p, linv kap st -> after kap p (st, true).
Proof.
  intros kap st p (P & Zz & D & Ln & Hd & Fr & Ff & Sg & Sp). apply after_go. unfold lend. cbn [set_pos pd_pos pd_digits pd_frac].
  repeat (split; [first [lia|assumption]|]). assumption.
Qed.

Lemma after_next : forall kap st, linv kap (set_pos (pd_pos st + 1) st) -> 0 <= pd_pos st -> forall b, after kap (pd_pos st) (st, b).
Proof. intros kap st H P b. split; cbn [fst snd]; [|auto]. apply linv_lend; [assumption|cbn; lia]. Qed.

Lemma step_same : forall kap st x, (1 <= kap)%nat -> linv kap st -> pd_pos st < m -> pd_pos st <= 2049 -> read a (pd_pos st) = Ok x ->
  same (step_char kap s1 st x) (step_char kap s2 st x) (after kap (pd_pos st)).
Proof.
  intros kap st x Hk Hi L Hp R. pose proof Hi as (P & Zz & D & Ln & Hd & Fr & Ff & Sg & Sp).
  assert (Keep : linv kap (set_pos (pd_pos st + 1) st)).
  { unfold linv. cbn [set_pos pd_pos pd_zeros pd_digits pd_frac pd_sign_set pd_special].
    repeat (split; [first [lia|assumption]|]). split; [|assumption]. intros S. specialize (Sg S). split; [lia|tauto]. }
  unfold step_char. destruct (Z.eqb_spec x ch_0) as [E0|E0].
  { apply same_ok. assert (pd_pos (step_zero st) = pd_pos st) as <- by (unfold step_zero; destruct (_ || _); reflexivity).
    apply after_next; [|unfold step_zero; destruct (_ || _); cbn; lia].
    unfold step_zero. destruct (_ || _); [|exact Keep].
    unfold linv. cbn [set_pos pd_pos pd_zeros pd_digits pd_frac pd_sign_set pd_special].
    rewrite wrap64_small by lia. repeat (split; [first [lia|assumption]|]). split; [|assumption]. intros S. specialize (Sg S). split; [lia|tauto]. }
  destruct ((49 <=? x) && (x <=? 57)) eqn:E9.
  { apply andb_true_iff in E9 as [X1 X2]. apply Z.leb_le in X1, X2.
    eapply same_bind with (P := fun st' => linv kap (set_pos (pd_pos st' + 1) st') /\ pd_pos st' = pd_pos st).
    2:{ cbn beta. intros st' [A B]. apply same_ok. rewrite <- B. apply after_next; [assumption|lia]. }
    unfold step_nonzero. destruct (flush_linv kap st Hk Hi Hp) as (Fi & Fp & Fs).
    set (sf := flush_zeros kap st) in *. clearbody sf. cbv zeta. change (len_z (pd_digits sf)) with (zlen (pd_digits sf)).
    pose proof Fi as (P' & Zz' & D' & Ln' & Hd' & Fr' & Ff' & Sg' & Sp').
    destruct (Z.ltb_spec (zlen (pd_digits sf)) (Z.of_nat kap)) as [Lt|Ge].
    - apply same_ok. split; [|exact Fp]. unfold linv. cbn [set_pos pd_pos pd_zeros pd_digits pd_frac pd_sign_set pd_special].
      split; [lia|]. split; [lia|]. split; [apply Forall_app; split; [assumption|constructor; [unfold digit, ch_0; lia|constructor]]|].
      split; [rewrite zlen_app, zlen_cons, zlen_nil; lia|].
      split. { intros _. destruct (pd_digits sf); cbn [app hd]; [unfold ch_0; lia|]. apply Hd'. discriminate. }
      split; [assumption|]. split; [intros Nf; specialize (Ff' Nf); lia|]. split; [|assumption]. intros S. specialize (Sg' S). split; [lia|tauto].
    - assert (Full : zlen (pd_digits sf) = Z.of_nat kap) by lia. rewrite Full.
      replace (Z.of_nat kap + pd_zeros sf - Z.of_nat kap) with (pd_zeros sf) by lia. rewrite wrap64_small by lia.
      eapply same_bind with (P := fun fr => 0 <= fr <= 127).
      + destruct (negb (pd_frac_calculated sf)); [|apply same_ok; assumption].
        eapply same_bind; [apply extract_same; lia|]. cbn beta. intros T HT. apply same_ok.
        destruct (C25_fraction T HT) as [C _]. unfold fraction_decimal_digits, fraction_binary_digits.
        rewrite wrap_small by (change (2 ^ 8) with 256; lia). exact C.
      + cbn beta. intros fr Hfr. apply same_ok. split; [|exact Fp]. unfold linv. cbn [set_pos pd_pos pd_zeros pd_digits pd_frac pd_sign_set pd_special].
        do 7 (split; [first [lia|assumption|auto]|]). split; [|assumption]. intros S. specialize (Sg' S). split; [lia|tauto]. }
  destruct (Z.eqb_spec x ch_dot) as [Ed|Ed].
  { apply same_ok. apply (after_next kap (set_dot st)); [|cbn; lia]. unfold linv. cbn [set_dot set_pos pd_pos pd_zeros pd_digits pd_frac pd_sign_set pd_special].
    repeat (split; [first [lia|assumption]|]). split; [|assumption]. intros S. specialize (Sg S). split; [lia|tauto]. }
  assert (WordCase : forall (e1 e2 : res Z) spec, same e1 e2 (fun k => 0 <= k /\ pd_pos st + 1 + k <= m) ->
    same (eaten <- e1 ;; let st1 := set_pos (pd_pos st + (eaten + 1)) st in Ok (if negb (eaten =? 0) then set_special spec st1 else st1, true))
         (eaten <- e2 ;; let st1 := set_pos (pd_pos st + (eaten + 1)) st in Ok (if negb (eaten =? 0) then set_special spec st1 else st1, true))
         (after kap (pd_pos st))).
  { intros e1 e2 spec H. eapply same_bind; [exact H|]. cbn beta. intros k [K1 K2]. cbv zeta. apply same_ok. apply after_go.
    destruct (negb (k =? 0)); unfold lend; cbn [set_special set_pos pd_pos pd_digits pd_frac];
      (repeat (split; [first [lia|assumption]|]); assumption). }
  destruct ((x =? ch_n) || (x =? ch_N)) eqn:En.
  { destruct (pd_pos st =? b2z (pd_sign_set st)) eqn:Eb; [|apply same_ok; now apply after_stay].
    destruct Words as [[I1 I2]|Pl]; [|destruct (plain_no_words kap st x Pl Hi L R Eb); congruence].
    apply WordCase. apply eat_nan_same; try assumption; lia. }
  destruct ((x =? ch_i) || (x =? ch_I)) eqn:Ei.
  { destruct (pd_pos st =? b2z (pd_sign_set st)) eqn:Eb; [|apply same_ok; now apply after_stay].
    destruct Words as [[I1 I2]|Pl]; [|destruct (plain_no_words kap st x Pl Hi L R Eb); congruence].
    apply WordCase. apply eat_inf_same; try assumption; lia. }
  destruct ((x =? ch_minus) || (x =? ch_plus)) eqn:Es; [|apply same_ok; now apply after_stay].
  destruct (Z.eqb_spec (pd_pos st) 0) as [Z0|Z0]; [|apply same_ok; now apply after_stay].
  apply same_ok. apply (after_next kap (set_sign (negb (ch_minus - x =? 0)) st)); [|cbn; lia]. unfold linv. cbn [set_sign set_pos pd_pos pd_zeros pd_digits pd_frac pd_sign_set pd_special].
  repeat (split; [first [lia|assumption]|]). split; [|assumption]. intros _. split; [lia|]. exists x. rewrite <- Z0. split; [assumption|].
  unfold is_sign. apply orb_true_iff in Es as [Es|Es]; apply Z.eqb_eq in Es; [now left|now right].
Qed.

Lemma loop_same : forall kap fuel st, (1 <= kap)%nat -> linv kap st -> pd_pos st <= 2049 -> 2049 - pd_pos st < Z.of_nat fuel ->
  same (parse_loop kap s1 fuel st) (parse_loop kap s2 fuel st) (lend kap).
Proof.
  intros kap. induction fuel as [|fuel IH]; intros st Hk Hi Hp Hf; [pose proof Hi as (? & _); lia|].
  cbn [parse_loop]. pose proof Hi as (P & _). destruct (read_cases (pd_pos st) P) as [L|E].
  - eapply same_bind; [apply read_both; lia|]. cbn beta. intros x R. eapply same_bind; [now apply step_same|].
    cbn beta. intros [st1 go] [A1 A2]. cbn [fst snd] in *. cbv zeta. destruct go; cbn [orb].
    + now apply same_ok.
    + destruct (A2 eq_refl) as [A3 A4]. destruct (Z.ltb_spec maximum_offset (pd_pos st1)); [now apply same_ok|].
      unfold maximum_offset in *. apply IH; try assumption; cbn [set_pos pd_pos]; lia.
  - rewrite E, read1, read2. cbn [bind]. destruct (stop_same kap st Hi E) as [-> ->]. cbn [bind orb]. cbv zeta. cbn [orb].
    apply same_ok. apply (after_stay kap st 0 Hi).
Qed.

Lemma parse_digits_same : forall t, same (parse_digits (fmt_of t) s1) (parse_digits (fmt_of t) s2)
  (fun dp => 0 <= dp_str_end dp <= m /\ 0 <= dp_value dp < 10 ^ exact_digits t /\ 0 <= dp_frac dp <= 127 /\
             (dp_frac dp <> 0 -> 10 ^ (exact_digits t - 1) <= dp_value dp) /\ - 2 ^ 31 <= dp_K dp < 2 ^ 31).
Proof.
  intros t. unfold parse_digits. destruct (kap_facts t) as (K1 & K2 & K3).
  eapply same_bind; [apply loop_same; [exact K1| |cbn; lia|]|].
  - unfold linv, pstate_init. cbn [pd_pos pd_zeros pd_digits pd_frac pd_sign_set pd_special].
    pose proof m_nonneg. rewrite zlen_nil. repeat (split; [first [lia|constructor|congruence]|]). reflexivity.
  - unfold parse_fuel, maximum_offset, pstate_init. cbn [pd_pos]. lia.
  - cbn beta. intros st (P & D & Ln & Hd & Fr & Ff).
    eapply same_bind with (P := fun v => v = dval (pd_digits st)).
    + rewrite weighted_sum_ok; try assumption; [apply same_ok; reflexivity|rewrite fw_width; destruct t; cbn; lia|unfold decimal_q; lia|].
      rewrite fw_width. exact K3.
    + cbn beta. intros v ->. apply same_ok. cbn [dp_str_end dp_value dp_frac dp_K].
      pose proof (dval_bounds _ D) as B. pose proof (exact_digits_eq t) as EQ. rewrite <- EQ.
      split; [lia|]. split.
      { split; [lia|]. apply Z.lt_le_trans with (1 := proj2 B). apply Z.pow_le_mono_r; lia. }
      split; [exact Fr|]. split.
      { intros Nf. specialize (Ff Nf). destruct (pd_digits st) as [|d ds] eqn:Ed.
        - rewrite zlen_nil in Ff. unfold decimal_q in *. lia.
        - rewrite <- Ff, zlen_cons. replace (1 + zlen ds - 1) with (zlen ds) by lia. apply dval_lower; [assumption|]. apply (Hd ltac:(discriminate)). }
      unfold narrow_int. pose proof (Z.mod_pos_bound (wrap 64 (pd_pow_gain st - pd_fraction_count st) + 2 ^ 31) (2 ^ 32) ltac:(lia)). lia.
Qed.
End TwoTexts.

(** * The whole conversion *)

Lemma inert_ends : forall c, inert c -> ends_number c.
Proof.
  intros c H. unfold inert in H. unfold ends_number. change (code "0") with 48. change (code "9") with 57.
  change (code ".") with 46. change (code "e") with 101. change (code "E") with 69. lia.
Qed.

(** The text [a] is left alone by what follows it: it is followed by inert characters, or
    it begins like a number, and so does what follows every letter e in it. *)
Definition closed (a : list Z) (c1 c2 : Z) : Prop :=
  inert c1 /\ inert c2 \/
  plain a /\ forall x e y, a = x ++ e :: y -> e = 101 \/ e = 69 -> plain y.

Definition exponent_marker (a : list Z) : Prop := In 101 a \/ In 69 a.

Lemma mantissa_total : forall t P frac, 0 < P < 10 ^ exact_digits t -> 0 <= frac <= 127 ->
  (frac <> 0 -> 10 ^ (exact_digits t - 1) <= P) ->
  exists f e, kr_mantissa (fmt_of t) P frac = Ok (mk_diy f e) /\ 2 ^ (width t - 1) <= f < 2 ^ width t /\ -100 <= e <= 100.
Proof.
  intros t P frac HP HF HC. pose proof (width_digits t). pose proof (width_facts t).
  destruct (kr_mantissa_ok t P frac ltac:(lia) HF) as (n & f & e & N1 & N2 & N3 & N4 & N5 & _).
  { destruct (Z.eq_dec frac 0); auto. }
  exists f, e. split; [exact N3|]. split; [exact N4|lia].
Qed.

Lemma skipn_app_le : forall (a b : list Z) k, 0 <= k <= zlen a -> skipn (Z.to_nat k) (a ++ b) = skipn (Z.to_nat k) a ++ b.
Proof.
  intros a b k H. unfold zlen in H. rewrite skipn_app. replace (Z.to_nat k - List.length a)%nat with 0%nat by lia. reflexivity.
Qed.

Lemma krosh_by_parts : forall t s, krosh (fmt_of t) s =
  (dp <- parse_digits (fmt_of t) s ;;
   match dp_special dp with
   | sp_no =>
       if dp_value dp =? 0 then
         Ok {| kr_value := apply_sign (fmt_of t) (dp_sign dp) 0; kr_str_end := dp_str_end dp; kr_status := success; kr_is_accurate := true |}
       else
         w <- kr_mantissa (fmt_of t) (dp_value dp) (dp_frac dp) ;;
         if m_f w =? 0 then
           Ok {| kr_value := apply_sign (fmt_of t) (dp_sign dp) 0; kr_str_end := dp_str_end dp; kr_status := success; kr_is_accurate := true |}
         else
           '(ev, eend) <- parse_exponent (skipn (Z.to_nat (dp_str_end dp)) s) ;;
           K <- sint (dp_K dp + ev) ;;
           kr_scale (fmt_of t) (negb (dp_sign dp)) (dp_str_end dp + eend) K w
   | sp_nan => Ok {| kr_value := apply_sign (fmt_of t) (dp_sign dp) (qnan_bits (fmt_of t)); kr_str_end := dp_str_end dp;
            kr_status := success; kr_is_accurate := true |}
   | sp_inf => Ok {| kr_value := apply_sign (fmt_of t) (dp_sign dp) (inf_bits (fmt_of t)); kr_str_end := dp_str_end dp;
            kr_status := success; kr_is_accurate := true |}
   end).
Proof.
  intros t s. unfold krosh, parse_mantissa. destruct (parse_digits (fmt_of t) s) as [[v K se fr sp sg]|]; [|reflexivity].
  cbn [bind dp_special dp_value dp_frac dp_K dp_str_end dp_sign]. destruct sp; [|reflexivity|reflexivity].
  destruct (Z.eqb_spec v 0) as [-> |Nv]; cbn [negb bind mp_special mp_value m_f mp_K mp_str_end mp_sign Z.eqb]; [reflexivity|].
  unfold kr_mantissa. destruct (w <- normalize (fmt_of t) (mk_diy v 0) ;; round_mantissa (fmt_of t) w fr) as [w|]; [|reflexivity].
  cbn [bind mp_special mp_value mp_K mp_str_end mp_sign]. destruct (m_f w =? 0); cbn [negb]; [reflexivity|].
  destruct (parse_exponent (skipn (Z.to_nat se) s)) as [[ev ee]|]; [|reflexivity]. cbn [bind].
  destruct (sint (K + ev)) as [k|]; [|reflexivity]. cbn [bind]. unfold kr_scale, kr_finish. rewrite !negb_involutive.
  destruct (k =? 0); cbn [negb]; [reflexivity|].
  destruct (fpow_lo (fmt_of t) <=? k), (k <=? fpow_hi (fmt_of t)); cbn [andb negb]; reflexivity.
Qed.

(** The exponent part *)
Lemma exponent_local : forall a c1 c2 r1 r2, ends_number c1 -> ends_number c2 -> 
  (forall e y, a = e :: y -> e = 101 \/ e = 69 -> inert c1 /\ inert c2 \/ plain y) ->
  parse_exponent (a ++ c1 :: r1) = parse_exponent (a ++ c2 :: r2) /\
  ((exists v k, parse_exponent (a ++ c1 :: r1) = Ok (v, k) /\ 0 <= k <= zlen a /\
     (hd 0 a <> 101 /\ hd 0 a <> 69 -> v = 0 /\ k = 0)) \/
   (exists f, parse_exponent (a ++ c1 :: r1) = Fault f /\ (f = TableOverrun \/ f = SignedOverflow) /\ exists y, a = 101 :: y \/ a = 69 :: y)).
Proof.
  intros a c1 c2 r1 r2 N1 N2 H. unfold parse_exponent.
  destruct (ends_facts c1 N1) as (_ & _ & A1 & A2). destruct (ends_facts c2 N2) as (_ & _ & B1 & B2).
  destruct a as [|e y].
  - change (read ([] ++ c1 :: r1) 0) with (Ok c1). change (read ([] ++ c2 :: r2) 0) with (Ok c2). cbn [bind]. unfold ch_e, ch_E.
    destruct (Z.eqb_spec c1 101); [lia|]. destruct (Z.eqb_spec c1 69); [lia|].
    destruct (Z.eqb_spec c2 101); [lia|]. destruct (Z.eqb_spec c2 69); [lia|]. cbn [negb andb].
    split; [reflexivity|]. left. exists 0, 0. rewrite zlen_nil. split; [reflexivity|]. split; [lia|auto].
  - change (read ((e :: y) ++ c1 :: r1) 0) with (Ok e). change (read ((e :: y) ++ c2 :: r2) 0) with (Ok e). cbn [bind app skipn].
    pose proof (zlen_nonneg y). rewrite zlen_cons. unfold ch_e, ch_E.
    destruct (negb (e =? 101) && negb (e =? 69)) eqn:Ee.
    + split; [reflexivity|]. left. exists 0, 0. split; [reflexivity|]. split; [lia|auto].
    + assert (He : e = 101 \/ e = 69).
      { destruct (Z.eqb_spec e 101); [now left|]. destruct (Z.eqb_spec e 69); [now right|]. discriminate. }
      destruct (parse_digits_same (y ++ c1 :: r1) (y ++ c2 :: r2) y c1 c2 r1 r2 eq_refl eq_refl (ends_breaks _ N1) (ends_breaks _ N2) (H e y eq_refl He) Float)
        as (dp & P1 & P2 & Q1 & Q2 & Q3 & Q4 & Q5).
      change (fmt_of Float) with single in *. rewrite P1, P2. cbn [bind]. split; [reflexivity|].
      destruct (C54_seq_pow 10 exponent_decimal_digits (dp_K dp) ltac:(unfold exponent_decimal_digits; lia)) as [S1 S2].
      destruct (Z_le_dec 0 (dp_K dp)) as [L1|L1]; [destruct (Z_le_dec (dp_K dp) 3) as [L2|L2]|].
      * rewrite S1 by (unfold exponent_decimal_digits; lia). cbn [bind].
        destruct (negb (dp_sign dp)); cbn [bind].
        -- unfold sint. match goal with |- context [if ?b then Ok _ else Fault SignedOverflow] => destruct b end; cbn [bind].
           ++ left. eexists. eexists. split; [reflexivity|]. split; [lia|]. cbn [hd]. intros [? ?]. lia.
           ++ right. exists SignedOverflow. split; [reflexivity|]. split; [auto|]. exists y. destruct He as [-> | ->]; auto.
        -- left. eexists. eexists. split; [reflexivity|]. split; [lia|]. cbn [hd]. intros [? ?]. lia.
      * rewrite S2 by (unfold exponent_decimal_digits; left; lia). cbn [bind]. right. exists TableOverrun. split; [reflexivity|]. split; [auto|].
        exists y. destruct He as [-> | ->]; auto.
      * rewrite S2 by (right; lia). cbn [bind]. right. exists TableOverrun. split; [reflexivity|]. split; [auto|].
        exists y. destruct He as [-> | ->]; auto.
Qed.

Lemma skipn_suffix : forall (a : list Z) k, exists x, a = x ++ skipn k a.
Proof. intros a k. exists (firstn k a). symmetry. apply firstn_skipn. Qed.

Theorem krosh_local : forall t a c1 c2 r1 r2, ends_number c1 -> ends_number c2 -> closed a c1 c2 ->
  krosh (fmt_of t) (a ++ c1 :: r1) = krosh (fmt_of t) (a ++ c2 :: r2) /\
  match krosh (fmt_of t) (a ++ c1 :: r1) with
  | Ok r => 0 <= kr_str_end r <= zlen a
  | Fault f => (f = TableOverrun \/ f = SignedOverflow) /\ exponent_marker a
  end.
Proof.
  intros t a c1 c2 r1 r2 N1 N2 Cl. rewrite !krosh_by_parts.
  assert (Wd : inert c1 /\ inert c2 \/ plain a) by (destruct Cl as [?|[? _]]; auto).
  destruct (parse_digits_same (a ++ c1 :: r1) (a ++ c2 :: r2) a c1 c2 r1 r2 eq_refl eq_refl (ends_breaks _ N1) (ends_breaks _ N2) Wd t)
    as (dp & P1 & P2 & Q1 & Q2 & Q3 & Q4 & Q5).
  rewrite P1, P2. cbn [bind]. destruct (dp_special dp); [|split; [reflexivity|exact Q1]|split; [reflexivity|exact Q1]].
  destruct (Z.eqb_spec (dp_value dp) 0) as [Z0|Z0]; [split; [reflexivity|exact Q1]|].
  destruct (mantissa_total t (dp_value dp) (dp_frac dp) ltac:(lia) Q3 Q4) as (f & e & M1 & M2 & M3).
  rewrite M1. cbn [bind m_f]. pose proof (width_facts t). pose proof (pow2_pos (width t - 1) ltac:(lia)).
  destruct (Z.eqb_spec f 0); [lia|]. rewrite !skipn_app_le by assumption.
  set (a' := skipn (Z.to_nat (dp_str_end dp)) a).
  assert (La : zlen a' = zlen a - dp_str_end dp) by (unfold a', zlen in *; rewrite skipn_length; lia).
  destruct (skipn_suffix a (Z.to_nat (dp_str_end dp))) as (x & Ex). fold a' in Ex.
  destruct (exponent_local a' c1 c2 r1 r2 N1 N2) as (X1 & X2).
  { intros e0 y Ey He. destruct Cl as [?|[_ Cl]]; [now left|right]. apply (Cl x e0 y); [now rewrite <- Ey|assumption]. }
  rewrite <- X1. split; [reflexivity|].
  destruct X2 as [(v & k & E & K1 & K2)|(ff & E & F1 & y & F2)]; rewrite E; cbn [bind].
  - unfold sint. destruct ((- 2 ^ 31 <=? dp_K dp + v) && (dp_K dp + v <? 2 ^ 31)) eqn:B; cbn [bind].
    + destruct (kr_scale_total t (negb (dp_sign dp)) (dp_str_end dp + k) (dp_K dp + v) f e M2 M3) as (vv & st & acc & ->).
      cbn [kr_str_end]. lia.
    + split; [now right|]. unfold exponent_marker. rewrite Ex.
      destruct (Z.eq_dec (hd 0 a') 101) as [D|D]; [left|destruct (Z.eq_dec (hd 0 a') 69) as [D'|D']; [right|]].
      * destruct a' as [|h a'']; [discriminate|]. cbn [hd] in D. subst h. apply in_or_app. right. now left.
      * destruct a' as [|h a'']; [discriminate|]. cbn [hd] in D'. subst h. apply in_or_app. right. now left.
      * exfalso. destruct (K2 (conj D D')) as [-> _]. rewrite Z.add_0_r in B.
        clear - B Q5. apply andb_false_iff in B as [B|B]; [apply Z.leb_gt in B|apply Z.ltb_ge in B]; lia.
  - split; [exact F1|]. unfold exponent_marker. rewrite Ex. destruct F2 as [-> | ->]; [left|right]; apply in_or_app; right; now left.
Qed.
