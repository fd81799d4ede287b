(** The global locale has no influence on values: C91. *)
From Coq Require Import Lia ZArith List String Ascii.
From Verif Require Import Machine MachineFacts BitOps StaticPow Fraction Format DiyFp KComp Chars Krosh Atof Locale.
Import ListNotations.
Open Scope Z_scope.

(** the first NUL is at or behind [p] *)
Definition nul_from (s : list Z) (p : Z) : Prop := (exists j, p <= j /\ read s j = Ok 0) /\ forall j, 0 <= j < p -> read s j <> Ok 0.

(** one of the words nan and inf, in any capitalisation, at [p] *)
Definition word_seen (s : list Z) (p : Z) : Prop := exists a b c, read s p = Ok a /\ read s (p + 1) = Ok b /\ read s (p + 2) = Ok c /\
  ((a = ch_n \/ a = ch_N) /\ (b = ch_a \/ b = ch_A) /\ (c = ch_n \/ c = ch_N) \/
   (a = ch_i \/ a = ch_I) /\ (b = ch_n \/ b = ch_N) /\ (c = ch_f \/ c = ch_F)).

Lemma nul_next : forall s p c, nul_from s p -> read s p = Ok c -> c <> 0 -> nul_from s (p + 1).
Proof.
  intros s p c [(j & J1 & J2) J3] R N. split.
  - exists j. split; [|exact J2]. assert (j <> p) by (intros ->; congruence). lia.
  - intros i Hi. destruct (Z.eq_dec i p) as [->|]; [congruence|apply J3; lia].
Qed.

Lemma read_lt : forall s p c, read s p = Ok c -> 0 <= p < zlen s.
Proof.
  intros s p c H. apply read_spec in H as [H1 H2]. assert (nth_error s (Z.to_nat p) <> None) by congruence.
  apply nth_error_Some in H. unfold zlen. lia.
Qed.

(** a NUL is no letter *)
Definition nul_fixed (lower : Z -> Z) : Prop := ~ (ch_a <= lower 0 <= ch_z).

Lemma nchar_nul : forall l, nul_fixed l -> is_nchar_in l 0 = false.
Proof.
  intros l H. unfold nul_fixed in H. unfold is_nchar_in. destruct (Z.leb_spec ch_a (l 0)), (Z.leb_spec (l 0) ch_z); try reflexivity. lia.
Qed.

Lemma payload_ends : forall l s fuel cp j, nul_fixed l -> 0 <= cp < j -> read s j = Ok 0 -> (Z.to_nat (j - cp) <= fuel)%nat ->
  exists e c, nan_payload_end_in l s fuel cp = Ok e /\ cp < e <= j /\ read s e = Ok c.
Proof.
  intros l s fuel. induction fuel as [|n IH]; intros cp j N H R F; [lia|]. cbn [nan_payload_end_in].
  destruct (read_in s (cp + 1)) as [c Ec]; [pose proof (read_lt s j 0 R); lia|]. rewrite Ec. cbn [bind].
  destruct (is_nchar_in l c) eqn:E.
  - assert (cp + 1 <> j) by (intros <-; rewrite R in Ec; injection Ec as <-; rewrite nchar_nul in E by exact N; discriminate).
    destruct (IH (cp + 1) j N ltac:(lia) R ltac:(lia)) as (e & c' & E1 & E2 & E3). exists e, c'. split; [exact E1|]. split; [lia|exact E3].
  - exists (cp + 1), c. split; [reflexivity|]. split; [lia|exact Ec].
Qed.

(** two ways to eat a word: the same fault, both nothing, or both at least two characters *)
Definition eats (a b : res Z) (word : Prop) : Prop :=
  (exists f, a = Fault f /\ b = Fault f) \/ (a = Ok 0 /\ b = Ok 0) \/ (word /\ exists x y, a = Ok x /\ b = Ok y /\ 2 <= x /\ 2 <= y).

Lemma eat_nan_eats : forall l1 l2 s q p c, nul_fixed l1 -> nul_fixed l2 -> q = p + 1 -> 0 <= p -> read s p = Ok c -> c = ch_n \/ c = ch_N -> nul_from s q ->
  eats (eat_nan_in l1 s q) (eat_nan_in l2 s q) (word_seen s p).
Proof.
  intros l1 l2 s p q0 c N1 N2 Hq Hq0 Rc Cc Z0. assert (Hp : 0 <= p) by lia. unfold eat_nan_in.
  destruct (read s p) as [c0|f] eqn:R0; cbn [bind]; [|left; exists f; auto].
  destruct ((c0 =? ch_a) || (c0 =? ch_A))%bool eqn:B0; [|right; left; auto].
  assert (Z1 : nul_from s (p + 1)) by (apply nul_next with c0; auto; intros ->; discriminate).
  destruct (read s (p + 1)) as [c1|f] eqn:R1; cbn [bind]; [|left; exists f; auto].
  destruct ((c1 =? ch_n) || (c1 =? ch_N))%bool eqn:B1; [|right; left; auto].
  assert (Z2 : nul_from s (p + 1 + 1)) by (apply nul_next with c1; auto; intros ->; discriminate).
  replace (p + 1 + 1) with (p + 2) in Z2 by lia.
  destruct (read s (p + 2)) as [c2|f] eqn:R2; cbn [bind]; [|left; exists f; auto].
  right. right. split; [exists c, c0, c1; replace (q0 + 2) with (p + 1) by lia; rewrite <- Hq; repeat split; auto; left; repeat split; [exact Cc|lia|lia]|].
  destruct (c2 =? ch_lpar) eqn:B2; [|exists 2, 2; auto with zarith].
  assert (Z3 : nul_from s (p + 2 + 1)) by (apply nul_next with c2; auto; intros ->; discriminate).
  destruct Z3 as [(j & J1 & J2) _]. pose proof (read_lt s j 0 J2) as Lj. unfold zlen in Lj.
  destruct (payload_ends l1 s (S (length s)) (p + 2) j N1 ltac:(lia) J2 ltac:(lia)) as (e1 & d1 & E1 & L1 & X1).
  destruct (payload_ends l2 s (S (length s)) (p + 2) j N2 ltac:(lia) J2 ltac:(lia)) as (e2 & d2 & E2 & L2 & X2).
  rewrite E1, E2. cbn [bind]. rewrite X1, X2. cbn [bind].
  destruct (d1 =? ch_rpar), (d2 =? ch_rpar); eexists; eexists; (split; [reflexivity|]); (split; [reflexivity|]); lia.
Qed.

Lemma suffix_ends : forall l s, forall suffix cp, nul_from s cp -> 0 <= cp -> ~ In (l 0) suffix ->
  exists o, match_suffix_in l s suffix cp = Ok o /\ match o with Some e => cp <= e | None => True end.
Proof.
  intros l s. induction suffix as [|x t IH]; intros cp Z0 Hc N; cbn [match_suffix_in].
  - exists (Some cp). split; [reflexivity|lia].
  - pose proof Z0 as [(j & J1 & J2) _]. destruct (read_in s cp) as [c Ec]; [pose proof (read_lt s j 0 J2); lia|].
    rewrite Ec. cbn [bind]. destruct (Z.eqb_spec (l c) x) as [e|e]; [|exists None; auto].
    destruct (IH (cp + 1)) as (o & O1 & O2); [|lia| |exists o; split; [exact O1|]; destruct o; auto; lia].
    + apply nul_next with c; auto. intros ->. apply N. left. congruence.
    + intros C. apply N. right. exact C.
Qed.

Lemma eat_inf_eats : forall l1 l2 s q p c, nul_fixed l1 -> nul_fixed l2 -> q = p + 1 -> 0 <= p -> read s p = Ok c -> c = ch_i \/ c = ch_I -> nul_from s q ->
  eats (eat_inf_in l1 s q) (eat_inf_in l2 s q) (word_seen s p).
Proof.
  intros l1 l2 s p q0 c N1 N2 Hq Hq0 Rc Cc Z0. assert (Hp : 0 <= p) by lia. unfold eat_inf_in.
  destruct (read s p) as [c0|f] eqn:R0; cbn [bind]; [|left; exists f; auto].
  destruct ((c0 =? ch_n) || (c0 =? ch_N))%bool eqn:B0; [|right; left; auto].
  assert (Z1 : nul_from s (p + 1)) by (apply nul_next with c0; auto; intros ->; discriminate).
  destruct (read s (p + 1)) as [c1|f] eqn:R1; cbn [bind]; [|left; exists f; auto].
  destruct ((c1 =? ch_f) || (c1 =? ch_F))%bool eqn:B1; [|right; left; auto].
  assert (Z2 : nul_from s (p + 1 + 1)) by (apply nul_next with c1; auto; intros ->; discriminate).
  replace (p + 1 + 1) with (p + 2) in Z2 by lia.
  destruct (read s (p + 2)) as [c2|f] eqn:R2; cbn [bind]; [|left; exists f; auto].
  right. right. split; [exists c, c0, c1; replace (q0 + 2) with (p + 1) by lia; rewrite <- Hq; repeat split; auto; right; repeat split; [exact Cc|lia|lia]|].
  destruct ((c2 =? ch_i) || (c2 =? ch_I))%bool eqn:B2; [|exists 2, 2; auto with zarith].
  assert (Z3 : nul_from s (p + 2 + 1)) by (apply nul_next with c2; auto; intros ->; discriminate).
  assert (NS : forall l, nul_fixed l -> ~ In (l 0) [ch_n; ch_i; ch_t; ch_y]).
  { intros l H C. unfold nul_fixed in H. cbn in C. unfold ch_a, ch_n, ch_i, ch_t, ch_y, ch_z in *. lia. }
  destruct (suffix_ends l1 s _ _ Z3 ltac:(lia) (NS l1 N1)) as (o1 & E1 & L1). destruct (suffix_ends l2 s _ _ Z3 ltac:(lia) (NS l2 N2)) as (o2 & E2 & L2).
  rewrite E1, E2. cbn [bind]. destruct o1, o2; eexists; eexists; (split; [reflexivity|]); (split; [reflexivity|]); lia.
Qed.

(** two runs of the scanner: identical, or a word was found and only the position differs *)
Definition signed (s : list Z) : Prop := exists c, read s 0 = Ok c /\ (c = ch_minus \/ c = ch_plus).
Definition begins (s : list Z) : Prop := exists q, nul_from s q /\ word_seen s q /\ (q = 0 \/ q = 1 /\ signed s).
Definition scans (s : list Z) (a b : res pstate) : Prop :=
  (a = b /\ forall st, a = Ok st -> nul_from s (pd_pos st - 1) /\ 0 <= pd_pos st - 1) \/
  (exists st p1 p2, a = Ok (set_pos p1 st) /\ b = Ok (set_pos p2 st) /\ pd_special st <> sp_no /\ 3 < p1 /\ 3 < p2 /\ begins s).

Lemma step_zero_pos : forall st, pd_pos (step_zero st) = pd_pos st.
Proof. intros st. unfold step_zero. destruct (_ || _)%bool; reflexivity. Qed.

Lemma step_zero_sign : forall st, pd_sign_set (step_zero st) = pd_sign_set st.
Proof. intros st. unfold step_zero. destruct (_ || _)%bool; reflexivity. Qed.

Lemma step_nonzero_sign : forall k s c st st', step_nonzero k s c st = Ok st' -> pd_sign_set st' = pd_sign_set st.
Proof.
  intros k s c st st' H. unfold step_nonzero in H.
  assert (P : pd_sign_set (flush_zeros k st) = pd_sign_set st) by (unfold flush_zeros; destruct (_ && _)%bool; reflexivity).
  destruct (_ <? _); [injection H as <-; exact P|].
  destruct (negb _); [|cbn [bind] in H; injection H as <-; exact P].
  destruct (extract_fraction_digits _ _ _); cbn [bind] in H; [injection H as <-; exact P|discriminate].
Qed.

Lemma step_nonzero_pos : forall k s c st st', step_nonzero k s c st = Ok st' -> pd_pos st' = pd_pos st.
Proof.
  intros k s c st st' H. unfold step_nonzero in H.
  assert (P : pd_pos (flush_zeros k st) = pd_pos st) by (unfold flush_zeros; destruct (_ && _)%bool; reflexivity).
  destruct (_ <? _); [injection H as <-; exact P|].
  destruct (negb _); [|cbn [bind] in H; injection H as <-; exact P].
  destruct (extract_fraction_digits _ _ _); cbn [bind] in H; [injection H as <-; exact P|discriminate].
Qed.

Lemma step_scans : forall l1 l2 k s st c, nul_fixed l1 -> nul_fixed l2 -> 0 <= pd_pos st -> (pd_sign_set st = true -> signed s) -> nul_from s (pd_pos st) -> read s (pd_pos st) = Ok c ->
  (step_char_in l1 k s st c = step_char_in l2 k s st c /\
   forall st' go, step_char_in l1 k s st c = Ok (st', go) -> nul_from s (pd_pos st') /\ 0 <= pd_pos st' /\ (go = false -> nul_from s (pd_pos st' + 1) /\ (pd_sign_set st' = true -> signed s))) \/
  (exists st' p1 p2, step_char_in l1 k s st c = Ok (set_pos p1 st', true) /\ step_char_in l2 k s st c = Ok (set_pos p2 st', true) /\ pd_special st' <> sp_no /\
     3 <= p1 /\ 3 <= p2 /\ begins s).
Proof.
  intros l1 l2 k s st c N1 N2 Hp Sg Z0 R.
  assert (Z1 : c <> 0 -> nul_from s (pd_pos st + 1)) by (intros; now apply nul_next with c).
  unfold step_char_in.
  destruct (c =? ch_0) eqn:B1.
  { left. split; [reflexivity|]. intros st' go H. injection H as <- <-. rewrite step_zero_pos, step_zero_sign. apply Z.eqb_eq in B1. unfold ch_0 in B1. (split; [|split]); auto. intros _. split; [apply Z1; lia|exact Sg]. }
  destruct ((49 <=? c) && (c <=? 57))%bool eqn:B2.
  { left. split; [reflexivity|]. intros st' go H. destruct (step_nonzero k s c st) as [x|] eqn:E; cbn [bind] in H; [|discriminate].
    injection H as <- <-. rewrite (step_nonzero_pos _ _ _ _ _ E), (step_nonzero_sign _ _ _ _ _ E). (split; [|split]); auto. intros _. split; [apply Z1; lia|exact Sg]. }
  destruct (c =? ch_dot) eqn:B3.
  { left. split; [reflexivity|]. intros st' go H. injection H as <- <-. cbn [set_dot pd_pos]. apply Z.eqb_eq in B3. unfold ch_dot in B3. (split; [|split]); auto. intros _. split; [apply Z1; lia|exact Sg]. }
  destruct ((c =? ch_n) || (c =? ch_N))%bool eqn:B4.
  { assert (c <> 0) by (unfold ch_n, ch_N in B4; lia). destruct (Z.eqb_spec (pd_pos st) (b2z (pd_sign_set st))) as [Q|Q]; [|left; split; [reflexivity|]; intros st' go H0; injection H0 as <- <-; (split; [|split]); auto; discriminate].
    destruct (eat_nan_eats l1 l2 s (pd_pos st + 1) (pd_pos st) c N1 N2 eq_refl Hp R ltac:(lia) (Z1 H)) as [(f & -> & ->)|[[-> ->]|(Wd & x & y & -> & -> & X & Y)]]; cbn [bind].
    - left. split; [reflexivity|]. discriminate.
    - left. split; [reflexivity|]. cbn [Z.eqb negb]. intros st' go H0. injection H0 as <- <-. cbn [set_pos pd_pos]. split; [|split]; [apply Z1; exact H|lia|discriminate].
    - right. exists (set_special sp_nan st), (pd_pos st + (x + 1)), (pd_pos st + (y + 1)).
      destruct (Z.eqb_spec x 0), (Z.eqb_spec y 0); try lia. repeat split; try lia; [discriminate|exists (pd_pos st); split; [exact Z0|split; [exact Wd|]]; rewrite Q; destruct (pd_sign_set st); [right; split; [reflexivity|now apply Sg]|now left]]. }
  destruct ((c =? ch_i) || (c =? ch_I))%bool eqn:B5.
  { assert (c <> 0) by (unfold ch_i, ch_I in B5; lia). destruct (Z.eqb_spec (pd_pos st) (b2z (pd_sign_set st))) as [Q|Q]; [|left; split; [reflexivity|]; intros st' go H0; injection H0 as <- <-; (split; [|split]); auto; discriminate].
    destruct (eat_inf_eats l1 l2 s (pd_pos st + 1) (pd_pos st) c N1 N2 eq_refl Hp R ltac:(lia) (Z1 H)) as [(f & -> & ->)|[[-> ->]|(Wd & x & y & -> & -> & X & Y)]]; cbn [bind].
    - left. split; [reflexivity|]. discriminate.
    - left. split; [reflexivity|]. cbn [Z.eqb negb]. intros st' go H0. injection H0 as <- <-. cbn [set_pos pd_pos]. split; [|split]; [apply Z1; exact H|lia|discriminate].
    - right. exists (set_special sp_inf st), (pd_pos st + (x + 1)), (pd_pos st + (y + 1)).
      destruct (Z.eqb_spec x 0), (Z.eqb_spec y 0); try lia. repeat split; try lia; [discriminate|exists (pd_pos st); split; [exact Z0|split; [exact Wd|]]; rewrite Q; destruct (pd_sign_set st); [right; split; [reflexivity|now apply Sg]|now left]]. }
  destruct ((c =? ch_minus) || (c =? ch_plus))%bool eqn:B6.
  { assert (c <> 0) by (unfold ch_minus, ch_plus in B6; lia). left. split; [reflexivity|]. intros st' go H0. destruct (Z.eqb_spec (pd_pos st) 0) as [Q|Q]; injection H0 as <- <-; cbn [set_sign pd_pos pd_sign_set]; (split; [|split]); auto; try discriminate. intros _. split; [auto|]. intros _. exists c. rewrite <- Q. split; [exact R|lia]. }
  left. split; [reflexivity|]. intros st' go H. injection H as <- <-. (split; [|split]); auto; discriminate.
Qed.

Lemma loop_scans : forall l1 l2 k s, nul_fixed l1 -> nul_fixed l2 -> forall fuel st, 0 <= pd_pos st -> (pd_sign_set st = true -> signed s) -> nul_from s (pd_pos st) ->
  scans s (parse_loop_in l1 k s fuel st) (parse_loop_in l2 k s fuel st).
Proof.
  intros l1 l2 k s N1 N2. induction fuel as [|n IH]; intros st Hp Sg Z0; cbn [parse_loop_in]; [left; split; [reflexivity|discriminate]|].
  destruct (read s (pd_pos st)) as [c|] eqn:R; cbn [bind]; [|left; split; [reflexivity|discriminate]].
  destruct (step_scans l1 l2 k s st c N1 N2 Hp Sg Z0 R) as [[E G]|(st' & p1 & p2 & -> & -> & S & L1 & L2 & Wd)]; cbn [bind].
  - rewrite <- E. destruct (step_char_in l1 k s st c) as [[st1 go]|]; cbn [bind]; [|left; split; [reflexivity|discriminate]].
    destruct (G st1 go eq_refl) as (G1 & G2 & G3).
    destruct (go || (maximum_offset <? pd_pos st1))%bool eqn:B.
    + left. split; [reflexivity|]. intros x H. injection H as <-. cbn [set_pos pd_pos]. replace (pd_pos st1 + 1 - 1) with (pd_pos st1) by lia. auto.
    + apply Bool.orb_false_iff in B as [-> _]. destruct (G3 eq_refl). apply IH; cbn [set_pos pd_pos pd_sign_set]; [lia|auto|auto].
  - right. exists st', (p1 + 1), (p2 + 1). cbn [set_pos pd_pos orb]. split; [reflexivity|]. split; [reflexivity|]. split; [exact S|]. split; [lia|]. split; [lia|]. exact Wd.
Qed.

(** the end of a digit run with another position *)
Definition ends_at (e : Z) (dp : digit_parse_result) : digit_parse_result :=
  {| dp_value := dp_value dp; dp_K := dp_K dp; dp_str_end := e; dp_frac := dp_frac dp; dp_special := dp_special dp; dp_sign := dp_sign dp |}.

Lemma digits_scans : forall l1 l2 T s, nul_fixed l1 -> nul_fixed l2 -> nul_from s 0 ->
  (parse_digits_in l1 T s = parse_digits_in l2 T s /\ forall dp, parse_digits_in l1 T s = Ok dp -> nul_from s (dp_str_end dp) /\ 0 <= dp_str_end dp) \/
  (exists dp e1 e2, parse_digits_in l1 T s = Ok (ends_at e1 dp) /\ parse_digits_in l2 T s = Ok (ends_at e2 dp) /\ dp_special dp <> sp_no /\ 3 <= e1 /\ 3 <= e2 /\
     begins s) \/
  (exists f, parse_digits_in l1 T s = Fault f /\ parse_digits_in l2 T s = Fault f).
Proof.
  intros l1 l2 T s N1 N2 Z0. unfold parse_digits_in, digits_result.
  destruct (loop_scans l1 l2 (decimal_q T) s N1 N2 parse_fuel pstate_init ltac:(cbn; lia) ltac:(cbn; discriminate) Z0) as [[E G]|(st & p1 & p2 & -> & -> & S & L1 & L2 & Wd)]; cbn [bind].
  - rewrite <- E. destruct (parse_loop_in l1 (decimal_q T) s parse_fuel pstate_init) as [st|f]; cbn [bind]; [|right; right; exists f; auto].
    destruct (weighted_sum _ _ _ _ _) as [v|f]; cbn [bind]; [|right; right; exists f; auto].
    left. split; [reflexivity|]. intros dp H. injection H as <-. cbn [dp_str_end]. now apply G.
  - cbn [set_pos pd_digits pd_pow_gain pd_fraction_count pd_pos pd_frac pd_special pd_sign].
    destruct (weighted_sum _ _ _ _ _) as [v|f]; cbn [bind]; [|right; right; exists f; auto]. right. left.
    exists {| dp_value := v; dp_K := narrow_int (wrap 64 (pd_pow_gain st - pd_fraction_count st)); dp_str_end := 0; dp_frac := pd_frac st; dp_special := pd_special st; dp_sign := pd_sign st |}, (p1 - 1), (p2 - 1).
    cbn [ends_at dp_value dp_K dp_frac dp_special dp_sign]. repeat split; auto; lia.
Qed.

Lemma read_skip : forall s n i, 0 <= i -> read (skipn n s) i = read s (i + Z.of_nat n).
Proof.
  intros s n i Hi. unfold read. destruct (Z.ltb_spec i 0); [lia|]. destruct (Z.ltb_spec (i + Z.of_nat n) 0); [lia|].
  replace (Z.to_nat (i + Z.of_nat n)) with (n + Z.to_nat i)%nat by lia. generalize (Z.to_nat i). intros k. clear. f_equal.
  revert s. induction n as [|m IH]; intros s; [reflexivity|]. destruct s; [destruct k; reflexivity|]. cbn. apply IH.
Qed.

Lemma nul_skipn : forall s n, nul_from s (Z.of_nat n) -> nul_from (skipn n s) 0.
Proof.
  intros s n [(j & J1 & J2) _]. split; [|intros; lia]. exists (j - Z.of_nat n). split; [lia|]. rewrite read_skip by lia.
  now replace (j - Z.of_nat n + Z.of_nat n) with j by lia.
Qed.

Lemma exponent_scans : forall l1 l2 s, nul_fixed l1 -> nul_fixed l2 -> nul_from s 0 ->
  parse_exponent_in l1 s = parse_exponent_in l2 s \/
  (exists v e1 e2, parse_exponent_in l1 s = Ok (v, e1) /\ parse_exponent_in l2 s = Ok (v, e2) /\ 3 <= e1 /\ 3 <= e2 /\ exists c, read s 0 = Ok c /\ (c = ch_e \/ c = ch_E) /\ begins (skipn 1 s)).
Proof.
  intros l1 l2 s N1 N2 Z0. unfold parse_exponent_in. destruct (read s 0) as [c|] eqn:R; cbn [bind]; [|left; reflexivity].
  destruct (negb (c =? ch_e) && negb (c =? ch_E))%bool eqn:B; [left; reflexivity|].
  assert (Z1 : nul_from s (Z.of_nat 1)).
  { apply (nul_next s 0 c Z0 R). intros ->. discriminate. }
  destruct (digits_scans l1 l2 single (skipn 1 s) N1 N2 (nul_skipn s 1 Z1)) as [[-> _]|[(dp & e1 & e2 & -> & -> & _ & L1 & L2 & Wd)|(f & -> & ->)]]; [left; reflexivity| |left; reflexivity].
  cbn [bind ends_at dp_K dp_value dp_sign dp_str_end].
  destruct (seq_pow 10 exponent_decimal_digits (dp_K dp)) as [p|]; cbn [bind]; [|left; reflexivity].
  destruct (if negb (dp_sign dp) then _ else _) as [v|]; cbn [bind]; [|left; reflexivity].
  right. exists v, (1 + e1), (1 + e2). repeat split; try lia. exists c. split; [reflexivity|]. split; [lia|exact Wd].
Qed.

(** a result with another end *)
Definition with_end (e : Z) (r : krosh_result) : krosh_result :=
  {| kr_value := kr_value r; kr_str_end := e; kr_status := kr_status r; kr_is_accurate := kr_is_accurate r |}.

Definition has_word (lo : Z -> Z) (T : fmt) (s : list Z) : Prop := begins s \/
  exists dp c, parse_digits_in lo T s = Ok dp /\ dp_special dp = sp_no /\ dp_value dp <> 0 /\ read (skipn (Z.to_nat (dp_str_end dp)) s) 0 = Ok c /\ (c = ch_e \/ c = ch_E) /\
    begins (skipn 1 (skipn (Z.to_nat (dp_str_end dp)) s)).

Lemma krosh_scans : forall l1 l2 T s, nul_fixed l1 -> nul_fixed l2 -> nul_from s 0 ->
  krosh_in l1 T s = krosh_in l2 T s \/
  (exists r e1 e2, krosh_in l1 T s = Ok (with_end e1 r) /\ krosh_in l2 T s = Ok (with_end e2 r) /\ 3 <= e1 /\ 3 <= e2 /\ has_word l1 T s).
Proof.
  intros l1 l2 T s N1 N2 Z0. unfold krosh_in, parse_mantissa_in, has_word.
  destruct (digits_scans l1 l2 T s N1 N2 Z0) as [[E G]|[(dp & e1 & e2 & -> & -> & S & L1 & L2 & Wd)|(f & -> & ->)]]; [| |left; cbn [bind]; reflexivity].
  - rewrite <- E. destruct (parse_digits_in l1 T s) as [dp|] eqn:D; cbn [bind]; [|left; reflexivity].
    destruct (G dp eq_refl) as [G1 G2]. clear G E.
    assert (M : forall mp, mantissa_result T dp = Ok mp -> mp_str_end mp = dp_str_end dp /\ mp_special mp = dp_special dp /\ (mp_special mp = sp_no -> m_f (mp_value mp) <> 0 -> dp_value dp <> 0)).
    { intros mp H. unfold mantissa_result in H. destruct (dp_special dp); [|injection H as <-; repeat split; cbn; congruence|injection H as <-; repeat split; cbn; congruence].
      destruct (Z.eqb_spec (dp_value dp) 0) as [V|V]; cbn [negb] in H.
      - cbn [bind] in H. injection H as <-. repeat split. cbn. congruence.
      - destruct (normalize T _) as [w|]; cbn [bind] in H; [|discriminate]. destruct (round_mantissa T w (dp_frac dp)); cbn [bind] in H; [|discriminate]. injection H as <-. repeat split. intros _ _. exact V. }
    destruct (mantissa_result T dp) as [mp|]; cbn [bind]; [|left; reflexivity]. destruct (M mp eq_refl) as (M1 & M2 & M3). clear M. rename M1 into M.
    destruct (mp_special mp); [|left; reflexivity|left; reflexivity]. destruct (Z.eqb_spec (m_f (mp_value mp)) 0) as [V|V]; cbn [negb]; [left; reflexivity|]. specialize (M3 eq_refl V).
    assert (Zm : nul_from s (Z.of_nat (Z.to_nat (mp_str_end mp)))) by (rewrite M, Z2Nat.id by lia; exact G1).
    destruct (exponent_scans l1 l2 (skipn (Z.to_nat (mp_str_end mp)) s) N1 N2 (nul_skipn _ _ Zm)) as [->|(v & e1 & e2 & -> & -> & L1 & L2 & Wd)]; [left; reflexivity|].
    assert (Wd' : has_word l1 T s) by (right; destruct Wd as (c & W1 & W2 & W3); rewrite M in W1, W3; exists dp, c; rewrite D; repeat split; auto). clear Wd. rename Wd' into Wd. unfold has_word in Wd. rewrite D in Wd. cbn [bind]. destruct (sint (mp_K mp + v)) as [K|]; cbn [bind]; [|left; reflexivity].
    cbv zeta.
    assert (F : forall w : diy,
      let g e := (w0 <- normalize T w;; v0 <- downsample T w0;;
         Ok {| kr_value := apply_sign T (mp_sign mp) (ds_value v0); kr_str_end := mp_str_end mp + e; kr_status := ds_status v0; kr_is_accurate := ds_is_accurate v0 |}) in
      g e1 = g e2 \/ exists r x1 x2, g e1 = Ok (with_end x1 r) /\ g e2 = Ok (with_end x2 r) /\ 3 <= x1 /\ 3 <= x2 /\ (begins s \/ exists dp0 c, Ok dp = Ok dp0 /\ dp_special dp0 = sp_no /\ dp_value dp0 <> 0 /\ read (skipn (Z.to_nat (dp_str_end dp0)) s) 0 = Ok c /\ (c = ch_e \/ c = ch_E) /\ begins (skipn 1 (skipn (Z.to_nat (dp_str_end dp0)) s)))).
    { intros w g. subst g. cbv beta. destruct (normalize T w) as [w0|]; cbn [bind]; [|left; reflexivity]. destruct (downsample T w0) as [v0|]; cbn [bind]; [|left; reflexivity].
      right. exists {| kr_value := apply_sign T (mp_sign mp) (ds_value v0); kr_str_end := 0; kr_status := ds_status v0; kr_is_accurate := ds_is_accurate v0 |}, (mp_str_end mp + e1), (mp_str_end mp + e2).
      repeat split; try lia. exact Wd. }
    cbv zeta in F. destruct (negb (K =? 0)); [|apply F]. destruct (_ && _)%bool.
    + destruct (cached_power T K) as [c|]; cbn [bind]; [apply F|left; reflexivity].
    + right. destruct (negb _).
      * exists {| kr_value := 0; kr_str_end := 0; kr_status := underflow; kr_is_accurate := true |}, (mp_str_end mp + e1), (mp_str_end mp + e2).
        repeat split; try lia. exact Wd.
      * exists {| kr_value := huge_value T; kr_str_end := 0; kr_status := overflow; kr_is_accurate := true |}, (mp_str_end mp + e1), (mp_str_end mp + e2).
        repeat split; try lia. exact Wd.
  - right. cbn [bind]. unfold mantissa_result. cbn [ends_at dp_special]. destruct (dp_special dp); [congruence| |]; cbn [bind mp_special mp_sign mp_str_end dp_str_end dp_sign].
    + exists {| kr_value := apply_sign T (dp_sign dp) (qnan_bits T); kr_str_end := 0; kr_status := success; kr_is_accurate := true |}, e1, e2. repeat split; auto.
    + exists {| kr_value := apply_sign T (dp_sign dp) (inf_bits T); kr_str_end := 0; kr_status := success; kr_is_accurate := true |}, e1, e2. repeat split; auto.
Qed.
