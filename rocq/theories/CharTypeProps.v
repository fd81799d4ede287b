(** C107: the character type, and characters that are not ASCII. *)
From Coq Require Import ZArith Bool List Lia.
From Verif Require Import Machine MachineFacts BitOps StaticPow Fraction Format DiyFp KComp Chars Krosh Atof CharType Spec Instances.
Import ListNotations.
Open Scope Z_scope.

(** the values of a character type *)
Definition in_type (ct : chartype) (c : Z) : Prop :=
  if ct_signed ct then - 2 ^ (ct_width ct - 1) <= c < 2 ^ (ct_width ct - 1) else 0 <= c < 2 ^ ct_width ct.

(** ** the type *)
Section Type_.
Variables (ct : chartype).
Hypothesis W : 8 <= ct_width ct <= 32.
Lemma minus_0_sound : forall x, in_type ct x -> - 2 ^ 31 + 48 <= x -> exists c, minus_0 ct x = Ok c /\ ((0 <=? c) && (c <=? 9)) = ((0 <=? x - ch_0) && (x - ch_0 <=? 9)) /\ (0 <= x - ch_0 -> c = x - ch_0).
Proof.
  intros x T L. unfold minus_0, in_type, ch_0 in *. assert (P : 2 ^ 8 <= 2 ^ ct_width ct <= 2 ^ 32) by (split; apply Z.pow_le_mono_r; lia).
  destruct (ct_signed ct); cbn [negb andb] in *.
  - assert (2 ^ (ct_width ct - 1) <= 2 ^ 31) by (apply Z.pow_le_mono_r; lia). exists (x - 48). unfold sint. replace ((-2 ^ 31 <=? x - 48) && (x - 48 <? 2 ^ 31)) with true by (symmetry; apply andb_true_iff; split; [apply Z.leb_le|apply Z.ltb_lt]; lia).
    repeat split.
  - destruct (Z.leb_spec 32 (ct_width ct)) as [G|G].
    + replace (ct_width ct) with 32 in * by lia. exists (wrap 32 (x - 48)). split; [reflexivity|]. destruct (Z.le_gt_cases 48 x) as [H|H].
      * rewrite wrap_small by lia. split; [reflexivity|reflexivity].
      * split; [|lia]. unfold wrap. rewrite <- (Z.mod_add _ 1) by lia. rewrite Z.mod_small by lia. destruct (Z.leb_spec 0 (x - 48)); [lia|]. destruct (Z.leb_spec (x - 48 + 1 * 2 ^ 32) 9); [lia|]. apply andb_false_r.
    + assert (2 ^ ct_width ct <= 2 ^ 31) by (apply Z.pow_le_mono_r; lia). exists (x - 48). unfold sint. replace ((-2 ^ 31 <=? x - 48) && (x - 48 <? 2 ^ 31)) with true by (symmetry; apply andb_true_iff; split; [apply Z.leb_le|apply Z.ltb_lt]; lia). repeat split.
Qed.
Definition fine (s : list Z) : Prop := Forall (fun c => in_type ct c /\ - 2 ^ 31 + 48 <= c) s.
Lemma fine_skipn : forall n s, fine s -> fine (skipn n s).
Proof. intros n. induction n as [|n IH]; intros s F; [exact F|]. destruct F as [|c s F1 F]; [exact (Forall_nil _)|]. now apply IH. Qed.
Lemma extract_same : forall s k p, fine s -> extract_loop_ct ct s p k = extract_loop s p k.
Proof.
  intros s k. induction k as [|k IH]; intros p F; cbn [extract_loop_ct extract_loop]; [reflexivity|]. destruct (read s p) as [x|] eqn:E; cbn [bind]; [|reflexivity].
  assert (I : In x s). { unfold read in E. destruct (p <? 0); [discriminate|]. destruct (nth_error s (Z.to_nat p)) eqn:E2; [|discriminate]. injection E as ->. eapply nth_error_In, E2. }
  unfold fine in F. rewrite Forall_forall in F. destruct (F x I) as [F1 F2]. destruct (minus_0_sound x F1 F2) as (c & -> & H1 & H2). cbn [bind]. cbv zeta. rewrite H1.
  destruct ((0 <=? x - ch_0) && _) eqn:G; [|reflexivity]. rewrite IH by (apply Forall_forall; exact F). apply andb_true_iff in G as [G _]. apply Z.leb_le in G. rewrite (H2 G). reflexivity.
Qed.
Lemma step_char_ct_same : forall k s st c, fine s -> step_char_ct ct k s st c = step_char k s st c.
Proof.
  intros k s st c F. unfold step_char_ct, step_char, step_nonzero_ct, step_nonzero, extract_fraction_digits_ct, extract_fraction_digits. rewrite extract_same by exact F. reflexivity.
Qed.
Lemma parse_loop_ct_same : forall k s fuel st, fine s -> parse_loop_ct ct k s fuel st = parse_loop k s fuel st.
Proof.
  intros k s. induction fuel as [|n IH]; intros st F; cbn [parse_loop_ct parse_loop]; [reflexivity|]. destruct (read s (pd_pos st)); cbn [bind]; [|reflexivity]. rewrite step_char_ct_same by exact F.
  destruct (step_char _ _ _ _) as [[st1 go]|]; cbn [bind]; [|reflexivity]. cbv zeta. destruct (_ || _); [reflexivity|now apply IH].
Qed.
Lemma parse_digits_ct_same : forall T s, fine s -> parse_digits_ct ct T s = parse_digits T s.
Proof. intros T s F. unfold parse_digits_ct, parse_digits. rewrite parse_loop_ct_same by exact F. reflexivity. Qed.
Lemma krosh_ct_same : forall T s, fine s -> krosh_ct ct T s = krosh T s.
Proof.
  intros T s F. unfold krosh_ct, krosh, parse_mantissa_ct, parse_mantissa, parse_exponent_ct, parse_exponent. rewrite parse_digits_ct_same by exact F.
  destruct (parse_digits T s) as [dp|]; cbn [bind]; [|reflexivity].
  match goal with |- (mp <- ?m ;; _) = _ => destruct m as [mp|] end; cbn [bind]; [|reflexivity]. destruct (mp_special mp); [|reflexivity|reflexivity]. destruct (negb _); [|reflexivity].
  rewrite parse_digits_ct_same by (apply fine_skipn, fine_skipn, F). reflexivity.
Qed.
End Type_.

(** C107: parsing gives the same for every character type *)
Theorem C107_types : forall ct t s want_end fb errno, 8 <= ct_width ct <= 32 -> Forall (fun c => in_type ct c /\ - 2 ^ 31 + 48 <= c) s ->
  atof_ct ct (fmt_of t) s want_end fb errno = atof (fmt_of t) s want_end fb errno.
Proof. intros ct t s we fb errno W F. unfold atof_ct, atof. rewrite (krosh_ct_same ct W) by exact F. reflexivity. Qed.
Theorem C107_types_string : forall ct t s fb errno, 8 <= ct_width ct <= 32 -> Forall (fun c => in_type ct c /\ - 2 ^ 31 + 48 <= c) s ->
  from_string_ct ct (fmt_of t) s fb errno = from_string (fmt_of t) s fb errno.
Proof.
  intros ct t s fb errno W F. unfold from_string_ct, from_string. apply C107_types; [exact W|]. apply Forall_app. split; [exact F|]. constructor; [|constructor].
  unfold in_type. assert (0 < 2 ^ (ct_width ct - 1)) by (apply Z.pow_pos_nonneg; lia). assert (0 < 2 ^ ct_width ct) by (apply Z.pow_pos_nonneg; lia). destruct (ct_signed ct); lia.
Qed.

(** ** other characters *)
Section Other.
Variable f : Z -> Z.
Hypothesis F1 : forall c, 0 <= c < 128 -> f c = c.
Hypothesis F2 : forall c, ~ (0 <= c < 128) -> ~ (0 <= f c < 128).
Lemma f_eqb : forall c x, 0 <= x < 128 -> (f c =? x) = (c =? x).
Proof.
  intros c x X. destruct (Z_le_gt_dec 0 c) as [A|A]; [destruct (Z_lt_ge_dec c 128) as [B|B]; [rewrite F1 by lia; reflexivity|]|];
    (assert (G : ~ (0 <= f c < 128)) by (apply F2; lia); destruct (Z.eqb_spec (f c) x); destruct (Z.eqb_spec c x); try reflexivity; lia).
Qed.
Lemma f_between : forall c x y, 0 <= x -> y < 128 -> (x <=? f c) && (f c <=? y) = (x <=? c) && (c <=? y).
Proof.
  intros c x y X Y. destruct (Z_le_gt_dec 0 c) as [A|A]; [destruct (Z_lt_ge_dec c 128) as [B|B]; [rewrite F1 by lia; reflexivity|]|];
    (assert (G : ~ (0 <= f c < 128)) by (apply F2; lia); destruct (Z.leb_spec x (f c)); destruct (Z.leb_spec (f c) y); destruct (Z.leb_spec x c); destruct (Z.leb_spec c y); cbn [andb]; try reflexivity; lia).
Qed.
Lemma f_lower : forall c, tolower (f c) = f (tolower c).
Proof.
  intros c. unfold tolower. rewrite f_between by lia. destruct (Z.leb_spec 65 c); destruct (Z.leb_spec c 90); cbn [andb]; try reflexivity. rewrite !F1 by lia. reflexivity.
Qed.
Lemma f_nchar : forall c, is_nchar (f c) = is_nchar c.
Proof. intros c. unfold is_nchar, ch_0, ch_9, ch_a, ch_z, ch_under. rewrite f_lower, !f_between, f_eqb by lia. reflexivity. Qed.
Lemma f_read : forall s p, read (map f s) p = (c <- read s p ;; Ok (f c)).
Proof. intros s p. unfold read. destruct (p <? 0); [reflexivity|]. rewrite nth_error_map. destruct (nth_error s (Z.to_nat p)); reflexivity. Qed.
Ltac fr s p := rewrite (f_read s p); destruct (read s p) as [?c|]; cbn [bind]; [|reflexivity].
Ltac asc := split; [vm_compute; discriminate|vm_compute; reflexivity].
Ltac fe := rewrite ?f_eqb by asc.
Lemma f_payload : forall s n cp, nan_payload_end (map f s) n cp = nan_payload_end s n cp.
Proof. intros s. induction n as [|n IH]; intros cp; cbn [nan_payload_end]; [reflexivity|]. cbv zeta. fr s (cp + 1). rewrite f_nchar. destruct (is_nchar c); [apply IH|reflexivity]. Qed.
Lemma f_eat_nan : forall s p, eat_nan (map f s) p = eat_nan s p.
Proof.
  intros s p. unfold eat_nan. cbv zeta. fr s p. fe. destruct (_ || _); [|reflexivity]. fr s (p + 1). fe. destruct (_ || _); [|reflexivity]. fr s (p + 2). fe. destruct (_ =? _); [|reflexivity].
  rewrite map_length, f_payload. destruct (nan_payload_end _ _ _) as [cp|]; cbn [bind]; [|reflexivity]. fr s cp. fe. reflexivity.
Qed.
Lemma f_suffix : forall s l cp, Forall (fun x => 0 <= x < 128) l -> match_suffix (map f s) l cp = match_suffix s l cp.
Proof. intros s l cp FL. revert cp. induction FL as [|x l X FL IH]; intros cp; cbn [match_suffix]; [reflexivity|]. fr s cp. rewrite f_lower, f_eqb by exact X. destruct (_ =? _); [apply IH|reflexivity]. Qed.
Lemma f_eat_inf : forall s p, eat_inf (map f s) p = eat_inf s p.
Proof.
  intros s p. unfold eat_inf. cbv zeta. fr s p. fe. destruct (_ || _); [|reflexivity]. fr s (p + 1). fe. destruct (_ || _); [|reflexivity]. fr s (p + 2). fe. destruct (_ || _); [|reflexivity].
  rewrite f_suffix by (repeat constructor; vm_compute; congruence). reflexivity.
Qed.
Lemma f_extract : forall s k p, extract_loop (map f s) p k = extract_loop s p k.
Proof.
  intros s. induction k as [|k IH]; intros p; cbn [extract_loop]; [reflexivity|]. cbv zeta. fr s p.
  assert (E : (0 <=? f c - ch_0) && (f c - ch_0 <=? 9) = (ch_0 <=? f c) && (f c <=? ch_0 + 9)) by (unfold ch_0; f_equal; [destruct (Z.leb_spec 0 (f c - 48)); destruct (Z.leb_spec 48 (f c)); lia|destruct (Z.leb_spec (f c - 48) 9); destruct (Z.leb_spec (f c) (48 + 9)); lia]).
  assert (E' : (0 <=? c - ch_0) && (c - ch_0 <=? 9) = (ch_0 <=? c) && (c <=? ch_0 + 9)) by (unfold ch_0; f_equal; [destruct (Z.leb_spec 0 (c - 48)); destruct (Z.leb_spec 48 c); lia|destruct (Z.leb_spec (c - 48) 9); destruct (Z.leb_spec c (48 + 9)); lia]).
  rewrite E, E', f_between by (vm_compute; congruence). clear E E'. destruct ((ch_0 <=? c) && (c <=? ch_0 + 9)) eqn:G; [|reflexivity]. rewrite IH. apply andb_true_iff in G as [G1 G2]. apply Z.leb_le in G1, G2. unfold ch_0 in *. rewrite F1 by lia. reflexivity.
Qed.
Lemma f_nonzero : forall k s c st, 49 <= c <= 57 -> step_nonzero k (map f s) (f c) st = step_nonzero k s c st.
Proof. intros k s c st C. rewrite F1 by lia. unfold step_nonzero, extract_fraction_digits. rewrite f_extract. reflexivity. Qed.
Lemma f_char : forall k s st c, step_char k (map f s) st (f c) = step_char k s st c.
Proof.
  intros k s st c. unfold step_char. fe. rewrite f_between by lia. rewrite f_eat_nan, f_eat_inf. destruct (c =? ch_0); [reflexivity|].
  destruct (Z.leb_spec 49 c); destruct (Z.leb_spec c 57); cbn [andb]; try (rewrite f_nonzero by lia; reflexivity);
  (destruct (c =? ch_dot); [reflexivity|]; destruct (_ || _); [reflexivity|]; destruct (_ || _); [reflexivity|]; destruct ((c =? ch_minus) || (c =? ch_plus)) eqn:G; [|reflexivity];
   apply orb_true_iff in G as [G|G]; apply Z.eqb_eq in G; rewrite (F1 c) by (subst c; asc); reflexivity).
Qed.
Lemma f_loop : forall k s fuel st, parse_loop k (map f s) fuel st = parse_loop k s fuel st.
Proof.
  intros k s. induction fuel as [|n IH]; intros st; cbn [parse_loop]; [reflexivity|]. fr s (pd_pos st). rewrite f_char. destruct (step_char _ _ _ _) as [[st1 go]|]; cbn [bind]; [|reflexivity]. cbv zeta.
  destruct (_ || _); [reflexivity|apply IH].
Qed.
Lemma f_digits : forall T s, parse_digits T (map f s) = parse_digits T s.
Proof. intros T s. unfold parse_digits. rewrite f_loop. reflexivity. Qed.
Lemma f_exponent : forall s, parse_exponent (map f s) = parse_exponent s.
Proof. intros s. unfold parse_exponent. fr s 0. fe. destruct (_ && _); [reflexivity|]. rewrite skipn_map, f_digits. reflexivity. Qed.
Lemma f_krosh : forall T s, krosh T (map f s) = krosh T s.
Proof.
  intros T s. unfold krosh, parse_mantissa. rewrite f_digits. destruct (parse_digits T s) as [dp|]; cbn [bind]; [|reflexivity].
  match goal with |- (mp <- ?m ;; _) = _ => destruct m as [mp|] end; cbn [bind]; [|reflexivity]. destruct (mp_special mp); [|reflexivity|reflexivity]. destruct (negb _); [|reflexivity].
  rewrite skipn_map, f_exponent. reflexivity.
Qed.
End Other.
(** C107: all characters that are not ASCII are the same to the parser *)
Theorem C107_other_characters : forall f t s want_end fb errno,
  (forall c, 0 <= c < 128 -> f c = c) -> (forall c, ~ (0 <= c < 128) -> ~ (0 <= f c < 128)) -> (forall e, fb (map f s) e = fb s e) ->
  atof (fmt_of t) (map f s) want_end fb errno = atof (fmt_of t) s want_end fb errno.
Proof. intros f t s we fb errno F1 F2 FB. unfold atof. rewrite (f_krosh f F1 F2), FB. reflexivity. Qed.
