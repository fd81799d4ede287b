(** The step programs of ReadSteps.v do what the functions of Atof.v do. *)
From Verif Require Import Machine MachineFacts BitOps StaticPow Fraction Format DiyFp KComp Chars Krosh Atof Steps ReadSteps ThreadSpec StepsFacts.
Open Scope Z_scope.

Lemma reader_bind : forall A B (p : prog A) (k : A -> prog B), reader p -> (forall a, reader (k a)) -> reader (pbind p k).
Proof. intros A B p k H HK. induction H; cbn [pbind]; [apply HK|constructor|constructor; assumption]. Qed.
Lemma reader_pure : forall A (r : res A), reader (pure r).
Proof. intros A [a|f]; constructor. Qed.
Lemma reader_L : forall i, reader (load i).
Proof. intros i. constructor. intros c. constructor. Qed.

Ltac rd := repeat first
  [ apply reader_done | apply reader_broken | apply reader_pure | apply reader_L
  | assumption
  | match goal with
    | |- reader (match ?x with _ => _ end) => destruct x
    | |- reader (if ?x then _ else _) => destruct x
    | |- reader (pbind _ _) => apply reader_bind; [|intros ?]
    | |- forall _, _ => intros ?
    end ].

Lemma reader_nan_payload : forall at_ fuel cp, reader (nan_payload_end_steps at_ fuel cp).
Proof. intros at_. induction fuel as [|n IH]; intros cp; cbn [nan_payload_end_steps]; cbv zeta; rd. apply IH. Qed.
Lemma reader_suffix : forall at_ l cp, reader (match_suffix_steps at_ l cp).
Proof. intros at_. induction l as [|x l IH]; intros cp; cbn [match_suffix_steps]; rd. apply IH. Qed.
Lemma reader_eat_nan : forall nan at_ p, reader (eat_nan_steps nan at_ p).
Proof. intros. unfold eat_nan_steps. cbv zeta. rd. apply reader_nan_payload. Qed.
Lemma reader_eat_inf : forall at_ p, reader (eat_inf_steps at_ p).
Proof. intros. unfold eat_inf_steps. cbv zeta. rd. apply reader_suffix. Qed.
Lemma reader_extract : forall at_ k p, reader (extract_loop_steps at_ p k).
Proof. intros at_. induction k as [|k IH]; intros p; cbn [extract_loop_steps]; cbv zeta; rd. apply IH. Qed.
Lemma reader_nonzero : forall k at_ c st, reader (step_nonzero_steps k at_ c st).
Proof. intros. unfold step_nonzero_steps, extract_fraction_digits_steps. cbv zeta. rd. apply reader_extract. Qed.
Lemma reader_char : forall nan k at_ st c, reader (step_char_steps nan k at_ st c).
Proof. intros. unfold step_char_steps. cbv zeta. rd; [apply reader_nonzero|apply reader_eat_nan|apply reader_eat_inf]. Qed.
Lemma reader_loop : forall nan k at_ fuel st, reader (parse_loop_steps nan k at_ fuel st).
Proof. intros nan k at_. induction fuel as [|n IH]; intros st; cbn [parse_loop_steps]; cbv zeta; rd; [apply reader_char|apply IH]. Qed.
Lemma reader_digits : forall nan T at_, reader (parse_digits_steps nan T at_).
Proof. intros. unfold parse_digits_steps. rd. apply reader_loop. Qed.
Lemma reader_mantissa : forall nan T at_, reader (parse_mantissa_steps nan T at_).
Proof. intros. unfold parse_mantissa_steps. cbv zeta. apply reader_bind; [apply reader_digits|intros dp]. destruct (dp_special dp); rd. Qed.
Lemma reader_exponent : forall nan at_, reader (parse_exponent_steps nan at_).
Proof. intros. unfold parse_exponent_steps. cbv zeta. rd. apply reader_digits. Qed.
Lemma reader_krosh : forall nan T at_, reader (krosh_steps nan T at_).
Proof.
  intros. unfold krosh_steps. apply reader_bind; [apply reader_mantissa|intros mp]. destruct (mp_special mp); [|rd..].
  destruct (negb (m_f (mp_value mp) =? 0)); [|rd]. apply reader_bind; [apply reader_exponent|intros [ev eend]]. cbv zeta. rd.
Qed.
Lemma reader_atof : forall nan T at_ we fb errno, (forall a e, reader (fb a e)) -> reader (atof_steps nan T at_ we fb errno).
Proof. intros. unfold atof_steps. apply reader_bind; [apply reader_krosh|intros cr]. rd. apply H. Qed.

Lemma gives_bind : forall A B at_ (p : prog A) (k : A -> prog B) s a b, gives at_ p s a -> gives at_ (k a) s b -> gives at_ (pbind p k) s b.
Proof. intros A B at_ p k s a b H1 H2. unfold gives in *. rewrite exec_bind, H1. exact H2. Qed.
Lemma gives_done : forall A at_ (a : A) s, gives at_ (Done a) s a.
Proof. reflexivity. Qed.
Lemma gives_pure : forall A at_ (r : res A) a s, r = Ok a -> gives at_ (pure r) s a.
Proof. intros A at_ r a s ->. reflexivity. Qed.
Lemma gives_load : forall at_ p s c, read s p = Ok c -> gives at_ (load (at_ + p)) s c.
Proof. intros at_ p s c H. unfold gives, load. cbn [exec]. replace (at_ + p - at_) with p by lia. rewrite H. reflexivity. Qed.
(** and on a longer one *)
Lemma gives_skipn : forall A at_ n (p : prog A) s r, reader p -> gives (at_ + Z.of_nat n) p (skipn n s) r -> gives at_ p s r.
Proof.
  intros A at_ n p s r H. induction H as [a|f|i k H IH]; unfold gives; cbn [exec]; intros E.
  - congruence.
  - discriminate.
  - destruct (read (skipn n s) (i - (at_ + Z.of_nat n))) as [c|] eqn:ER; cbn [bind] in E; [|discriminate].
    assert (ER' : read s (i - at_) = Ok c).
    { unfold read in ER |- *. destruct (Z.ltb_spec (i - (at_ + Z.of_nat n)) 0); [discriminate|]. destruct (Z.ltb_spec (i - at_) 0); [lia|].
      replace (Z.to_nat (i - at_)) with (n + Z.to_nat (i - (at_ + Z.of_nat n)))%nat by lia.
      destruct (nth_error (skipn n s) _) as [x|] eqn:EN; [|discriminate]. injection ER as <-.
      assert (nth_error s (n + Z.to_nat (i - (at_ + Z.of_nat n))) = Some x) as ->; [|reflexivity].
      rewrite <- EN. generalize (Z.to_nat (i - (at_ + Z.of_nat n))). clear. intros j. revert s. induction n as [|n IH]; intros s; [reflexivity|]. destruct s; cbn [skipn Nat.add nth_error]; [now destruct j|apply IH]. }
    rewrite ER'. cbn [bind]. apply IH. exact E.
Qed.

(** invert the monad of the model, build the program *)
Ltac inv H := match type of H with
  | bind ?m _ = Ok _ => let x := fresh "x" in let E := fresh "E" in destruct m as [x|] eqn:E; cbn [bind] in H; [|discriminate H]
  end.

Lemma nan_payload_gives : forall at_ s n n' cp r, nan_payload_end s n cp = Ok r -> (n <= n')%nat -> gives at_ (nan_payload_end_steps at_ n' cp) s r.
Proof.
  intros at_ s. induction n as [|n IH]; intros n' cp r H L; cbn [nan_payload_end] in H; [discriminate|]. destruct n' as [|n']; [lia|]. cbn [nan_payload_end_steps]. cbv zeta in *.
  inv H. eapply gives_bind; [apply gives_load; eassumption|]. destruct (is_nchar x); [apply IH; [exact H|lia]|]. injection H as <-. apply gives_done.
Qed.
Lemma suffix_gives : forall at_ s l cp r, match_suffix s l cp = Ok r -> gives at_ (match_suffix_steps at_ l cp) s r.
Proof.
  intros at_ s. induction l as [|x l IH]; intros cp r H; cbn [match_suffix match_suffix_steps] in *; [injection H as <-; apply gives_done|].
  inv H. eapply gives_bind; [apply gives_load; eassumption|]. destruct (tolower x0 =? x); [apply IH; exact H|injection H as <-; apply gives_done].
Qed.
Lemma eat_nan_gives : forall at_ nan s p r, eat_nan s p = Ok r -> (length s < nan)%nat -> gives at_ (eat_nan_steps nan at_ p) s r.
Proof.
  intros at_ nan s p r H L. unfold eat_nan, eat_nan_steps in *. cbv zeta in *.
  inv H. eapply gives_bind; [apply gives_load; eassumption|]. destruct ((x =? ch_a) || (x =? ch_A)); [|injection H as <-; apply gives_done].
  inv H. eapply gives_bind; [apply gives_load; eassumption|]. destruct ((x0 =? ch_n) || (x0 =? ch_N)); [|injection H as <-; apply gives_done].
  inv H. eapply gives_bind; [apply gives_load; eassumption|]. destruct (x1 =? ch_lpar); [|injection H as <-; apply gives_done].
  inv H. eapply gives_bind; [eapply nan_payload_gives; [eassumption|lia]|].
  inv H. eapply gives_bind; [apply gives_load; eassumption|]. destruct (x3 =? ch_rpar); injection H as <-; apply gives_done.
Qed.
Lemma eat_inf_gives : forall at_ s p r, eat_inf s p = Ok r -> gives at_ (eat_inf_steps at_ p) s r.
Proof.
  intros at_ s p r H. unfold eat_inf, eat_inf_steps in *. cbv zeta in *.
  inv H. eapply gives_bind; [apply gives_load; eassumption|]. destruct ((x =? ch_n) || (x =? ch_N)); [|injection H as <-; apply gives_done].
  inv H. eapply gives_bind; [apply gives_load; eassumption|]. destruct ((x0 =? ch_f) || (x0 =? ch_F)); [|injection H as <-; apply gives_done].
  inv H. eapply gives_bind; [apply gives_load; eassumption|]. destruct ((x1 =? ch_i) || (x1 =? ch_I)); [|injection H as <-; apply gives_done].
  inv H. eapply gives_bind; [eapply suffix_gives; eassumption|]. destruct x2; injection H as <-; apply gives_done.
Qed.
Lemma extract_gives : forall at_ s k p r, extract_loop s p k = Ok r -> gives at_ (extract_loop_steps at_ p k) s r.
Proof.
  intros at_ s. induction k as [|k IH]; intros p r H; cbn [extract_loop extract_loop_steps] in *; [injection H as <-; apply gives_done|]. cbv zeta in *.
  inv H. eapply gives_bind; [apply gives_load; eassumption|]. destruct ((0 <=? x - ch_0) && (x - ch_0 <=? 9)); [|injection H as <-; apply gives_done].
  inv H. eapply gives_bind; [apply IH; eassumption|]. injection H as <-. apply gives_done.
Qed.
Lemma nonzero_gives : forall at_ k s c st r, step_nonzero k s c st = Ok r -> gives at_ (step_nonzero_steps k at_ c st) s r.
Proof.
  intros at_ k s c st0 r H. unfold step_nonzero, step_nonzero_steps in *. cbv zeta in *. set (st := flush_zeros k st0) in *.
  destruct (len_z (pd_digits st) <? Z.of_nat k); [injection H as <-; apply gives_done|].
  inv H. injection H as <-. eapply gives_bind; [|apply gives_done]. destruct (negb (pd_frac_calculated st)); [|injection E as <-; apply gives_done].
  inv E. injection E as <-. eapply gives_bind; [|apply gives_done]. unfold extract_fraction_digits, extract_fraction_digits_steps in *.
  inv E0. eapply gives_bind; [apply extract_gives; eassumption|]. apply gives_pure. exact E0.
Qed.
Lemma char_gives : forall at_ nan k s st c r, step_char k s st c = Ok r -> (length s < nan)%nat -> gives at_ (step_char_steps nan k at_ st c) s r.
Proof.
  intros at_ nan k s st c r H L. unfold step_char, step_char_steps in *. cbv zeta in *.
  destruct (c =? ch_0); [injection H as <-; apply gives_done|].
  destruct ((49 <=? c) && (c <=? 57)). { inv H. injection H as <-. eapply gives_bind; [apply nonzero_gives; eassumption|apply gives_done]. }
  destruct (c =? ch_dot); [injection H as <-; apply gives_done|].
  destruct ((c =? ch_n) || (c =? ch_N)).
  { destruct (pd_pos st =? b2z (pd_sign_set st)); [|injection H as <-; apply gives_done]. inv H. injection H as <-. eapply gives_bind; [apply eat_nan_gives; eassumption|apply gives_done]. }
  destruct ((c =? ch_i) || (c =? ch_I)).
  { destruct (pd_pos st =? b2z (pd_sign_set st)); [|injection H as <-; apply gives_done]. inv H. injection H as <-. eapply gives_bind; [apply eat_inf_gives; eassumption|apply gives_done]. }
  destruct ((c =? ch_minus) || (c =? ch_plus)); [|injection H as <-; apply gives_done].
  destruct (pd_pos st =? 0); injection H as <-; apply gives_done.
Qed.
Lemma loop_gives : forall at_ nan k s fuel st r, parse_loop k s fuel st = Ok r -> (length s < nan)%nat -> gives at_ (parse_loop_steps nan k at_ fuel st) s r.
Proof.
  intros at_ nan k s. induction fuel as [|n IH]; intros st r H L; cbn [parse_loop parse_loop_steps] in *; [discriminate|].
  inv H. eapply gives_bind; [apply gives_load; eassumption|]. inv H. eapply gives_bind; [apply char_gives; eassumption|]. destruct x0 as [st1 go]. cbv zeta in *.
  destruct (go || (maximum_offset <? pd_pos st1)); [injection H as <-; apply gives_done|apply IH; assumption].
Qed.
Lemma digits_gives : forall at_ nan T s r, parse_digits T s = Ok r -> (length s < nan)%nat -> gives at_ (parse_digits_steps nan T at_) s r.
Proof.
  intros at_ nan T s r H L. unfold parse_digits, parse_digits_steps in *. inv H. eapply gives_bind; [apply loop_gives; eassumption|].
  inv H. eapply gives_bind; [apply gives_pure; reflexivity|]. injection H as <-. apply gives_done.
Qed.
Lemma mantissa_gives : forall at_ nan T s r, parse_mantissa T s = Ok r -> (length s < nan)%nat -> gives at_ (parse_mantissa_steps nan T at_) s r.
Proof.
  intros at_ nan T s r H L. unfold parse_mantissa, parse_mantissa_steps in *. inv H. eapply gives_bind; [apply digits_gives; eassumption|].
  destruct (dp_special x); [|injection H as <-; apply gives_done..]. cbv zeta in *. inv H. eapply gives_bind; [apply gives_pure; first [reflexivity|eassumption]|]. injection H as <-. apply gives_done.
Qed.
Lemma exponent_gives : forall at_ nan s r, parse_exponent s = Ok r -> (length s < nan)%nat -> gives at_ (parse_exponent_steps nan at_) s r.
Proof.
  intros at_ nan s r H L. unfold parse_exponent, parse_exponent_steps in *. inv H. eapply gives_bind; [apply gives_load; eassumption|].
  destruct (negb (x =? ch_e) && negb (x =? ch_E)); [injection H as <-; apply gives_done|].
  inv H. eapply gives_bind.
  { apply (gives_skipn _ at_ 1%nat); [apply reader_digits|]. apply digits_gives; [eassumption|]. rewrite skipn_length. lia. }
  inv H. eapply gives_bind; [apply gives_pure; first [reflexivity|eassumption]|]. cbv zeta in *. inv H. eapply gives_bind; [apply gives_pure; first [reflexivity|eassumption]|]. injection H as <-. apply gives_done.
Qed.
(** the offset is not negative *)
Lemma payload_pos : forall s n cp r, nan_payload_end s n cp = Ok r -> cp <= r.
Proof. intros s. induction n as [|n IH]; intros cp r H; cbn [nan_payload_end] in H; [discriminate|]. cbv zeta in H. inv H. destruct (is_nchar x); [apply IH in H; lia|injection H as <-; lia]. Qed.
Lemma eat_nan_pos : forall s p r, eat_nan s p = Ok r -> 0 <= r.
Proof.
  intros s p r H. unfold eat_nan in H. cbv zeta in H. inv H. destruct ((x =? ch_a) || (x =? ch_A)); [|injection H as <-; lia].
  inv H. destruct ((x0 =? ch_n) || (x0 =? ch_N)); [|injection H as <-; lia]. inv H. destruct (x1 =? ch_lpar); [|injection H as <-; lia].
  inv H. apply payload_pos in E2. inv H. destruct (x3 =? ch_rpar); injection H as <-; lia.
Qed.
Lemma suffix_pos : forall s l cp r, match_suffix s l cp = Ok (Some r) -> cp <= r.
Proof. intros s. induction l as [|x l IH]; intros cp r H; cbn [match_suffix] in H; [injection H as <-; lia|]. inv H. destruct (tolower x0 =? x); [apply IH in H; lia|discriminate]. Qed.
Lemma eat_inf_pos : forall s p r, eat_inf s p = Ok r -> 0 <= r.
Proof.
  intros s p r H. unfold eat_inf in H. cbv zeta in H. inv H. destruct ((x =? ch_n) || (x =? ch_N)); [|injection H as <-; lia].
  inv H. destruct ((x0 =? ch_f) || (x0 =? ch_F)); [|injection H as <-; lia]. inv H. destruct ((x1 =? ch_i) || (x1 =? ch_I)); [|injection H as <-; lia].
  inv H. destruct x2 as [cp|]; injection H as <-; [apply suffix_pos in E2|]; lia.
Qed.
Lemma flush_pos : forall k st, pd_pos (flush_zeros k st) = pd_pos st.
Proof. intros. unfold flush_zeros. destruct (_ && _); reflexivity. Qed.
Lemma char_pos : forall k s st c st1 go, step_char k s st c = Ok (st1, go) -> 0 <= pd_pos st -> 0 <= pd_pos st1.
Proof.
  intros k s st c st1 go H P. unfold step_char in H. cbv zeta in H.
  destruct (c =? ch_0). { injection H as <- _. unfold step_zero. destruct (_ || _); exact P. }
  destruct ((49 <=? c) && (c <=? 57)).
  { inv H. injection H as <- _. unfold step_nonzero in E. cbv zeta in E. destruct (len_z _ <? _); [injection E as <-; cbn [pd_pos]; rewrite flush_pos; exact P|].
    inv E. injection E as <-. cbn [pd_pos]. rewrite flush_pos. exact P. }
  destruct (c =? ch_dot); [injection H as <- _; exact P|].
  destruct ((c =? ch_n) || (c =? ch_N)).
  { destruct (pd_pos st =? b2z (pd_sign_set st)); [|injection H as <- _; exact P]. inv H. apply eat_nan_pos in E. injection H as <- _. destruct (negb (x =? 0)); cbn [pd_pos set_special set_pos]; lia. }
  destruct ((c =? ch_i) || (c =? ch_I)).
  { destruct (pd_pos st =? b2z (pd_sign_set st)); [|injection H as <- _; exact P]. inv H. apply eat_inf_pos in E. injection H as <- _. destruct (negb (x =? 0)); cbn [pd_pos set_special set_pos]; lia. }
  destruct ((c =? ch_minus) || (c =? ch_plus)); [|injection H as <- _; exact P].
  destruct (pd_pos st =? 0); injection H as <- _; exact P.
Qed.
Lemma loop_pos : forall k s fuel st r, parse_loop k s fuel st = Ok r -> 0 <= pd_pos st -> 1 <= pd_pos r.
Proof.
  intros k s. induction fuel as [|n IH]; intros st r H P; cbn [parse_loop] in H; [discriminate|]. inv H. inv H. destruct x0 as [st1 go]. apply char_pos in E0; [|exact P].
  cbv zeta in H. destruct (go || _); [injection H as <-; cbn [set_pos pd_pos]; lia|]. apply IH in H; [exact H|cbn [set_pos pd_pos]; lia].
Qed.
Lemma mantissa_pos : forall T s mp, parse_mantissa T s = Ok mp -> 0 <= mp_str_end mp.
Proof.
  intros T s mp H. unfold parse_mantissa in H. inv H. unfold parse_digits in E. inv E. apply loop_pos in E0; [|cbn; lia]. inv E. injection E as <-. cbn [dp_special dp_str_end] in H.
  destruct (pd_special x0); [|injection H as <-; cbn [mp_str_end]; lia..]. cbv zeta in H. inv H. injection H as <-. cbn [mp_str_end]. lia.
Qed.
Lemma krosh_gives : forall at_ nan T s r, krosh T s = Ok r -> (length s < nan)%nat -> gives at_ (krosh_steps nan T at_) s r.
Proof.
  intros at_ nan T s r H L. unfold krosh, krosh_steps in *. inv H. pose proof (mantissa_pos _ _ _ E) as P. eapply gives_bind; [apply mantissa_gives; eassumption|].
  destruct (mp_special x); [|injection H as <-; apply gives_done..].
  destruct (negb (m_f (mp_value x) =? 0)); [|injection H as <-; apply gives_done].
  inv H. eapply gives_bind.
  { replace (mp_str_end x) with (Z.of_nat (Z.to_nat (mp_str_end x))) by lia. apply (gives_skipn _ at_ (Z.to_nat (mp_str_end x))); [apply reader_exponent|]. apply exponent_gives; [eassumption|]. rewrite skipn_length. lia. }
  destruct x0 as [ev eend]. cbv zeta in *. inv H. eapply gives_bind; [apply gives_pure; first [reflexivity|eassumption]|].
  destruct (negb (x0 =? 0)); [|apply gives_pure; exact H].
  destruct ((fpow_lo T <=? x0) && (x0 <=? fpow_hi T)); [|destruct (negb (fpow_lo T <=? x0)); injection H as <-; apply gives_done].
  inv H. eapply gives_bind; [apply gives_pure; first [reflexivity|eassumption]|]. apply gives_pure. exact H.
Qed.
Theorem atof_gives : forall at_ nan T s we fbp fb errno r, atof T s we fb errno = Ok r -> (length s < nan)%nat ->
  (forall e f, fb s e = Ok f -> gives at_ (fbp at_ e) s f) -> gives at_ (atof_steps nan T at_ we fbp errno) s r.
Proof.
  intros at_ nan T s we fbp fb errno r H L F. unfold atof, atof_steps in *. inv H. eapply gives_bind; [apply krosh_gives; eassumption|].
  destruct (negb (kr_str_end x =? 0)); [|injection H as <-; apply gives_done]. destruct (kr_is_accurate x); [injection H as <-; apply gives_done|].
  inv H. injection H as <-. eapply gives_bind; [apply F; eassumption|apply gives_done].
Qed.
