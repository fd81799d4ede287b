(** C106: how often printing and parsing access memory. *)
From Coq Require Import ZArith Bool List Lia.
From Verif Require Import Machine MachineFacts BitOps StaticPow Fraction Format DiyFp KComp Chars Krosh Atof Steps ReadSteps Spec Api Instances ThreadSpec StepsFacts ReadStepsFacts Threads.
Import ListNotations.
Open Scope Z_scope.

(** ** counting *)
(** the number of loads of a program that only loads, and its result *)
Fixpoint run {A} (at_ : Z) (p : prog A) (s : list Z) : Z * option A :=
  match p with
  | Done a => (0, Some a)
  | Broken _ => (0, None)
  | Load i k => match read s (i - at_) with Ok x => let r := run at_ (k x) s in (1 + fst r, snd r) | Fault _ => (0, None) end
  | Store _ _ _ => (0, None)
  end.
Definition H {A} (at_ : Z) (s : list Z) (p : prog A) (Q : Z -> option A -> Prop) : Prop := Q (fst (run at_ p s)) (snd (run at_ p s)).

Lemma run_cost : forall A at_ (p : prog A) s, reader p -> Z.of_nat (cost at_ p s) = fst (run at_ p s) /\ match exec at_ p s with Ok (b, a) => b = s /\ snd (run at_ p s) = Some a | Fault _ => snd (run at_ p s) = None end.
Proof.
  intros A at_ p s R. induction R as [a|f|i k R IH]; cbn [cost run exec fst snd]; [split; [reflexivity|split; reflexivity]|split; reflexivity|].
  destruct (read s (i - at_)) as [x|]; cbn [bind fst snd]; [|split; reflexivity]. destruct (IH x) as [I1 I2]. split; [lia|exact I2].
Qed.
Lemma run_bind : forall A B at_ (p : prog A) (k : A -> prog B) s, run at_ (pbind p k) s = match snd (run at_ p s) with Some a => (fst (run at_ p s) + fst (run at_ (k a) s), snd (run at_ (k a) s)) | None => (fst (run at_ p s), None) end.
Proof.
  intros A B at_ p k s. induction p as [a|f|i g IH|i c q IH]; cbn [pbind run fst snd]; try reflexivity.
  - destruct (run at_ (k a) s); reflexivity.
  - destruct (read s (i - at_)) as [x|]; cbn [fst snd]; [|reflexivity]. rewrite IH. destruct (snd (run at_ (g x) s)); cbn [fst snd]; [|reflexivity]. rewrite Z.add_assoc. reflexivity.
Qed.
Lemma H_bind : forall A B at_ s (p : prog A) (k : A -> prog B) (Q : Z -> option B -> Prop),
  H at_ s p (fun n r => match r with Some a => H at_ s (k a) (fun m r' => Q (n + m) r') | None => Q n None end) -> H at_ s (pbind p k) Q.
Proof. intros A B at_ s p k Q. unfold H. rewrite run_bind. destruct (snd (run at_ p s)); cbn [fst snd]; exact (fun x => x). Qed.
Lemma H_done : forall A at_ s (a : A) (Q : Z -> option A -> Prop), Q 0 (Some a) -> H at_ s (Done a) Q.
Proof. intros. exact H0. Qed.
Lemma H_pure : forall A at_ s (x : res A) (Q : Z -> option A -> Prop), (forall a, x = Ok a -> Q 0 (Some a)) -> Q 0 None -> H at_ s (pure x) Q.
Proof. intros A at_ s [a|f] Q H1 H2; [apply H1; reflexivity|exact H2]. Qed.
Lemma H_load : forall base off s p (Q : Z -> option Z -> Prop), (forall c, In c s -> p < Z.of_nat (length s) - off -> Q 1 (Some c)) -> Q 0 None -> H base s (load (base + off + p)) Q.
Proof.
  intros base off s p Q H1 H2. unfold H, load. cbn [run]. replace (base + off + p - base) with (off + p) by lia. destruct (read s (off + p)) as [c|] eqn:E; cbn [run fst snd]; [|exact H2].
  unfold read in E. destruct (Z.ltb_spec (off + p) 0); [discriminate|]. destruct (nth_error s (Z.to_nat (off + p))) as [y|] eqn:E2; [|discriminate]. injection E as ->.
  assert (Z.to_nat (off + p) < length s)%nat by (apply nth_error_Some; congruence). apply H1; [eapply nth_error_In, E2|lia].
Qed.
Lemma H_mono : forall A at_ s (p : prog A) (Q Q' : Z -> option A -> Prop), H at_ s p Q -> (forall n r, Q n r -> Q' n r) -> H at_ s p Q'.
Proof. intros A at_ s p Q Q' H1 H2. apply H2, H1. Qed.
Ltac hl := apply H_bind; apply H_load; [let c := fresh "c" in let E := fresh "E" in let L := fresh "L" in intros c E L|try lia].
Ltac hb l := apply H_bind; eapply H_mono; [apply l|].

(** ** parsing *)
Section Reads.
Variables (base off : Z) (s : list Z).
Local Notation at_ := (base + off).
Local Notation Len := (Z.of_nat (length s) - off).

Lemma payload_cost : forall fuel cp, 0 <= cp -> H base s (nan_payload_end_steps at_ fuel cp) (fun n r => 0 <= n <= Z.max 0 (Len - cp - 1) /\ match r with Some cp' => cp < cp' | None => True end).
Proof.
  induction fuel as [|fuel IH]; intros cp P; cbn [nan_payload_end_steps]; cbv zeta; [unfold H; cbn; lia|].
  hl. destruct (is_nchar c); [|apply H_done; lia]. eapply H_mono; [apply IH; lia|]. cbv beta. intros n r B. destruct r; lia.
Qed.
Lemma suffix_cost : forall l cp, H base s (match_suffix_steps at_ l cp) (fun n r => 0 <= n <= Z.of_nat (length l) /\ n <= Z.max 0 (Len - cp) /\ match r with Some (Some cp') => cp <= cp' | _ => True end).
Proof.
  induction l as [|x l IH]; intros cp; cbn [match_suffix_steps]; [apply H_done; cbn; lia|]. hl; [|cbn [length]; lia..].
  destruct (tolower c =? x); [|apply H_done; cbn [length]; lia]. eapply H_mono; [apply IH|]. cbv beta. cbn [length]. intros n [[cp'|]|] B; lia.
Qed.
Lemma eat_nan_cost : forall nan p, 0 <= p -> H base s (eat_nan_steps nan at_ p) (fun n r => 0 <= n <= Z.max 0 (Len - p) + 1 /\ (r = Some 0 -> n <= 2) /\ (~ In ch_lpar s -> n <= 3)).
Proof.
  intros nan p P. unfold eat_nan_steps. cbv zeta. idtac.
  hl. destruct ((c =? ch_a) || (c =? ch_A)); [|apply H_done; lia].
  hl. destruct ((c0 =? ch_n) || (c0 =? ch_N)); [|apply H_done; lia].
  hl. destruct (Z.eqb_spec c1 ch_lpar) as [->|]; [|apply H_done; repeat split; try lia; discriminate].
  assert (I : In ch_lpar s) by assumption.
  hb payload_cost; [lia|]. cbv beta. intros n [cp|] [B C]; [|repeat split; try lia; try discriminate; tauto].
  hl; [|repeat split; try lia; try discriminate; tauto..].
  destruct (c1 =? ch_rpar); apply H_done; repeat split; try lia; try tauto; intros X; injection X as X; lia.
Qed.
Lemma eat_inf_cost : forall p, 0 <= p -> H base s (eat_inf_steps at_ p) (fun n r => 0 <= n <= Z.max 0 (Len - p) /\ n <= 7 /\ (r = Some 0 -> n <= 2)).
Proof.
  intros p P. unfold eat_inf_steps. cbv zeta. idtac.
  hl. destruct ((c =? ch_n) || (c =? ch_N)); [|apply H_done; lia].
  hl. destruct ((c0 =? ch_f) || (c0 =? ch_F)); [|apply H_done; lia].
  hl. destruct ((c1 =? ch_i) || (c1 =? ch_I)); [|apply H_done; repeat split; try lia; discriminate].
  hb suffix_cost. cbv beta. cbn [length]. intros n [[cp|]|] B.
  - apply H_done. repeat split; try lia. intros X. injection X as X. lia.
  - apply H_done. repeat split; try lia; discriminate.
  - repeat split; try lia; discriminate.
Qed.
Lemma extract_cost : forall k p, H base s (extract_loop_steps at_ p k) (fun n r => 0 <= n <= Z.of_nat k).
Proof.
  induction k as [|k IH]; intros p; cbn [extract_loop_steps]; cbv zeta; [apply H_done; cbn; lia|]. hl. destruct (_ && _); [|apply H_done; lia].
  hb IH. cbv beta. intros n [t|] B; [apply H_done|]; lia.
Qed.

(** more digits than characters there cannot be *)
Definition few (st : pstate) : Prop := 0 <= pd_zeros st /\ len_z (pd_digits st) + pd_zeros st <= pd_pos st /\ (pd_frac_calculated st = true -> 2 <= pd_pos st).
Definition extra (st : pstate) : Z := if pd_frac_calculated st then 0 else 4.
Lemma flush_few : forall k st, few st -> pd_pos st <= 2049 -> few (flush_zeros k st) /\ pd_pos (flush_zeros k st) = pd_pos st /\ pd_frac_calculated (flush_zeros k st) = pd_frac_calculated st.
Proof.
  intros k st (F1 & F2 & F3) P. unfold flush_zeros. destruct (_ && _) eqn:C; [|repeat split; assumption].
  apply andb_true_iff in C as [_ C]. apply Z.ltb_lt in C. cbv zeta. unfold few, len_z in *. cbn [pd_digits pd_zeros pd_pos pd_frac_calculated].
  destruct (pd_digits st) as [|d ds] eqn:D; cbn [negb length] in *.
  - rewrite Z.sub_diag. change (wrap 64 0) with 0. repeat split; try assumption; cbn; lia.
  - rewrite (wrap_small 64) by lia. rewrite app_length, repeat_length. cbn [length]. repeat split; try assumption; lia.
Qed.
Lemma nonzero_cost : forall k c st, (2 <= k)%nat -> few st -> 0 <= pd_pos st <= 2049 ->
  H base s (step_nonzero_steps k at_ c st) (fun n r => 0 <= n <= extra st /\ match r with Some st' => few (set_pos (pd_pos st + 1) st') /\ pd_pos st' = pd_pos st /\ n + extra st' <= extra st | None => True end).
Proof.
  intros k c st K F P. unfold step_nonzero_steps. destruct (flush_few k st F ltac:(lia)) as ((G1 & G2 & G3) & G4 & G5). set (st0 := flush_zeros k st) in *. cbv zeta.
  assert (X : 0 <= extra st) by (unfold extra; destruct (pd_frac_calculated st); lia).
  destruct (Z.ltb_spec (len_z (pd_digits st0)) (Z.of_nat k)) as [C|C].
  - apply H_done. unfold few, extra, len_z in *. cbn [set_pos pd_digits pd_zeros pd_pos pd_frac_calculated]. rewrite app_length. cbn [length]. rewrite G5. repeat split; try lia; intros; specialize (F); destruct F as (_ & _ & F3); rewrite ?G5 in *; try lia.
    specialize (F3 H0). lia.
  - assert (N : 2 <= pd_pos st) by (unfold len_z in *; lia).
    assert (Y : forall n f, 0 <= n <= extra st -> (0 <= n <= extra st) /\ (few (set_pos (pd_pos st + 1) {| pd_digits := pd_digits st0; pd_dot_set := pd_dot_set st0; pd_sign_set := pd_sign_set st0; pd_frac_calculated := true;
          pd_pow_gain := wrap 64 (pd_pow_gain st0 + b2z (negb (pd_dot_set st0))); pd_zeros := pd_zeros st0; pd_fraction_count := pd_fraction_count st0; pd_frac := f; pd_special := pd_special st0; pd_sign := pd_sign st0; pd_pos := pd_pos st0 |}) /\ pd_pos st0 = pd_pos st /\ n + 0 <= extra st)).
    { intros n f B. split; [exact B|]. unfold few, len_z in *. cbn [set_pos pd_digits pd_zeros pd_pos pd_frac_calculated]. repeat split; try lia. }
    apply H_bind. destruct (negb (pd_frac_calculated st0)) eqn:Z0.
    + apply H_bind. unfold extract_fraction_digits_steps. apply H_bind. eapply H_mono; [apply extract_cost|]. cbv beta. intros n [ds|] B.
      * assert (E4 : extra st = 4) by (unfold extra; rewrite <- G5; destruct (pd_frac_calculated st0); [discriminate|reflexivity]). change (Z.of_nat fraction_decimal_digits) with 4 in B.
        apply H_pure; [intros a _|split; [lia|exact I]]. apply H_done. apply H_done. apply Y. lia.
      * assert (E4 : extra st = 4) by (unfold extra; rewrite <- G5; destruct (pd_frac_calculated st0); [discriminate|reflexivity]). change (Z.of_nat fraction_decimal_digits) with 4 in B. split; [lia|exact I].
    + apply H_done. apply H_done. apply Y. lia.
Qed.

(** the loop: never beyond the end and at most 4 characters twice; without parentheses at most 2050 and these *)
Lemma loop_cost : forall nan k fuel st, (2 <= k)%nat -> few st -> 0 <= pd_pos st <= 2049 ->
  H base s (parse_loop_steps nan k at_ fuel st) (fun n r => 0 <= n <= Z.max 0 (Len - pd_pos st) + extra st /\
    (~ In ch_lpar s -> n <= 2050 - pd_pos st + extra st) /\
    match r with Some st' => pd_special st' = sp_no -> n <= pd_pos st' - pd_pos st + extra st /\ pd_pos st' <= 2051 | None => True end).
Proof.
  intros nan k. induction fuel as [|fuel IH]; intros st K F P; cbn [parse_loop_steps]; assert (X : 0 <= extra st <= 4) by (unfold extra; destruct (pd_frac_calculated st); lia); [unfold H; cbn [run fst snd]; repeat split; lia|].
  hl. apply H_bind.
  assert (GO : forall n st1, few (set_pos (pd_pos st + 1) st1) -> pd_pos st1 = pd_pos st -> 0 <= n -> n + extra st1 <= extra st ->
    H base s (if false || (maximum_offset <? pd_pos st1) then Done (set_pos (pd_pos st1 + 1) st1) else parse_loop_steps nan k at_ fuel (set_pos (pd_pos st1 + 1) st1))
     (fun m r' => 0 <= 1 + (n + m) <= Z.max 0 (Len - pd_pos st) + extra st /\ (~ In ch_lpar s -> 1 + (n + m) <= 2050 - pd_pos st + extra st) /\
        match r' with Some st' => pd_special st' = sp_no -> 1 + (n + m) <= pd_pos st' - pd_pos st + extra st /\ pd_pos st' <= 2051 | None => True end)).
  { intros n st1 F1 P1 N1 N2. rewrite P1. cbn [orb]. assert (X1 : 0 <= extra st1) by (unfold extra; destruct (pd_frac_calculated st1); lia).
    destruct (Z.ltb_spec maximum_offset (pd_pos st)) as [G|G]; unfold maximum_offset in G.
    - apply H_done. cbn [set_pos pd_pos]. repeat split; lia.
    - eapply H_mono; [apply IH; [exact K|exact F1|cbn [set_pos pd_pos]; lia]|]. cbv beta. assert (E1 : extra (set_pos (pd_pos st + 1) st1) = extra st1) by reflexivity. rewrite E1. cbn [set_pos pd_pos].
      intros m r (B1 & B2 & B3). split; [lia|]. split; [intros NP; specialize (B2 NP); lia|]. destruct r as [st'|]; [|exact I]. intros SP. specialize (B3 SP). lia. }
  assert (END : forall n st1, 0 <= n -> n <= Z.max 0 (Len - pd_pos st) - 1 + extra st -> (~ In ch_lpar s -> n <= 2049 - pd_pos st + extra st) -> (pd_special st1 = sp_no -> n <= pd_pos st1 - pd_pos st + extra st /\ pd_pos st1 <= 2050) ->
    H base s (if true || (maximum_offset <? pd_pos st1) then Done (set_pos (pd_pos st1 + 1) st1) else parse_loop_steps nan k at_ fuel (set_pos (pd_pos st1 + 1) st1))
     (fun m r' => 0 <= 1 + (n + m) <= Z.max 0 (Len - pd_pos st) + extra st /\ (~ In ch_lpar s -> 1 + (n + m) <= 2050 - pd_pos st + extra st) /\
        match r' with Some st' => pd_special st' = sp_no -> 1 + (n + m) <= pd_pos st' - pd_pos st + extra st /\ pd_pos st' <= 2051 | None => True end)).
  { intros n st1 N1 N2 N3 N4. cbn [orb]. apply H_done. cbn [set_pos pd_pos pd_special]. split; [lia|]. split; [intros NP; specialize (N3 NP); lia|]. intros SP. specialize (N4 SP). lia. }
  assert (F' : few (set_pos (pd_pos st + 1) st)) by (destruct F as (F1 & F2 & F3); unfold few; cbn [set_pos pd_digits pd_zeros pd_pos pd_frac_calculated]; repeat split; [exact F1|lia|intros C; specialize (F3 C); lia]).
  unfold step_char_steps. cbv zeta.
  destruct (c =? ch_0).
  { apply H_done. apply (GO 0); [|unfold step_zero; destruct (_ || _); reflexivity|lia|unfold step_zero; destruct (_ || _); unfold extra; cbn [pd_frac_calculated]; lia].
    unfold step_zero. destruct (_ || _); [|exact F']. destruct F' as (F1 & F2 & F3). destruct F as (F4 & F5 & F6). unfold few, len_z in *. cbn [set_pos pd_digits pd_zeros pd_pos pd_frac_calculated] in *. rewrite (wrap_small 64) by lia. repeat split; [lia|lia|exact F3]. }
  destruct ((49 <=? c) && (c <=? 57)).
  { apply H_bind. eapply H_mono; [apply nonzero_cost; assumption|]. cbv beta. intros n [st1|] [B1 B2]; [|repeat split; try lia; intros; lia]. destruct B2 as (B2 & B3 & B4). apply H_done.
    apply (H_mono _ base s _ _ _ (GO n st1 B2 B3 ltac:(lia) B4)). intros m r. rewrite Z.add_0_r. exact (fun x => x). }
  destruct (c =? ch_dot).
  { apply H_done. destruct (pd_dot_set st); [apply (END 0); cbn [set_dot pd_pos pd_special]; try lia|apply (GO 0); try lia; [exact F'|reflexivity|unfold extra; cbn [set_dot pd_frac_calculated]; lia]]. }
  assert (EZ : pd_pos st = b2z (pd_sign_set st) -> extra st = 4 /\ pd_pos st <= 1).
  { intros E1. destruct F as (_ & _ & F3). unfold extra. destruct (pd_frac_calculated st); destruct (pd_sign_set st); cbn [b2z] in E1; try specialize (F3 eq_refl); lia. }
  destruct ((c =? ch_n) || (c =? ch_N)).
  { destruct (Z.eqb_spec (pd_pos st) (b2z (pd_sign_set st))) as [E1|]; [|apply H_done; apply (END 0); lia]. destruct (EZ E1) as [X4 P1].
    apply H_bind. eapply H_mono; [apply eat_nan_cost; lia|]. cbv beta. intros n [e|] (B1 & B2 & B3); [|repeat split; try lia; intros NP; specialize (B3 NP); lia].
    apply H_done. rewrite Z.add_0_r. destruct (Z.eqb_spec e 0) as [->|NE]; cbn [negb]; apply END; cbn [set_pos set_special pd_pos pd_special]; try lia; try (intros NP; specialize (B3 NP); lia); [|discriminate].
    intros _. specialize (B2 eq_refl). lia. }
  destruct ((c =? ch_i) || (c =? ch_I)).
  { destruct (Z.eqb_spec (pd_pos st) (b2z (pd_sign_set st))) as [E1|]; [|apply H_done; apply (END 0); lia]. destruct (EZ E1) as [X4 P1].
    apply H_bind. eapply H_mono; [apply eat_inf_cost; lia|]. cbv beta. intros n [e|] (B1 & B2 & B3); [|repeat split; lia].
    apply H_done. rewrite Z.add_0_r. destruct (Z.eqb_spec e 0) as [->|NE]; cbn [negb]; apply END; cbn [set_pos set_special pd_pos pd_special]; try lia; [|discriminate].
    intros _. specialize (B3 eq_refl). lia. }
  destruct ((c =? ch_minus) || (c =? ch_plus)).
  { destruct (Z.eqb_spec (pd_pos st) 0) as [E1|]; apply H_done; [apply (GO 0); try lia; [exact F'|reflexivity|unfold extra; cbn [set_sign pd_frac_calculated]; lia]|apply (END 0); lia]. }
  apply H_done. apply (END 0); lia.
Qed.
Lemma digits_cost : forall nan T, (2 <= decimal_q T)%nat ->
  H base s (parse_digits_steps nan T at_) (fun n r => 0 <= n <= Z.max 0 Len + 4 /\ (~ In ch_lpar s -> n <= 2054) /\
    match r with Some dp => dp_special dp = sp_no -> n <= dp_str_end dp + 5 /\ dp_str_end dp <= 2050 | None => True end).
Proof.
  intros nan T K. unfold parse_digits_steps. hb loop_cost; [exact K|unfold few, pstate_init; cbn; lia|cbn; lia|]. cbv beta. cbn [pstate_init pd_pos]. change (extra pstate_init) with 4.
  intros n [st|] (B1 & B2 & B3).
  - apply H_bind. apply H_pure; [intros v _|split; [lia|split; [intros NP; specialize (B2 NP); lia|exact I]]]. apply H_done. cbn [dp_special dp_str_end]. split; [lia|]. split; [intros NP; specialize (B2 NP); lia|]. intros SP. specialize (B3 SP). lia.
  - split; [lia|]. split; [intros NP; specialize (B2 NP); lia|exact I].
Qed.
End Reads.

Lemma exponent_cost : forall base off s nan,
  H base s (parse_exponent_steps nan (base + off)) (fun n r => 0 <= n <= Z.max 0 (Z.of_nat (length s) - off) + 4 /\ (~ In ch_lpar s -> n <= 2055)).
Proof.
  intros base off s nan. unfold parse_exponent_steps. hl. destruct (_ && _); [apply H_done; lia|]. replace (base + off + 1) with (base + (off + 1)) by lia.
  hb digits_cost; [cbn; lia|]. cbv beta zeta. intros n [dp|] (B1 & B2 & B3); [|split; [lia|intros NP; specialize (B2 NP); lia]].
  assert (G : 0 <= 1 + (n + 0) <= Z.max 0 (Z.of_nat (length s) - off) + 4 /\ (~ In ch_lpar s -> 1 + (n + 0) <= 2055)) by (split; [lia|intros NP; specialize (B2 NP); lia]).
  apply H_bind. apply H_pure; [intros v _|exact G]. apply H_bind. apply H_pure; [intros v' _|]; rewrite ?Z.add_0_r in *; [apply H_done|]; rewrite ?Z.add_0_r in *; exact G.
Qed.
Lemma krosh_cost : forall base s nan T, (2 <= decimal_q T)%nat ->
  H base s (krosh_steps nan T base) (fun n r => 0 <= n <= Z.of_nat (length s) + 9 /\ (~ In ch_lpar s -> n <= 4109)).
Proof.
  intros base s nan T K. unfold krosh_steps, parse_mantissa_steps. apply H_bind. apply H_bind. pose proof (digits_cost base 0 s nan T K) as D. replace (base + 0) with base in D by lia.
  eapply H_mono; [exact D|]. cbv beta zeta. intros n [dp|] (B1 & B2 & B3); [|split; [lia|intros NP; specialize (B2 NP); lia]].
  assert (G : 0 <= n <= Z.of_nat (length s) + 9 /\ (~ In ch_lpar s -> n <= 4109)) by (split; [lia|intros NP; specialize (B2 NP); lia]).
  destruct (dp_special dp) eqn:SP.
  - apply H_bind. apply H_pure; [intros v' _|rewrite Z.add_0_r; exact G]. apply H_done. cbn [mp_special mp_value mp_str_end mp_K mp_sign].
    rewrite ?Z.add_0_r. destruct (negb (m_f v' =? 0)); [|apply H_done; rewrite Z.add_0_r; exact G].
    apply H_bind. eapply H_mono; [apply exponent_cost|]. cbv beta. destruct (B3 eq_refl) as [B4 B5]. clear B3 D.
    intros m r (C1 & C2).
    assert (G2 : 0 <= n + m <= Z.of_nat (length s) + 9 /\ (~ In ch_lpar s -> n + m <= 4109)) by (split; [lia|intros NP; specialize (B2 NP); specialize (C2 NP); lia]).
    destruct r as [[ev eend]|]; [|exact G2].
    apply H_bind. apply H_pure; [intros K' _|rewrite ?Z.add_0_r; exact G2]. rewrite ?Z.add_0_r.
    destruct (negb (K' =? 0)).
    + destruct (_ && _).
      * apply H_bind. apply H_pure; [intros c _|rewrite ?Z.add_0_r; exact G2]. apply H_pure; [intros a _|]; rewrite ?Z.add_0_r; exact G2.
      * destruct (negb _); apply H_done; rewrite ?Z.add_0_r; exact G2.
    + apply H_pure; [intros a _|]; rewrite ?Z.add_0_r; exact G2.
  - apply H_done. cbn [mp_special]. apply H_done. rewrite ?Z.add_0_r. exact G.
  - apply H_done. cbn [mp_special]. apply H_done. rewrite ?Z.add_0_r. exact G.
Qed.
Lemma cost_bind : forall A B at_ (p : prog A) (k : A -> prog B) buf, cost at_ (pbind p k) buf = (cost at_ p buf + match exec at_ p buf with Ok (b, a) => cost at_ (k a) b | Fault _ => O end)%nat.
Proof.
  intros A B at_ p k. induction p as [a|f|i g IH|i c q IH]; intros buf; cbn [pbind cost exec bind]; try reflexivity.
  - destruct (read buf (i - at_)); cbn [bind]; [rewrite IH|]; reflexivity.
  - destruct (write buf (i - at_) c); cbn [bind]; [rewrite IH|]; reflexivity.
Qed.

(** C106: parsing looks at few characters more than once, apart from what the fallback does *)
Theorem C106_parsing : forall t s at_ we fbp errno,
  (cost at_ (atof_steps (S (length s)) (fmt_of t) at_ we fbp errno) s <= length s + 9 + cost at_ (fbp at_ errno) s)%nat.
Proof.
  intros t s at_ we fbp errno. unfold atof_steps. rewrite cost_bind.
  pose proof (krosh_cost at_ s (S (length s)) (fmt_of t) ltac:(destruct t; cbn; lia)) as C. destruct (run_cost _ at_ (krosh_steps (S (length s)) (fmt_of t) at_) s (reader_krosh _ _ _)) as [R1 R2].
  unfold H in C. rewrite <- R1 in C. destruct C as [C _]. destruct (exec at_ _ s) as [[b cr]|]; [|lia]. destruct R2 as [-> _].
  destruct (negb (kr_str_end cr =? 0)); [|cbn [cost]; lia]. destruct (kr_is_accurate cr); [cbn [cost]; lia|]. rewrite cost_bind. destruct (exec at_ (fbp at_ errno) s) as [[b r]|]; cbn [cost]; lia.
Qed.
(** C106: and a text without parentheses, however long, at 4109 characters at most *)
Theorem C106_parsing_constant : forall t s at_ we fbp errno, ~ In 40 s ->
  (cost at_ (atof_steps (S (length s)) (fmt_of t) at_ we fbp errno) s <= 4109 + cost at_ (fbp at_ errno) s)%nat.
Proof.
  intros t s at_ we fbp errno NP. unfold atof_steps. rewrite cost_bind.
  pose proof (krosh_cost at_ s (S (length s)) (fmt_of t) ltac:(destruct t; cbn; lia)) as C. destruct (run_cost _ at_ (krosh_steps (S (length s)) (fmt_of t) at_) s (reader_krosh _ _ _)) as [R1 R2].
  unfold H in C. rewrite <- R1 in C. destruct C as [_ C]. specialize (C NP). destruct (exec at_ _ s) as [[b cr]|]; [|lia]. destruct R2 as [-> _].
  destruct (negb (kr_str_end cr =? 0)); [|cbn [cost]; lia]. destruct (kr_is_accurate cr); [cbn [cost]; lia|]. rewrite cost_bind. destruct (exec at_ (fbp at_ errno) s) as [[b r]|]; cbn [cost]; lia.
Qed.
