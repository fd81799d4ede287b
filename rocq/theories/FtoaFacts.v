(** ftoa as a whole. *)
From Coq Require Import String Reals Lra List.
From Flocq Require Import Core.
From Verif Require Import Machine MachineFacts BitOps Format DiyFp Chars Grisu Prettify Ftoa Spec Instances Api
  DiyFacts BoundFacts TableFacts DvalFacts DigitGenFacts GrisuFacts PrettifyFacts ShownFacts.
Open Scope Z_scope.

(** * Classification of bit patterns *)

Lemma pattern_split : forall t v, pattern t v ->
  v = sign_field t v * 2 ^ (width t - 1) + exp_field t v * 2 ^ (precision t - 1) + frac_field t v
  /\ 0 <= sign_field t v <= 1.
Proof.
  intros t v [H1 H2]. unfold sign_field, exp_field, frac_field.
  assert (W : 2 ^ width t = 2 * 2 ^ (width t - 1)) by (destruct t; reflexivity).
  assert (P : 2 ^ (width t - 1) = 2 ^ (precision t - 1) * 2 ^ (width t - precision t)) by (destruct t; reflexivity).
  assert (0 < 2 ^ (precision t - 1) /\ 0 < 2 ^ (width t - precision t)) as [P1 P2] by (destruct t; cbn; lia).
  rewrite P. rewrite <- Zdiv_Zdiv by lia.
  pose proof (Z.div_mod v (2 ^ (precision t - 1)) ltac:(lia)) as D1.
  set (a := 2 ^ (precision t - 1)) in *. set (b := 2 ^ (width t - precision t)) in *.
  pose proof (Z.div_mod (v / a) b ltac:(lia)) as D2.
  split.
  - rewrite D1 at 1. rewrite D2 at 1. ring.
  - rewrite Zdiv_Zdiv by lia. rewrite <- P. split; [apply Z.div_pos; lia|].
    assert (v / 2 ^ (width t - 1) < 2) by (apply Z.div_lt_upper_bound; lia). lia.
Qed.

Lemma abs_bits_eq : forall t v, pattern t v ->
  abs_bits (fmt_of t) v = exp_field t v * 2 ^ (precision t - 1) + frac_field t v.
Proof.
  intros t v H. unfold abs_bits. rewrite fw_width, land_mask by (destruct t; cbn; lia).
  destruct (pattern_split t v H) as [E S]. symmetry.
  apply Z.mod_unique_pos with (sign_field t v).
  - pose proof (exp_field_range t v) as R1. pose proof (frac_field_range t v) as R2. unfold all_ones in R1.
    assert (P : 2 ^ (width t - 1) = 2 ^ (precision t - 1) * 2 ^ (width t - precision t)) by (destruct t; reflexivity).
    assert (0 < 2 ^ (precision t - 1)) by (destruct t; reflexivity).
    rewrite P. nia.
  - lia.
Qed.

Lemma sign_bit_eq : forall t v, pattern t v -> sign_bit (fmt_of t) v = (sign_field t v =? 1).
Proof.
  intros t v [H1 H2]. unfold sign_bit. rewrite fw_width, testbit_top.
  - unfold sign_field. assert (0 < 2 ^ (width t - 1)) by (destruct t; reflexivity).
    assert (2 ^ width t = 2 * 2 ^ (width t - 1)) by (destruct t; reflexivity).
    destruct (Z.leb_spec (2 ^ (width t - 1)) v) as [L|L]; symmetry.
    + apply Z.eqb_eq. symmetry. apply Z.div_unique with (v - 2 ^ (width t - 1)); lia.
    + apply Z.eqb_neq. rewrite Z.div_small by lia. discriminate.
  - destruct t; cbn; lia.
  - replace (width t - 1 + 1) with (width t) by lia. lia.
Qed.

Lemma inf_bits_eq : forall t, inf_bits (fmt_of t) = all_ones t * 2 ^ (precision t - 1).
Proof. destruct t; reflexivity. Qed.

Lemma is_nan_spec : forall t v, pattern t v -> is_nan (fmt_of t) v = true <-> nan t v.
Proof.
  intros t v H. unfold is_nan, nan. rewrite abs_bits_eq, inf_bits_eq by assumption. rewrite Z.ltb_lt.
  pose proof (exp_field_range t v). pose proof (frac_field_range t v).
  assert (0 < 2 ^ (precision t - 1)) by (destruct t; reflexivity).
  split; [intros L; split; [assumption|]|intros (_ & E & F); rewrite E; lia].
  assert (exp_field t v = all_ones t) by nia. split; [assumption|]. nia.
Qed.

Lemma is_inf_spec : forall t v, pattern t v -> is_inf (fmt_of t) v = true <-> infinite t v.
Proof.
  intros t v H. unfold is_inf, infinite. rewrite abs_bits_eq, inf_bits_eq by assumption. rewrite Z.eqb_eq.
  pose proof (exp_field_range t v). pose proof (frac_field_range t v).
  assert (0 < 2 ^ (precision t - 1)) by (destruct t; reflexivity).
  split; [intros L; split; [assumption|]|intros (_ & E & F); rewrite E; lia].
  assert (exp_field t v = all_ones t) by nia. split; [assumption|]. nia.
Qed.

Lemma is_zero_spec : forall t v, pattern t v -> is_zero (fmt_of t) v = true <-> zero t v.
Proof.
  intros t v H. unfold is_zero, zero. rewrite abs_bits_eq by assumption. rewrite Z.eqb_eq.
  pose proof (exp_field_range t v). pose proof (frac_field_range t v).
  assert (0 < 2 ^ (precision t - 1)) by (destruct t; reflexivity).
  split; [intros L; split; [assumption|]; nia|intros (_ & E & F); rewrite E; lia].
Qed.

Lemma lt_zero_eq : forall t v, pattern t v -> ~ zero t v -> lt_zero (fmt_of t) v = (sign_field t v =? 1).
Proof.
  intros t v H Z0. unfold lt_zero. rewrite sign_bit_eq by assumption.
  destruct (is_zero (fmt_of t) v) eqn:E; [apply is_zero_spec in E; tauto|].
  apply andb_true_r.
Qed.

Lemma bool_false : forall b P, (b = true <-> P) -> ~ P -> b = false.
Proof. intros [] P H N; [exfalso; apply N, H; reflexivity|reflexivity]. Qed.

Lemma nonzero_significand : forall t v, nonzero t v -> 0 < significand t v.
Proof.
  intros t v [[H1 H2] H3]. unfold significand. pose proof (frac_field_range t v) as F.
  destruct (Z.eqb_spec (exp_field t v) 0) as [E|E].
  - assert (frac_field t v <> 0) by (intros C; apply H3; repeat split; assumption || apply H1). lia.
  - assert (0 < 2 ^ (precision t - 1)) by (destruct t; reflexivity). lia.
Qed.

(** * The main statement *)

Definition sign_of (t : ftype) (v : Z) : signopt := if sign_field t v =? 1 then Minus else NoSign.

(** More room than necessary does no harm. *)
Lemma tight_prints : forall t v s, prints_tightly t v s ->
  (length s < match t with Float => 24 | Double => 34 end)%nat -> prints t v s.
Proof.
  intros t v s H L buf Hb. apply H.
  destruct t; [change (max_buffer_size (fmt_of Float)) with 24 in Hb|change (max_buffer_size (fmt_of Double)) with 34 in Hb]; lia.
Qed.

Lemma ftoa_finite_t : forall t v, nonzero t v ->
  exists ds K lo hi,
    let x := (IZR (dval ds) * pow10 K)%R in
    Forall digit ds /\ hd 0 ds <> 0 /\ last_nonzero ds /\ zlen ds <= max_sig t /\
    kmin t <= K <= kmax t /\
    (mminus t v < lo < mminus t v + margin t v)%R /\
    (mplus t v - margin t v < hi < mplus t v)%R /\
    (lo <= x <= hi)%R /\
    (2 ^ (width t / 2) <= significand t v -> forall y, ~ (lo <= IZR y * pow10 (K + 1) <= hi)%R) /\
    prints_tightly t v (written (shown (sign_of t v) ds K)) /\
    zlen (written (shown (sign_of t v) ds K)) <= match t with Float => 19 | Double => 24 end /\
    forall pre rest, (length ds <= length rest)%nat ->
      grisu2 (fmt_of t) v (pre ++ rest) (zlen pre)
      = Ok (pre ++ dchars ds ++ skipn (length ds) rest, zlen ds, K).
Proof.
  intros t v Hnz. pose proof Hnz as [Hfin Hz]. pose proof Hfin as [Hpat Hexp].
  destruct (grisu2_ok t v Hfin (nonzero_significand t v Hnz)) as (ds & K & lo & hi & A1 & A2 & A3 & A4 & A5 & A6 & A7 & A8 & A9 & A10).
  exists ds, K, lo, hi. cbv zeta.
  assert (HK : -500 <= K <= 500) by (clear - A5; destruct t; cbn [kmin kmax] in A5; lia).
  assert (Hn : zlen ds <= 17) by (clear - A4; destruct t; cbn [max_sig] in A4; lia).
  assert (Hlen : zlen (written (shown (sign_of t v) ds K)) <= match t with Float => 19 | Double => 24 end).
  { pose proof (shown_length (sign_of t v) ds K A1 A2 A3 Hn HK) as L.
    assert (zlen (sign_text (sign_of t v)) <= 1) by (unfold sign_of; destruct (_ =? 1); cbn; lia).
    pose proof (ds_nonempty ds A2). clear - L H H0 A4 A5.
    destruct t; cbn [kmin kmax max_sig] in *.
    - destruct (Z.ltb_spec (Z.abs (zlen ds + K - 1)) 100); [|lia]. destruct (16 <? _); lia.
    - destruct (16 <? _); [destruct (_ <? 100)|]; lia. }
  do 9 (split; [assumption|]). split; [|split; assumption].
  intros buf Hbuf.
  set (m := shown (sign_of t v) ds K) in *.
  unfold ftoa.
  rewrite (bool_false (is_nan (fmt_of t) v) (nan t v)) by (try (apply is_nan_spec; assumption); intros (_ & ? & _); tauto).
  rewrite (bool_false (is_inf (fmt_of t) v) (infinite t v)) by (try (apply is_inf_spec; assumption); intros (_ & ? & _); tauto).
  rewrite (bool_false (is_zero (fmt_of t) v) (zero t v)) by (try (apply is_zero_spec; assumption); assumption).
  rewrite lt_zero_eq by assumption. cbv zeta.
  destruct buf as [|b0 buf]; [cbn [length] in Hbuf; lia|].
  rewrite (write_app [] b0 buf) by reflexivity. cbn [app bind].
  assert (Hl2 : (length (written m) < length (b0 :: buf))%nat) by exact Hbuf. clear Hbuf.
  pose proof (shown_body_long (sign_of t v) ds K A1 A2 A3 Hn HK) as Hbl. fold m in Hbl.
  rewrite (written_body m) in *. unfold m in Hl2 |- *. rewrite shown_sign in *. fold m in Hl2 |- *.
  unfold sign_of in *. destruct (Z.eqb_spec (sign_field t v) 1) as [Sg|Sg]; cbn [b2z sign_text] in *.
  - change (text "-") with [45] in *. rewrite app_length in *. cbn [length] in Hl2.
    change (ch_minus :: buf) with ([45] ++ buf).
    change (grisu2 (fmt_of t) v ([45] ++ buf) 1) with (grisu2 (fmt_of t) v ([45] ++ buf) (zlen [45])).
    rewrite (A10 [45] buf) by lia. cbn [bind]. change 1 with (zlen [45]) at 1.
    rewrite wrap_small by (pose proof (zlen_nonneg ds); lia).
    rewrite (prettify_ok Minus ds K [45]); fold m.
    + cbn [bind]. f_equal. f_equal.
      * cbn [app length]. f_equal. f_equal. f_equal. rewrite skipn_skipn.
        change (skipn (S (1 + length (body m))) (b0 :: buf)) with (skipn (S (length (body m))) buf).
        f_equal. lia.
      * rewrite wrap_small; unfold zlen in *; rewrite ?app_length in *; cbn [length] in *.
        -- lia.
        -- clear - Hlen. destruct t; lia.
    + intros C; rewrite C in A2; cbn in A2; congruence.
    + assumption.
    + lia.
    + rewrite skipn_length. lia.
  - cbn [app] in *. change (ch_minus :: buf) with ([] ++ ch_minus :: buf).
    change (grisu2 (fmt_of t) v ([] ++ ch_minus :: buf) 0) with (grisu2 (fmt_of t) v ([] ++ ch_minus :: buf) (zlen [])).
    rewrite (A10 [] (ch_minus :: buf)) by (cbn [length] in *; lia). cbn [bind].
    rewrite wrap_small by (pose proof (zlen_nonneg ds); lia).
    change 0 with (zlen []) at 1.
    rewrite (prettify_ok NoSign ds K []); fold m.
    + cbn [bind]. f_equal. f_equal.
      * cbn [app]. f_equal. f_equal. rewrite skipn_skipn.
        match goal with |- skipn ?a _ = skipn ?b _ => replace a with b by lia end. reflexivity.
      * rewrite wrap_small; unfold zlen in *.
        -- lia.
        -- clear - Hlen. rewrite app_length in Hlen. destruct t; lia.
    + intros C; rewrite C in A2; cbn in A2; congruence.
    + assumption.
    + lia.
    + rewrite skipn_length. cbn [length] in *. lia.
Qed.

Lemma ftoa_finite_g : forall t v, nonzero t v ->
  exists ds K lo hi,
    let x := (IZR (dval ds) * pow10 K)%R in
    Forall digit ds /\ hd 0 ds <> 0 /\ last_nonzero ds /\ zlen ds <= max_sig t /\
    kmin t <= K <= kmax t /\
    (mminus t v < lo < mminus t v + margin t v)%R /\
    (mplus t v - margin t v < hi < mplus t v)%R /\
    (lo <= x <= hi)%R /\
    (2 ^ (width t / 2) <= significand t v -> forall y, ~ (lo <= IZR y * pow10 (K + 1) <= hi)%R) /\
    prints t v (written (shown (sign_of t v) ds K)) /\
    zlen (written (shown (sign_of t v) ds K)) <= match t with Float => 19 | Double => 24 end /\
    forall pre rest, (length ds <= length rest)%nat ->
      grisu2 (fmt_of t) v (pre ++ rest) (zlen pre)
      = Ok (pre ++ dchars ds ++ skipn (length ds) rest, zlen ds, K).
Proof.
  intros t v H. destruct (ftoa_finite_t t v H) as (ds & K & lo & hi & A). exists ds, K, lo, hi.
  cbv zeta in *. destruct A as (A1 & A2 & A3 & A4 & A5 & A6 & A7 & A8 & A9 & A10 & A11 & A12).
  do 9 (split; [assumption|]). split; [|split; assumption].
  apply tight_prints; [exact A10|]. revert A11. unfold zlen. destruct t; lia.
Qed.

Lemma ftoa_finite : forall t v, nonzero t v ->
  exists ds K lo hi,
    let x := (IZR (dval ds) * pow10 K)%R in
    Forall digit ds /\ hd 0 ds <> 0 /\ last_nonzero ds /\ zlen ds <= max_sig t /\
    kmin t <= K <= kmax t /\
    (mminus t v < lo < mminus t v + margin t v)%R /\
    (mplus t v - margin t v < hi < mplus t v)%R /\
    (lo <= x <= hi)%R /\
    (2 ^ (width t / 2) <= significand t v -> forall y, ~ (lo <= IZR y * pow10 (K + 1) <= hi)%R) /\
    prints t v (written (shown (sign_of t v) ds K)) /\
    zlen (written (shown (sign_of t v) ds K)) <= match t with Float => 19 | Double => 24 end.
Proof.
  intros t v H. destruct (ftoa_finite_g t v H) as (ds & K & lo & hi & A). exists ds, K, lo, hi.
  cbv zeta in *. tauto.
Qed.

(** * Special values *)

Lemma prints_4t : forall t v s,
  (forall buf, ftoa (fmt_of t) v buf = bind (write_list buf 0 (s ++ [0])) (fun b => Ok (b, Z.of_nat (length s)))) ->
  prints_tightly t v s.
Proof.
  intros t v s H buf Hb. rewrite H.
  destruct (take_n buf (length s + 1)) as (A & B & -> & LA); [lia|].
  change (A ++ B) with ([] ++ A ++ B).
  rewrite write_list_app; [|reflexivity|rewrite app_length; cbn; lia]. cbn [bind app].
  rewrite <- app_assoc. cbn [app]. rewrite skipn_exact by lia. reflexivity.
Qed.

Lemma bind_assoc : forall A B C (x : res A) (f : A -> res B) (g : B -> res C),
  bind (bind x f) g = bind x (fun a => bind (f a) g).
Proof. intros. destruct x; reflexivity. Qed.

Ltac writes :=
  cbn [write_list Z.add Pos.add Pos.succ];
  repeat match goal with
  | |- context [write ?b ?i ?x] => destruct (write b i x); cbn [bind]; [|reflexivity]
  end; reflexivity.

Lemma ftoa_nan_t : forall t v, nan t v -> prints_tightly t v (text "nan").
Proof.
  intros t v H. apply prints_4t. intros buf. unfold ftoa.
  assert (is_nan (fmt_of t) v = true) as -> by (apply is_nan_spec; [apply H|assumption]).
  change (text "nan" ++ [0]) with [ch_n; ch_a; ch_n; ch_nul]. writes.
Qed.
Lemma ftoa_nan : forall t v, nan t v -> prints t v (text "nan").
Proof. intros t v H. apply tight_prints; [now apply ftoa_nan_t|]. destruct t; cbn; lia. Qed.

Lemma ftoa_inf_t : forall t v, infinite t v ->
  prints_tightly t v (if sign_field t v =? 1 then text "-inf" else text "inf").
Proof.
  intros t v H. pose proof H as (Hp & He & Hf).
  assert (Hnz : ~ zero t v) by (intros (_ & E & _); rewrite E in He; destruct t; discriminate).
  assert (G : gt_zero (fmt_of t) v = negb (sign_field t v =? 1)).
  { unfold gt_zero. rewrite sign_bit_eq by assumption. rewrite (bool_false (is_zero (fmt_of t) v) (zero t v)) by (try (apply is_zero_spec; assumption); assumption).
    apply andb_true_r. }
  destruct (Z.eqb_spec (sign_field t v) 1); (apply prints_4t; intros buf; unfold ftoa);
  rewrite (bool_false (is_nan (fmt_of t) v) (nan t v)) by (try (apply is_nan_spec; assumption); intros (_ & _ & ?); tauto);
  assert (is_inf (fmt_of t) v = true) as -> by (apply is_inf_spec; assumption);
  rewrite G.
  - replace (sign_field t v =? 1) with true by (symmetry; apply Z.eqb_eq; assumption). cbn [negb].
    change (text "-inf" ++ [0]) with [ch_minus; ch_i; ch_n; ch_f; ch_nul]. writes.
  - replace (sign_field t v =? 1) with false by (symmetry; apply Z.eqb_neq; assumption). cbn [negb].
    change (text "inf" ++ [0]) with [ch_i; ch_n; ch_f; ch_nul]. writes.
Qed.
Lemma ftoa_inf : forall t v, infinite t v ->
  prints t v (if sign_field t v =? 1 then text "-inf" else text "inf").
Proof. intros t v H. apply tight_prints; [now apply ftoa_inf_t|]. destruct (_ =? 1); destruct t; cbn; lia. Qed.

Lemma ftoa_zero_t : forall t v, zero t v -> prints_tightly t v (text "0").
Proof.
  intros t v H. pose proof H as (Hp & He & Hf).
  assert (He' : exp_field t v <> all_ones t) by (rewrite He; destruct t; discriminate).
  apply prints_4t; intros buf; unfold ftoa.
  rewrite (bool_false (is_nan (fmt_of t) v) (nan t v)) by (try (apply is_nan_spec; assumption); intros (_ & ? & _); tauto).
  rewrite (bool_false (is_inf (fmt_of t) v) (infinite t v)) by (try (apply is_inf_spec; assumption); intros (_ & ? & _); tauto).
  assert (is_zero (fmt_of t) v = true) as -> by (apply is_zero_spec; assumption).
  change (text "0" ++ [0]) with [ch_0; ch_nul]. writes.
Qed.
Lemma ftoa_zero : forall t v, zero t v -> prints t v (text "0").
Proof. intros t v H. apply tight_prints; [now apply ftoa_zero_t|]. destruct t; cbn; lia. Qed.

Lemma classify : forall t v, pattern t v -> nan t v \/ infinite t v \/ zero t v \/ nonzero t v.
Proof.
  intros t v H. destruct (Z.eq_dec (exp_field t v) (all_ones t)) as [E|E].
  - destruct (Z.eq_dec (frac_field t v) 0) as [F|F]; [right; left|left]; (split; [assumption|split; assumption]).
  - right. right. destruct (is_zero (fmt_of t) v) eqn:Q.
    + left. now apply is_zero_spec.
    + right. split; [split; assumption|]. intros C. apply is_zero_spec in C; [congruence|assumption].
Qed.

Lemma prints_unique : forall t v s1 s2, prints t v s1 -> prints t v s2 -> s1 = s2.
Proof.
  intros t v s1 s2 H1 H2.
  set (buf := repeat 0 (Z.to_nat (max_buffer_size (fmt_of t)))).
  assert (L : max_buffer_size (fmt_of t) <= Z.of_nat (length buf)) by (unfold buf; rewrite repeat_length; lia).
  specialize (H1 buf L). rewrite (H2 buf L) in H1. injection H1 as H3 H4.
  assert (L2 : length s1 = length s2) by lia.
  rewrite L2 in H3. apply (f_equal (firstn (length s2))) in H3.
  rewrite !firstn_app, L2, Nat.sub_diag in H3. cbn [firstn] in H3. rewrite !app_nil_r in H3.
  rewrite firstn_all in H3. rewrite <- L2 in H3. rewrite firstn_all in H3. now symmetry.
Qed.
