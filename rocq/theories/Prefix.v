(** C98: more text is never taken for less; the part that is taken, alone, is read alike. *)
From Coq Require Import Reals Lra Lia ZArith Bool List String Ascii.
From Flocq Require Import Core.
From Verif Require Import Machine MachineFacts BitOps StaticPow Fraction Format DiyFp KComp Chars Krosh Atof Spec ParseSpec TextSpec ReadSpec MeanSpec SameSpec ExactSpec WholeSpec ParseApi Instances
  ScanFacts LoopFacts KroshNum LongFacts Refuted Tokens Truncate Defined Ends Reading Meaning WholeFacts Whole.
Open Scope Z_scope.

Lemma split_maximal : forall a n b, split_bare a = (n, b) -> bare n /\ a = mantissa_text n ++ b /\ maximal n (hd 0 b).
Proof.
  intros a n b E. destruct (split_bare_ok a n b E) as (X & Er & H). split; [exact X|]. split; [exact Er|].
  destruct (no_digits n) eqn:N; [|now apply cannot_maximal, H; left].
  destruct (in_dec Z.eq_dec (hd 0 b) (text "nNiI")) as [W|W]; [|now apply cannot_maximal, H; right].
  destruct X as (X1 & _). destruct n as [sg [|] [|] ex]; try discriminate N. cbn in X1. subst ex. now apply word_maximal.
Qed.

Lemma maximal_zero : forall n, maximal n 0.
Proof. intros. apply cannot_maximal, cannot_zero. Qed.

(** * Words *)
Lemma starts_app : forall w b y, starts w b = true -> starts w (b ++ y) = true.
Proof.
  induction w as [|l w IH]; intros b y H; [reflexivity|]. destruct b as [|c b]; [discriminate|]. cbn [starts app] in *.
  apply andb_prop in H as [-> H]. now rewrite (IH _ y H).
Qed.
Lemma starts_cut : forall w b n, (List.length w <= n)%nat -> starts w (firstn n b) = starts w b.
Proof.
  induction w as [|l w IH]; intros b n H; [reflexivity|]. destruct n; [cbn in H; lia|]. destruct b as [|c b]; [reflexivity|]. cbn [starts firstn].
  rewrite IH by (cbn in H; lia). reflexivity.
Qed.
Lemma starts_short : forall w b n, starts w b = false -> starts w (firstn n b) = false.
Proof.
  induction w as [|l w IH]; intros b n H; [discriminate|]. destruct n; [reflexivity|]. destruct b as [|c b]; [reflexivity|]. cbn [starts firstn] in *.
  destruct (lower c =? l); [cbn in *; now apply IH|reflexivity].
Qed.
Lemma starts_len : forall w b, starts w b = true -> (List.length w <= List.length b)%nat.
Proof.
  induction w as [|l w IH]; intros b H; [cbn; lia|]. destruct b as [|c b]; [discriminate|]. cbn [starts List.length] in *.
  apply andb_prop in H as [_ H]. apply IH in H. lia.
Qed.
Lemma closing_nonneg : forall b, 0 <= closing b <= zlen b.
Proof.
  induction b as [|c b IH]; [cbn; lia|]. cbn [closing]. rewrite zlen_cons. pose proof (zlen_nonneg b). destruct (c =? code ")"); [lia|]. destruct (is_payload c); [|lia].
  cbv zeta. destruct (closing b =? 0); lia.
Qed.
Lemma closing_app : forall b y, closing b <> 0 -> closing (b ++ y) = closing b.
Proof.
  induction b as [|c b IH]; intros y H; [cbn in H; lia|]. cbn [closing app] in *. destruct (c =? code ")"); [reflexivity|]. destruct (is_payload c); [|reflexivity].
  cbv zeta in *. destruct (Z.eqb_spec (closing b) 0) as [E|E]; [lia|]. rewrite (IH y E). destruct (Z.eqb_spec (closing b) 0); [lia|reflexivity].
Qed.
Lemma closing_cut : forall b n, closing b <> 0 -> closing b <= Z.of_nat n -> closing (firstn n b) = closing b.
Proof.
  induction b as [|c b IH]; intros n H L; [cbn in H; lia|]. pose proof (closing_nonneg b) as P. cbn [closing] in *. destruct n as [|n].
  - destruct (c =? code ")"); [lia|]. destruct (is_payload c); [|lia]. cbv zeta in *. destruct (closing b =? 0); lia.
  - cbn [firstn closing]. destruct (c =? code ")"); [reflexivity|]. destruct (is_payload c); [|reflexivity].
    cbv zeta in *. destruct (Z.eqb_spec (closing b) 0) as [E|E]; [lia|]. rewrite IH by lia. destruct (Z.eqb_spec (closing b) 0); [lia|reflexivity].
Qed.

Lemma word_nonneg : forall b, 0 <= snd (word_at b).
Proof.
  intros b. unfold word_at. destruct (starts (text "nan") b).
  { cbn [snd]. destruct (skipn 3 b) as [|c r]; [lia|]. pose proof (closing_nonneg r). destruct (_ && _); lia. }
  destruct (starts (text "infinity") b); [cbn; lia|]. destruct (starts (text "inf") b); [cbn; lia|]. destruct (_ || _); cbn; lia.
Qed.
Lemma skipn_app3 : forall (b y : list Z), (3 <= List.length b)%nat -> skipn 3 (b ++ y) = skipn 3 b ++ y.
Proof. intros b y H. rewrite skipn_app. replace (3 - List.length b)%nat with 0%nat by lia. reflexivity. Qed.

Lemma word_grows : forall b y, snd (word_at b) <= snd (word_at (b ++ y)).
Proof.
  intros b y. unfold word_at at 1. destruct (starts (text "nan") b) eqn:E1.
  { unfold word_at. rewrite (starts_app _ _ y E1). cbn [snd]. rewrite skipn_app3 by (apply (starts_len _ _ E1)).
    destruct (skipn 3 b) as [|c r]; cbn [app].
    - destruct y as [|c r]; [lia|]. pose proof (closing_nonneg r). destruct (_ && _); lia.
    - pose proof (closing_nonneg r). pose proof (closing_nonneg (r ++ y)). destruct (c =? code "("); [|cbn; lia]. cbn [andb].
      destruct (Z.eqb_spec (closing r) 0) as [E|E]; cbn [negb].
      + destruct (Z.eqb_spec (closing (r ++ y)) 0); cbn [negb]; lia.
      + rewrite (closing_app _ y E). destruct (Z.eqb_spec (closing r) 0); cbn [negb]; lia. }
  assert (N3 : starts (text "nan") (b ++ y) = true -> 3 <= snd (word_at (b ++ y))).
  { intros H. unfold word_at. rewrite H. cbn [snd]. destruct (skipn 3 (b ++ y)) as [|c r]; [lia|]. pose proof (closing_nonneg r). destruct (_ && _); lia. }
  destruct (starts (text "infinity") b) eqn:E2.
  { assert (E0 : starts (text "nan") (b ++ y) = false).
    { destruct b as [|c b]; [discriminate|]. change (text "infinity") with (105 :: text "nfinity") in E2. change (text "nan") with (110 :: text "an"). cbn [starts app] in *.
      apply andb_prop in E2 as [E2 _]. apply Z.eqb_eq in E2. rewrite E2. reflexivity. }
    unfold word_at. rewrite E0, (starts_app _ _ y E2). cbn; lia. }
  destruct (starts (text "inf") b) eqn:E3.
  { destruct (starts (text "nan") (b ++ y)) eqn:F1; [specialize (N3 eq_refl); cbn; lia|]. unfold word_at. rewrite F1.
    destruct (starts (text "infinity") (b ++ y)); [cbn; lia|]. rewrite (starts_app _ _ y E3). cbn; lia. }
  destruct (starts (text "n") b || starts (text "i") b) eqn:E4; [|cbn [snd]; apply word_nonneg].
  destruct (starts (text "nan") (b ++ y)) eqn:F1; [specialize (N3 eq_refl); cbn; lia|]. unfold word_at. rewrite F1.
  destruct (starts (text "infinity") (b ++ y)); [cbn; lia|]. destruct (starts (text "inf") (b ++ y)); [cbn; lia|].
  assert (starts (text "n") (b ++ y) || starts (text "i") (b ++ y) = true) as ->; [|cbn; lia].
  apply orb_prop in E4 as [E4|E4]; rewrite (starts_app _ _ y E4); [reflexivity|apply orb_true_r].
Qed.

Lemma word_cut : forall b, word_at (firstn (Z.to_nat (snd (word_at b))) b) = word_at b.
Proof.
  intros b. unfold word_at at 2 3. destruct (starts (text "nan") b) eqn:E1.
  { cbn [snd]. set (k := match skipn 3 b with [] => 3 | c :: r => if (c =? code "(") && negb (closing r =? 0) then 4 + closing r else 3 end).
    assert (K : 3 <= k). { unfold k. destruct (skipn 3 b) as [|c r]; [lia|]. pose proof (closing_nonneg r). destruct (_ && _); lia. }
    unfold word_at. rewrite starts_cut, E1 by (change (List.length (text "nan")) with 3%nat; lia). f_equal.
    rewrite skipn_firstn_comm. replace (Z.to_nat k - 3)%nat with (Z.to_nat (k - 3)) by lia.
    unfold k. clear K. destruct (skipn 3 b) as [|c r] eqn:SK; [now rewrite firstn_nil|].
    pose proof (closing_nonneg r) as P. destruct (c =? code "(") eqn:C; cbn [andb]; [|change (Z.to_nat (3 - 3)) with 0%nat; reflexivity].
    destruct (Z.eqb_spec (closing r) 0) as [E|E]; cbn [negb]; [change (Z.to_nat (3 - 3)) with 0%nat; reflexivity|].
    replace (Z.to_nat (4 + closing r - 3)) with (S (Z.to_nat (closing r))) by lia. cbn [firstn]. rewrite C, closing_cut by lia. cbn [andb].
    destruct (Z.eqb_spec (closing r) 0); [lia|reflexivity]. }
  pose proof (starts_short _ _ (Z.to_nat 8) E1) as Q8. pose proof (starts_short _ _ (Z.to_nat 3) E1) as Q3. pose proof (starts_short _ _ (Z.to_nat 1) E1) as Q1.
  destruct (starts (text "infinity") b) eqn:E2.
  { cbn [snd]. unfold word_at. rewrite Q8. rewrite starts_cut, E2 by (vm_compute; lia). reflexivity. }
  pose proof (starts_short _ _ (Z.to_nat 3) E2) as R3. pose proof (starts_short _ _ (Z.to_nat 1) E2) as R1.
  destruct (starts (text "inf") b) eqn:E3.
  { cbn [snd]. unfold word_at. rewrite Q3, R3, starts_cut, E3 by (vm_compute; lia). reflexivity. }
  pose proof (starts_short _ _ (Z.to_nat 1) E3) as T1.
  destruct (starts (text "n") b || starts (text "i") b) eqn:E4.
  { cbn [snd]. unfold word_at. rewrite Q1, R1, T1, !starts_cut, E4 by (vm_compute; lia). reflexivity. }
  reflexivity.
Qed.
Lemma word_len : forall b, snd (word_at b) <= zlen b.
Proof.
  intros b. unfold word_at. destruct (starts (text "nan") b) eqn:E.
  { pose proof (starts_len _ _ E) as L. change (List.length (text "nan")) with 3%nat in L. cbn [snd].
    destruct (skipn 3 b) as [|c r] eqn:S; [unfold zlen; lia|]. pose proof (closing_nonneg r).
    assert (zlen b = 3 + zlen (skipn 3 b)) by (unfold zlen; rewrite skipn_length; lia). rewrite S, zlen_cons in H0. pose proof (zlen_nonneg r). destruct (_ && _); lia. }
  destruct (starts (text "infinity") b) eqn:E2; [apply starts_len in E2; change (List.length (text "infinity")) with 8%nat in E2; cbn [snd]; unfold zlen; lia|].
  destruct (starts (text "inf") b) eqn:E3; [apply starts_len in E3; change (List.length (text "inf")) with 3%nat in E3; cbn [snd]; unfold zlen; lia|].
  destruct b as [|c b]; [cbn; lia|]. rewrite zlen_cons. pose proof (zlen_nonneg b). destruct (_ || _); cbn [snd]; lia.
Qed.

(** * More text is never taken for less *)
Lemma split_app : forall a n b y, split_bare a = (n, b) -> b <> [] -> split_bare (a ++ y) = (n, b ++ y).
Proof.
  intros a n b y E N. destruct (split_maximal a n b E) as (X & -> & M). rewrite <- app_assoc. apply split_bare_full; [exact X|].
  destruct b; [contradiction|exact M].
Qed.
Lemma split_longer : forall a n y n' b', split_bare a = (n, []) -> split_bare (a ++ y) = (n', b') ->
  (List.length (mantissa_text n) <= List.length (mantissa_text n'))%nat.
Proof.
  intros a n y n' b' E E'. destruct (split_maximal _ _ _ E) as (X & Ea & _). rewrite app_nil_r in Ea.
  destruct (split_maximal _ _ _ E') as (X' & Ea' & M').
  destruct (Nat.le_gt_cases (List.length (mantissa_text n)) (List.length (mantissa_text n'))) as [|C]; [assumption|exfalso].
  assert (F : a = mantissa_text n' ++ firstn (List.length a - List.length (mantissa_text n')) b').
  { transitivity (firstn (List.length a) (a ++ y)); [now rewrite firstn_app, Nat.sub_diag, firstn_all, firstn_O, app_nil_r|].
    rewrite Ea', firstn_app, firstn_all2; [reflexivity|]. rewrite Ea. lia. }
  set (z := firstn (List.length a - List.length (mantissa_text n')) b') in *.
  assert (Nz : z <> []). { intros Q. rewrite Q, app_nil_r in F. rewrite <- F, Ea in C. lia. }
  assert (split_bare a = (n', z)).
  { rewrite F. apply split_bare_full; [exact X'|]. unfold z in *. destruct (_ - _)%nat; [contradiction|]. destruct b'; [contradiction|exact M']. }
  rewrite E in H. injection H as _ H. congruence.
Qed.

Lemma mantissa_at_least : forall a n b, split_bare a = (n, b) -> Z.min (zlen (mantissa_text n)) 2049 <= mantissa_length a.
Proof. intros a n b E. unfold mantissa_length. rewrite E. pose proof (word_nonneg b). unfold zlen. destruct (_ && _); lia. Qed.

Lemma mantissa_grows : forall a y, mantissa_length a <= mantissa_length (a ++ y).
Proof.
  intros a y. destruct (split_bare a) as [n b] eqn:E. destruct b as [|c b].
  - destruct (split_bare (a ++ y)) as [n' b'] eqn:E'. pose proof (split_longer _ _ _ _ _ E E') as L. pose proof (mantissa_at_least _ _ _ E') as A.
    unfold mantissa_length at 1. rewrite E. cbn [word_at]. change (snd (word_at [])) with 0. cbn [Z.eqb negb]. rewrite andb_false_r. unfold zlen in A. lia.
  - pose proof (split_app _ _ _ y E ltac:(discriminate)) as E'. unfold mantissa_length. rewrite E, E'. pose proof (word_grows (c :: b) y) as W. pose proof (word_nonneg (c :: b)) as W0.
    destruct (no_digits n); cbn [andb]; [|lia]. destruct (Z.eqb_spec (snd (word_at (c :: b))) 0); destruct (Z.eqb_spec (snd (word_at ((c :: b) ++ y))) 0); cbn [negb]; lia.
Qed.

Lemma mantissa_nonneg : forall a, 0 <= mantissa_length a.
Proof. intros a. unfold mantissa_length. destruct (split_bare a) as [n b]. pose proof (word_nonneg b). destruct (_ && _); lia. Qed.

Lemma length_at_least : forall a n b, split_bare a = (n, b) -> Z.min (zlen (mantissa_text n)) 2049 <= text_length a.
Proof.
  intros a n b E. pose proof (mantissa_at_least a n b E) as M. unfold text_length. rewrite E. destruct b as [|mk r]; [exact M|].
  pose proof (mantissa_nonneg r). destruct (_ && _); [unfold zlen; lia|exact M].
Qed.

Lemma length_grows : forall a y, text_length a <= text_length (a ++ y).
Proof.
  intros a y. destruct (split_bare a) as [n b] eqn:E. destruct b as [|mk r].
  - destruct (split_bare (a ++ y)) as [n' b'] eqn:E'. pose proof (split_longer _ _ _ _ _ E E') as L. pose proof (length_at_least _ _ _ E') as A.
    unfold text_length at 1. rewrite E. unfold mantissa_length. rewrite E. change (snd (word_at [])) with 0. cbn [Z.eqb negb]. rewrite andb_false_r. unfold zlen in A. lia.
  - pose proof (split_app _ _ _ y E ltac:(discriminate)) as E'. unfold text_length. rewrite E, E'. cbn [app].
    pose proof (mantissa_grows r y). pose proof (mantissa_grows a y). destruct (_ && _); lia.
Qed.

(** * The part that is taken *)
Lemma mantissa_cut : forall a n b, split_bare a = (n, b) -> (List.length (mantissa_text n) <= parser_limit)%nat ->
  exists b', split_bare (firstn (Z.to_nat (mantissa_length a)) a) = (n, b') /\
    (no_digits n && negb (snd (word_at b) =? 0) = true -> word_at b' = word_at b /\ zlen b' = snd (word_at b)) /\
    (no_digits n && negb (snd (word_at b) =? 0) = false -> b' = []).
Proof.
  intros a n b E L. destruct (split_maximal a n b E) as (X & Ea & M). unfold mantissa_length. rewrite E.
  set (m := mantissa_text n) in *. pose proof (word_nonneg b) as W0. pose proof (word_len b) as WL.
  destruct (no_digits n && negb (snd (word_at b) =? 0)) eqn:B.
  - exists (firstn (Z.to_nat (snd (word_at b))) b). split; [|split; [intros _; split; [apply word_cut|]|discriminate]].
    + replace (Z.to_nat (Z.of_nat (List.length m) + snd (word_at b))) with (List.length m + Z.to_nat (snd (word_at b)))%nat by lia.
      rewrite Ea at 1. rewrite firstn_app_2. apply split_bare_full; [exact X|].
      apply andb_prop in B as [_ B]. apply negb_true_iff, Z.eqb_neq in B. destruct (Z.to_nat (snd (word_at b))) eqn:Q; [lia|]. destruct b; exact M.
    + unfold zlen in *. rewrite firstn_length. lia.
  - exists []. split; [|split; [discriminate|reflexivity]]. unfold parser_limit in L.
    replace (Z.to_nat (Z.min (Z.of_nat (List.length m)) 2049)) with (List.length m) by lia.
    rewrite Ea at 1. rewrite firstn_app, Nat.sub_diag, firstn_all, firstn_O, app_nil_r. rewrite <- (app_nil_r m) at 1. apply split_bare_full; [exact X|apply maximal_zero].
Qed.

Lemma no_digits_zero : forall n, no_digits n = true -> coefficient n = 0.
Proof. intros n H. unfold no_digits in H. unfold coefficient, frac_digits. destruct (n_int n); [|discriminate]. destruct (n_frac n); [discriminate|reflexivity]. Qed.

Lemma short_of : forall a n b, split_bare a = (n, b) -> mantissa_length a < 2049 -> (List.length (mantissa_text n) <= parser_limit)%nat.
Proof.
  intros a n b E H. destruct (split_maximal a n b E) as (X & _ & _). unfold mantissa_length in H. rewrite E in H. unfold parser_limit.
  destruct (no_digits n) eqn:N; cbn [andb] in H; [|lia]. destruct (snd (word_at b) =? 0); cbn [negb] in H; [lia|].
  rewrite (proj1 (no_digits_text n X) N). destruct (n_sign n); cbn; lia.
Qed.

Lemma firstn_split : forall a n b, split_bare a = (n, b) -> (List.length (mantissa_text n) <= parser_limit)%nat ->
  fst (split_bare (firstn (S parser_limit) a)) = n.
Proof.
  intros a n b E L. destruct (split_maximal a n b E) as (X & Er & M).
  assert (split_bare (firstn (S parser_limit) a) = (n, firstn (S parser_limit - List.length (mantissa_text n)) b)) as ->; [|reflexivity].
  rewrite Er at 1. rewrite firstn_app, firstn_all2 by lia. apply split_bare_full; [exact X|].
  destruct (S parser_limit - List.length (mantissa_text n))%nat eqn:Q; [lia|]. destruct b; exact M.
Qed.

Lemma mantissa_again : forall a, mantissa_length a < 2049 ->
  mantissa_length (firstn (Z.to_nat (mantissa_length a)) a) = mantissa_length a /\
  fst (split_bare (firstn (S parser_limit) (firstn (Z.to_nat (mantissa_length a)) a))) = fst (split_bare (firstn (S parser_limit) a)).
Proof.
  intros a H. destruct (split_bare a) as [n b] eqn:E. pose proof (short_of a n b E H) as L.
  destruct (mantissa_cut a n b E L) as (b' & E' & W1 & W2). split.
  - unfold mantissa_length at 1. rewrite E'. unfold mantissa_length. rewrite E. destruct (no_digits n && negb (snd (word_at b) =? 0)) eqn:B.
    + destruct (W1 eq_refl) as [-> _]. rewrite B. reflexivity.
    + rewrite (W2 eq_refl). change (snd (word_at [])) with 0. cbn [Z.eqb negb]. rewrite andb_false_r. reflexivity.
  - now rewrite (firstn_split _ _ _ E' L), (firstn_split _ _ _ E L).
Qed.

Lemma read_again : forall t a, text_length a < 2049 ->
  let c := firstn (Z.to_nat (text_length a)) a in meaning_of t c = meaning_of t a /\ text_length c = text_length a.
Proof.
  intros t a H c. destruct (split_bare a) as [n b] eqn:E. destruct (split_maximal a n b E) as (X & Ea & M).
  (* without an exponent *)
  assert (P : text_length a = mantissa_length a ->
    (no_digits n && negb (snd (word_at b) =? 0) = false -> meaning_of t a = Number n) -> meaning_of t c = meaning_of t a /\ text_length c = text_length a).
  { intros EL NE. unfold c. rewrite EL in *. pose proof (short_of a n b E H) as L.
    destruct (mantissa_cut a n b E L) as (b' & E' & W1 & W2). destruct (mantissa_again a H) as [A _].
    destruct (no_digits n && negb (snd (word_at b) =? 0)) eqn:B.
    - destruct (W1 eq_refl) as [W _]. split.
      + unfold meaning_of. rewrite E, E', W, B. reflexivity.
      + unfold text_length. rewrite E'. rewrite A. apply andb_prop in B as [B _]. apply no_digits_zero in B. rewrite B. cbn [Z.eqb negb].
        destruct b' as [|mk r]; [reflexivity|]. rewrite andb_false_r. reflexivity.
    - rewrite (W2 eq_refl) in E'. split.
      + rewrite (NE eq_refl). unfold meaning_of. rewrite E'. change (snd (word_at [])) with 0. cbn [Z.eqb negb]. rewrite andb_false_r. reflexivity.
      + unfold text_length. rewrite E'. exact A. }
  destruct b as [|mk r].
  - apply P; [unfold text_length; now rewrite E|]. intros B. unfold meaning_of. rewrite E, B. reflexivity.
  - destruct ((lower mk =? code "e") && negb (coefficient n =? 0) && (List.length (mantissa_text n) <=? parser_limit)%nat) eqn:B.
    + assert (TL : text_length a = Z.of_nat (List.length (mantissa_text n)) + 1 + mantissa_length r) by (unfold text_length; now rewrite E, B).
      pose proof (mantissa_nonneg r) as MN. destruct (mantissa_again r ltac:(lia)) as [A1 A2].
      assert (Ec : c = mantissa_text n ++ mk :: firstn (Z.to_nat (mantissa_length r)) r).
      { unfold c. rewrite TL. replace (Z.to_nat _) with (List.length (mantissa_text n) + S (Z.to_nat (mantissa_length r)))%nat by lia.
        rewrite Ea at 1. now rewrite firstn_app_2. }
      assert (Es : split_bare c = (n, mk :: firstn (Z.to_nat (mantissa_length r)) r)) by (rewrite Ec; apply split_bare_full; [exact X|exact M]).
      assert (ND : no_digits n = false).
      { destruct (no_digits n) eqn:N; [|reflexivity]. apply no_digits_zero in N. rewrite N in B. cbn [Z.eqb negb] in B. rewrite andb_false_r in B. discriminate B. }
      split.
      * unfold meaning_of. rewrite E, Es, ND, B. cbn [andb]. unfold applied. rewrite A2. reflexivity.
      * rewrite TL. unfold text_length. rewrite Es, B, A1. reflexivity.
    + apply P; [unfold text_length; now rewrite E, B|]. intros W. unfold meaning_of. rewrite E, W, B. reflexivity.
Qed.

(** C98: what atof consumes of a text it consumes of every longer text, too ... *)
Theorem C98_grows : forall t a y rest rest' fb fb' errno errno' r r',
  atof (fmt_of t) (a ++ 0 :: rest) true fb errno = Ok r -> at_used_fallback r = false ->
  atof (fmt_of t) (a ++ y ++ 0 :: rest') true fb' errno' = Ok r' -> at_used_fallback r' = false ->
  exists k k', at_str_end r = Some k /\ at_str_end r' = Some k' /\ k <= k'.
Proof.
  assert (Q : forall t a rest fb errno r, atof (fmt_of t) (a ++ 0 :: rest) true fb errno = Ok r -> at_used_fallback r = false -> at_str_end r = Some (text_length a)).
  { intros t a rest fb errno r E U. pose proof (C96_any_text t a rest true fb errno) as H. cbv zeta in H. unfold read_text in H.
    destruct (meaning_of t a) as [|sg w|n].
    - destruct H as [f H]. congruence.
    - rewrite E in H. injection H as ->. reflexivity.
    - destruct (read_number t n).
      + rewrite E in H. injection H as ->. reflexivity.
      + rewrite E in H. unfold fallback_answer in H. destruct (fb _ _); [|discriminate]. injection H as ->. discriminate U. }
  intros t a y rest rest' fb fb' errno errno' r r' E U E' U'. rewrite app_assoc in E'. exists (text_length a), (text_length (a ++ y)).
  split; [exact (Q _ _ _ _ _ _ E U)|]. split; [exact (Q _ _ _ _ _ _ E' U')|apply length_grows].
Qed.

(** ... and if it consumes less than 2049 characters, the consumed ones alone are read alike ... *)
Theorem C98_alone : forall t a rest fb errno r k, atof (fmt_of t) (a ++ 0 :: rest) true fb errno = Ok r -> at_used_fallback r = false ->
  at_str_end r = Some k -> k < 2049 ->
  forall rest' fb', atof (fmt_of t) (firstn (Z.to_nat k) a ++ 0 :: rest') true fb' errno = Ok r.
Proof.
  intros t a rest fb errno r k E U K L rest' fb'.
  pose proof (C96_any_text t a rest true fb errno) as H. cbv zeta in H.
  assert (Ek : k = text_length a).
  { destruct (C98_grows t a [] rest rest fb fb errno errno r r E U E U) as (k1 & k2 & K1 & _ & _).
    unfold read_text in H. destruct (meaning_of t a) as [|sg w|n].
    - destruct H as [f H]. congruence.
    - rewrite E in H. injection H as ->. cbn in K. congruence.
    - destruct (read_number t n).
      + rewrite E in H. injection H as ->. cbn in K. congruence.
      + rewrite E in H. unfold fallback_answer in H. destruct (fb _ _); [|discriminate]. injection H as ->. discriminate U. }
  subst k. destruct (read_again t a L) as [R1 R2].
  pose proof (C96_any_text t (firstn (Z.to_nat (text_length a)) a) rest' true fb' errno) as G. cbv zeta in G.
  unfold read_text in H, G. rewrite R1, R2 in G. destruct (meaning_of t a) as [|sg w|n].
  - destruct H as [f H]. congruence.
  - congruence.
  - destruct (read_number t n); [congruence|]. rewrite E in H. unfold fallback_answer in H. destruct (fb _ _); [|discriminate]. injection H as ->. discriminate U.
Qed.

(** ... also when the fallback is asked, or the behaviour undefined, for the text up to where the
    parser stopped *)
Theorem C98_outcome : forall t a, text_length a < 2049 -> read_text t (firstn (Z.to_nat (text_length a)) a) = read_text t a.
Proof. intros t a H. destruct (read_again t a H) as [R1 R2]. unfold read_text. now rewrite R1, R2. Qed.
