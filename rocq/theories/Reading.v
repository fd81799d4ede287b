(** C75: how much of any text atof takes. *)
From Coq Require Import Reals Lra Lia ZArith List String Ascii.
From Flocq Require Import Core.
From Verif Require Import Machine MachineFacts BitOps StaticPow Fraction Format DiyFp KComp Chars Krosh Atof Spec ParseSpec TextSpec ReadSpec ParseApi Instances
  DiyFacts BoundFacts TableFacts GrisuFacts FtoaFacts RoundFacts DownFacts DvalFacts CmpFacts ArithProps ScanFacts LoopFacts ParseFacts GapFacts KroshNum ShortFacts FracFacts LongFacts ParseProps Refuted LocalFacts LocalProps NegFacts Marker Tokens Truncate Defined Ends.
Open Scope Z_scope.

Lemma is_digit_spec : forall c, is_digit c = true <-> 48 <= c <= 57.
Proof.
  intros c. unfold is_digit. change (code "0") with 48. change (code "9") with 57. rewrite andb_true_iff, !Z.leb_le. reflexivity.
Qed.

Lemma take_digits_ok : forall a l b, take_digits a = (l, b) -> a = dchars l ++ b /\ Forall digit l /\ nondigit (hd 0 b).
Proof.
  induction a as [|c a IH]; intros l b E; cbn [take_digits] in E.
  - injection E as <- <-. split; [reflexivity|]. split; [constructor|]. unfold nondigit. cbn. lia.
  - destruct (is_digit c) eqn:D.
    + destruct (take_digits a) as [l' b'] eqn:Ea. injection E as <- <-. destruct (IH l' b' eq_refl) as (-> & H2 & H3).
      apply is_digit_spec in D. change (code "0") with 48.
      split; [|split; [constructor; [unfold digit; lia|exact H2]|exact H3]].
      change (dchars (c - 48 :: l')) with (48 + (c - 48) :: dchars l'). rewrite <- app_comm_cons. f_equal. lia.
    + injection E as <- <-. split; [reflexivity|]. split; [constructor|]. cbn [hd]. unfold nondigit. rewrite <- is_digit_spec. congruence.
Qed.

Lemma take_sign_ok : forall a sg u, take_sign a = (sg, u) -> a = sign_text sg ++ u /\ (sg = NoSign -> hd 0 u <> 43 /\ hd 0 u <> 45).
Proof.
  intros [|c a] sg u E; cbn [take_sign] in E; [injection E as <- <-; split; [reflexivity|cbn; lia]|].
  change (code "+") with 43 in E. change (code "-") with 45 in E.
  destruct (Z.eqb_spec c 43); [injection E as <- <-; subst c; split; [reflexivity|discriminate]|].
  destruct (Z.eqb_spec c 45); [injection E as <- <-; subst c; split; [reflexivity|discriminate]|].
  injection E as <- <-. split; [reflexivity|]. cbn [hd]. auto.
Qed.

Lemma no_digits_text : forall n, bare n -> (no_digits n = true <-> mantissa_text n = sign_text (n_sign n)).
Proof.
  intros n (_ & X2 & X3). rewrite mant_text. unfold mant, no_digits. split.
  - destruct (n_int n), (n_frac n); try discriminate. intros _. apply app_nil_r.
  - intros E. rewrite <- (app_nil_r (sign_text _)) in E at 2. apply app_inv_head in E. destruct (n_int n); [|discriminate]. destruct (n_frac n); [discriminate|reflexivity].
Qed.

Lemma split_bare_ok : forall a n b, split_bare a = (n, b) -> bare n /\ a = mantissa_text n ++ b /\
  (no_digits n = false \/ ~ In (hd 0 b) (text "nNiI") -> cannot_continue n (hd 0 b)).
Proof.
  intros a n b E. unfold split_bare in E.
  destruct (take_sign a) as [sg u] eqn:E1. destruct (take_sign_ok _ _ _ E1) as [-> HS].
  destruct (take_digits u) as [i v] eqn:E2. destruct (take_digits_ok _ _ _ E2) as (-> & DI & NI).
  assert (V : exists F, n = {| n_sign := sg; n_int := i; n_frac := F; n_exp := None |} /\
     v = (match F with None => [] | Some f => 46 :: dchars f end) ++ b /\ Forall digit (odig F) /\ nondigit (hd 0 b) /\ (hd 0 b = 46 -> F <> None)).
  { destruct v as [|x v]; [injection E as <- <-; exists None; cbn; repeat split; auto; intros; discriminate|].
    change (code ".") with 46 in E. destruct (Z.eqb_spec x 46) as [-> |].
    - destruct (take_digits v) as [f b'] eqn:E3. injection E as <- <-. destruct (take_digits_ok _ _ _ E3) as (-> & Df & Nb). exists (Some f). split; [reflexivity|]. split; [reflexivity|]. split; [exact Df|]. split; [exact Nb|]. discriminate.
    - injection E as <- <-. exists None. split; [reflexivity|]. split; [reflexivity|]. split; [constructor|]. split; [exact NI|]. cbn [hd]. congruence. }
  destruct V as (F & -> & -> & DF & NB & HF). clear E E1 E2. set (n := {| n_sign := sg; n_int := i; n_frac := F; n_exp := None |}).
  assert (MT : mantissa_text n = sign_text sg ++ dchars i ++ match F with None => [] | Some f => 46 :: dchars f end) by (rewrite mant_text; reflexivity).
  assert (X : bare n) by (split; [reflexivity|split; [exact DI|now rewrite frac_odig]]).
  split; [exact X|]. split; [rewrite MT, <- !app_assoc; reflexivity|].
  intros HN. split; [exact NB|]. split; [exact HF|]. split.
  - change (code "+") with 43. change (code "-") with 45. intros P E0. rewrite E0 in MT. symmetry in MT.
    apply app_eq_nil in MT as [M0 MT]. apply app_eq_nil in MT as [M1 M2]. assert (Esg : sg = NoSign) by (destruct sg; [reflexivity|discriminate|discriminate]).
    specialize (HS Esg). rewrite M1, M2 in HS. cbn [app] in HS. lia.
  - intros HI E0. destruct HN as [HN|HN]; [|contradiction]. apply (no_digits_text n X) in E0. congruence.
Qed.

(** * Words *)

Lemma lower_tolower : forall c, lower c = tolower c.
Proof.
  intros c. unfold lower, tolower. change (code "A") with 65. change (code "Z") with 90. change (code "a") with 97.
  destruct ((65 <=? c) && (c <=? 90)); lia.
Qed.

Lemma is_payload_nchar : forall c, is_payload c = is_nchar c.
Proof.
  intros c. unfold is_payload, is_nchar, is_digit. rewrite lower_tolower. reflexivity.
Qed.

Lemma tolower_is : forall c l, 97 <= l <= 122 -> (tolower c =? l) = (c =? l) || (c =? l - 32).
Proof.
  intros c l L. unfold tolower. destruct (Z.leb_spec 65 c), (Z.leb_spec c 90); cbn [andb];
    destruct (Z.eqb_spec c l), (Z.eqb_spec c (l - 32)); cbn [orb]; try reflexivity; try lia; try (apply Z.eqb_eq; lia); try (apply Z.eqb_neq; lia).
Qed.

Lemma closing_nonneg : forall b, 0 <= closing b.
Proof. induction b as [|c b IH]; cbn [closing]; [lia|]. destruct (c =? code ")"); [lia|]. destruct (is_payload c); [|lia]. cbv zeta. destruct (closing b =? 0); lia. Qed.

(** the payload of a nan *)
Lemma closing_end : forall b s fuel cp pre rest, s = pre ++ b ++ 0 :: rest -> cp + 1 = zlen pre -> (List.length b < fuel)%nat ->
  exists q, nan_payload_end s fuel cp = Ok q /\ exists x, read s q = Ok x /\ cp + 1 <= q /\
    (x =? ch_rpar) = negb (closing b =? 0) /\ (closing b <> 0 -> closing b = q - cp).
Proof.
  induction b as [|c b IH]; intros s fuel cp pre rest E Hc Hf; (destruct fuel as [|fuel]; [cbn in Hf; lia|]); cbn [nan_payload_end closing]; cbv zeta; rewrite Hc.
  - assert (R : read s (zlen pre) = Ok 0) by (rewrite E; now apply read_app). rewrite R. cbn [bind].
    change (is_nchar 0) with false. cbv iota. exists (zlen pre). split; [reflexivity|]. exists 0. split; [exact R|]. split; [lia|]. split; [reflexivity|]. lia.
  - assert (R : read s (zlen pre) = Ok c) by (rewrite E; now apply read_app). rewrite R. cbn [bind]. rewrite is_payload_nchar.
    change (code ")") with 41. destruct (is_nchar c) eqn:NC.
    + assert (c =? 41 = false) as -> by (destruct (Z.eqb_spec c 41) as [-> |]; [discriminate NC|reflexivity]).
      destruct (IH s fuel (zlen pre) (pre ++ [c]) rest) as (q & Q1 & x & Q2 & Q3 & Q4 & Q5).
      { rewrite E, <- app_assoc. reflexivity. } { rewrite zlen_app. reflexivity. } { cbn in Hf. lia. }
      exists q. split; [exact Q1|]. exists x. split; [exact Q2|]. split; [lia|]. rewrite Q4. pose proof (closing_nonneg b).
      destruct (Z.eqb_spec (closing b) 0) as [Z0|Z0]; [split; [reflexivity|lia]|]. specialize (Q5 Z0).
      destruct (Z.eqb_spec (1 + closing b) 0); [lia|]. split; [reflexivity|]. lia.
    + exists (zlen pre). split; [reflexivity|]. exists c. split; [exact R|]. split; [lia|]. unfold ch_rpar.
      destruct (Z.eqb_spec c 41) as [-> |N]; cbn [negb Z.eqb]; (split; [reflexivity|]); lia.
Qed.

(** texts with their terminator: reading behind a prefix *)
Ltac rd := match goal with |- context [read (?a ++ ?u) (zlen ?a + ?k)] =>
  rewrite (read_behind a u k _ ltac:(lia) eq_refl) end.

Lemma word_nan : forall pre c b rest, any_case c 110 ->
  exists k, eat_nan ((pre ++ [c]) ++ b ++ 0 :: rest) (zlen pre + 1) = Ok k /\ 0 <= k /\
    word_at (c :: b) = (if k =? 0 then NoWord else Nan, 1 + k).
Proof.
  intros pre c b rest Hc. set (s := (pre ++ [c]) ++ b ++ 0 :: rest).
  assert (LP : zlen pre + 1 = zlen (pre ++ [c])) by (rewrite zlen_app; reflexivity). rewrite LP.
  assert (LC : lower c = 110) by (rewrite lower_tolower; apply (any_case_lower c 110 Hc ltac:(lia))).
  assert (NI : starts (text "infinity") (c :: b) = false /\ starts (text "inf") (c :: b) = false /\ starts (text "n") (c :: b) = true).
  { cbn [text starts]. change (text "infinity") with [105; 110; 102; 105; 110; 105; 116; 121]. change (text "inf") with [105; 110; 102]. change (text "n") with [110].
    cbn [starts]. rewrite LC. repeat split; reflexivity. }
  destruct NI as (N1 & N2 & N3).
  assert (R : forall i x, 0 <= i -> read (b ++ 0 :: rest) i = Ok x -> read s (zlen (pre ++ [c]) + i) = Ok x) by (intros; now apply read_behind).
  assert (No : forall k, k = 0 -> starts (text "nan") (c :: b) = false -> exists k0, Ok k = Ok k0 /\ 0 <= k0 /\ word_at (c :: b) = (if k0 =? 0 then NoWord else Nan, 1 + k0)).
  { intros k -> E. exists 0. split; [reflexivity|]. split; [lia|]. unfold word_at. rewrite E, N1, N2, N3. reflexivity. }
  unfold eat_nan. change (text "nan") with [110; 97; 110] in *. cbn [starts] in *. rewrite LC in No. change (110 =? 110) with true in No. cbn [andb] in No.
  assert (R0 : forall x, read (b ++ 0 :: rest) 0 = Ok x -> read s (zlen (pre ++ [c])) = Ok x) by (intros x Hx; rewrite <- (Z.add_0_r (zlen (pre ++ [c]))); apply R; [lia|exact Hx]).
  destruct b as [|b0 b].
  { rewrite (R0 0 eq_refl). cbn [bind]. apply No; reflexivity. }
  rewrite (R0 b0 eq_refl). cbn [bind].
  pose proof (tolower_is b0 97 ltac:(lia)) as T0. change ((b0 =? ch_a) || (b0 =? ch_A)) with ((b0 =? 97) || (b0 =? 97 - 32)). rewrite <- T0, <- lower_tolower.
  destruct (lower b0 =? 97) eqn:B0; [|apply No; reflexivity].
  destruct b as [|b1 b].
  { rewrite (R 1 0 ltac:(lia) eq_refl). cbn [bind]. apply No; reflexivity. }
  rewrite (R 1 b1 ltac:(lia) eq_refl). cbn [bind].
  pose proof (tolower_is b1 110 ltac:(lia)) as T1. change ((b1 =? ch_n) || (b1 =? ch_N)) with ((b1 =? 110) || (b1 =? 110 - 32)). rewrite <- T1, <- lower_tolower.
  destruct (lower b1 =? 110) eqn:B1; [|apply No; reflexivity]. clear No.
  assert (ST : starts (text "nan") (c :: b0 :: b1 :: b) = true).
  { change (text "nan") with [110; 97; 110]. cbn [starts]. rewrite LC, B0, B1. reflexivity. }
  unfold word_at. rewrite ST. cbn [skipn]. cbv zeta.
  destruct b as [|b2 b].
  { rewrite (R 2 0 ltac:(lia) eq_refl). cbn [bind]. exists 2. split; [reflexivity|]. split; [lia|reflexivity]. }
  rewrite (R 2 b2 ltac:(lia) eq_refl). cbn [bind]. change (code "(") with 40. unfold ch_lpar.
  destruct (Z.eqb_spec b2 40) as [-> |N40]; [|exists 2; split; [reflexivity|]; split; [lia|reflexivity]].
  cbn [andb].
  destruct (closing_end b s (S (List.length s)) (zlen (pre ++ [c]) + 2) (pre ++ [c; b0; b1; 40]) rest) as (q & Q1 & x & Q2 & Q3 & Q4 & Q5).
  { unfold s. rewrite <- !app_assoc. reflexivity. } { rewrite !zlen_app. cbn. lia. }
  { unfold s. rewrite !app_length. cbn [List.length]. lia. }
  rewrite Q1. cbn [bind]. rewrite Q2. cbn [bind]. rewrite Q4.
  destruct (Z.eqb_spec (closing b) 0) as [Z0|Z0]; cbn [negb]; [exists 2; split; [reflexivity|]; split; [lia|reflexivity]|].
  specialize (Q5 Z0). exists (3 + closing b). pose proof (closing_nonneg b). split; [f_equal; lia|]. split; [lia|].
  destruct (Z.eqb_spec (3 + closing b) 0); [lia|]. f_equal. lia.
Qed.

Lemma match_starts : forall w s pre b rest, Forall (fun l => 97 <= l <= 122) w -> s = pre ++ b ++ 0 :: rest ->
  match_suffix s w (zlen pre) = Ok (if starts w b then Some (zlen pre + zlen w) else None).
Proof.
  induction w as [|l w IH]; intros s pre b rest HF E; cbn [match_suffix starts].
  - rewrite zlen_nil, Z.add_0_r. reflexivity.
  - inversion_clear HF as [|? ? F1 F2]. destruct b as [|c b].
    + assert (R : read s (zlen pre) = Ok 0) by (rewrite E; now apply read_app). rewrite R. cbn [bind].
      change (tolower 0) with 0. destruct (Z.eqb_spec 0 l); [lia|]. reflexivity.
    + assert (R : read s (zlen pre) = Ok c) by (rewrite E; now apply read_app). rewrite R. cbn [bind]. rewrite lower_tolower.
      destruct (tolower c =? l); cbn [andb]; [|reflexivity].
      rewrite zlen_cons. replace (zlen pre + 1) with (zlen (pre ++ [c])) by (rewrite zlen_app; reflexivity).
      rewrite (IH s (pre ++ [c]) b rest F2) by (rewrite E, <- app_assoc; reflexivity).
      rewrite zlen_app. destruct (starts w b); [|reflexivity]. do 2 f_equal. rewrite zlen_cons, zlen_nil. lia.
Qed.

Lemma word_inf : forall pre c b rest, any_case c 105 ->
  exists k, eat_inf ((pre ++ [c]) ++ b ++ 0 :: rest) (zlen pre + 1) = Ok k /\ 0 <= k /\
    word_at (c :: b) = (if k =? 0 then NoWord else Inf, 1 + k).
Proof.
  intros pre c b rest Hc. set (s := (pre ++ [c]) ++ b ++ 0 :: rest).
  assert (LP : zlen pre + 1 = zlen (pre ++ [c])) by (rewrite zlen_app; reflexivity). rewrite LP.
  assert (LC : lower c = 105) by (rewrite lower_tolower; apply (any_case_lower c 105 Hc ltac:(lia))).
  assert (NI : starts (text "nan") (c :: b) = false /\ starts (text "n") (c :: b) = false /\ starts (text "i") (c :: b) = true).
  { change (text "nan") with [110; 97; 110]. change (text "i") with [105]. change (text "n") with [110].
    cbn [starts]. rewrite LC. repeat split; reflexivity. }
  destruct NI as (N1 & N2 & N3).
  assert (R : forall i x, 0 <= i -> read (b ++ 0 :: rest) i = Ok x -> read s (zlen (pre ++ [c]) + i) = Ok x) by (intros; now apply read_behind).
  assert (EW : word_at (c :: b) = if starts [110; 102; 105; 110; 105; 116; 121] b then (Inf, 8) else if starts [110; 102] b then (Inf, 3) else (NoWord, 1)).
  { unfold word_at. rewrite N1, N2, N3. change (text "infinity") with [105; 110; 102; 105; 110; 105; 116; 121]. change (text "inf") with [105; 110; 102].
    change (starts [105; 110; 102; 105; 110; 105; 116; 121] (c :: b)) with ((lower c =? 105) && starts [110; 102; 105; 110; 105; 116; 121] b).
    change (starts [105; 110; 102] (c :: b)) with ((lower c =? 105) && starts [110; 102] b). rewrite LC. reflexivity. }
  rewrite EW. clear EW N1 N2 N3 LC.
  assert (R0 : forall x, read (b ++ 0 :: rest) 0 = Ok x -> read s (zlen (pre ++ [c])) = Ok x) by (intros x Hx; rewrite <- (Z.add_0_r (zlen (pre ++ [c]))); apply R; [lia|exact Hx]).
  unfold eat_inf.
  destruct b as [|b0 b].
  { rewrite (R0 0 eq_refl). cbn [bind]. exists 0. split; [reflexivity|]. split; [lia|reflexivity]. }
  rewrite (R0 b0 eq_refl). cbn [bind].
  pose proof (tolower_is b0 110 ltac:(lia)) as T0. change ((b0 =? ch_n) || (b0 =? ch_N)) with ((b0 =? 110) || (b0 =? 110 - 32)). rewrite <- T0, <- lower_tolower.
  change (starts [110; 102; 105; 110; 105; 116; 121] (b0 :: b)) with ((lower b0 =? 110) && starts [102; 105; 110; 105; 116; 121] b).
  change (starts [110; 102] (b0 :: b)) with ((lower b0 =? 110) && starts [102] b).
  destruct (lower b0 =? 110) eqn:B0; cbn [andb]; [|exists 0; split; [reflexivity|]; split; [lia|reflexivity]].
  destruct b as [|b1 b].
  { rewrite (R 1 0 ltac:(lia) eq_refl). cbn [bind]. exists 0. split; [reflexivity|]. split; [lia|reflexivity]. }
  rewrite (R 1 b1 ltac:(lia) eq_refl). cbn [bind].
  pose proof (tolower_is b1 102 ltac:(lia)) as T1. change ((b1 =? ch_f) || (b1 =? ch_F)) with ((b1 =? 102) || (b1 =? 102 - 32)). rewrite <- T1, <- lower_tolower.
  change (starts [102; 105; 110; 105; 116; 121] (b1 :: b)) with ((lower b1 =? 102) && starts [105; 110; 105; 116; 121] b).
  change (starts [102] (b1 :: b)) with ((lower b1 =? 102) && true).
  destruct (lower b1 =? 102) eqn:B1; cbn [andb]; [|exists 0; split; [reflexivity|]; split; [lia|reflexivity]].
  cbv zeta. destruct b as [|b2 b].
  { rewrite (R 2 0 ltac:(lia) eq_refl). cbn [bind]. exists 2. split; [reflexivity|]. split; [lia|reflexivity]. }
  rewrite (R 2 b2 ltac:(lia) eq_refl). cbn [bind].
  pose proof (tolower_is b2 105 ltac:(lia)) as T2. change ((b2 =? ch_i) || (b2 =? ch_I)) with ((b2 =? 105) || (b2 =? 105 - 32)). rewrite <- T2, <- lower_tolower.
  change (starts [105; 110; 105; 116; 121] (b2 :: b)) with ((lower b2 =? 105) && starts [110; 105; 116; 121] b).
  destruct (lower b2 =? 105) eqn:B2; cbn [andb]; [|exists 2; split; [reflexivity|]; split; [lia|reflexivity]].
  pose proof (match_starts [ch_n; ch_i; ch_t; ch_y] s (pre ++ [c; b0; b1; b2]) b rest nity_letters) as M.
  replace (zlen (pre ++ [c]) + 2 + 1) with (zlen (pre ++ [c; b0; b1; b2])) by (rewrite !zlen_app; cbn; lia).
  rewrite M by (unfold s; rewrite <- !app_assoc; reflexivity). change (starts [ch_n; ch_i; ch_t; ch_y] b) with (starts [110; 105; 116; 121] b).
  destruct (starts [110; 105; 116; 121] b); cbn [bind].
  - exists 7. split; [f_equal; rewrite !zlen_app; cbn; lia|]. split; [lia|reflexivity].
  - exists 2. split; [reflexivity|]. split; [lia|reflexivity].
Qed.

(** * The whole text *)

Lemma word_letters : forall b, snd (word_at b) = 0 <-> ~ In (hd 0 b) (text "nNiI").
Proof.
  intros b. rewrite in_words. unfold is_n, is_i.
  assert (SI : starts (text "infinity") b = true -> starts (text "inf") b = true).
  { change (text "infinity") with [105; 110; 102; 105; 110; 105; 116; 121]. change (text "inf") with [105; 110; 102].
    destruct b as [|x1 [|x2 [|x3 b]]]; cbn [starts]; rewrite ?andb_false_r; try discriminate. rewrite !andb_true_iff. tauto. }
  assert (SN : forall w, starts (text "n" ++ w) b = true -> starts (text "n") b = true).
  { change (text "n") with [110]. intros w. cbn [app]. destruct b as [|x b]; cbn [starts]; [discriminate|]. rewrite !andb_true_iff. tauto. }
  assert (SJ : forall w, starts (text "i" ++ w) b = true -> starts (text "i") b = true).
  { change (text "i") with [105]. intros w. cbn [app]. destruct b as [|x b]; cbn [starts]; [discriminate|]. rewrite !andb_true_iff. tauto. }
  assert (LN : starts (text "n") b = (hd 0 b =? 110) || (hd 0 b =? 78)).
  { change (text "n") with [110]. destruct b as [|x b]; [reflexivity|]. cbn [starts hd]. rewrite lower_tolower, andb_true_r. exact (tolower_is x 110 ltac:(lia)). }
  assert (LI : starts (text "i") b = (hd 0 b =? 105) || (hd 0 b =? 73)).
  { change (text "i") with [105]. destruct b as [|x b]; [reflexivity|]. cbn [starts hd]. rewrite lower_tolower, andb_true_r. exact (tolower_is x 105 ltac:(lia)). }
  change (hd 0 b =? ch_n) with (hd 0 b =? 110). change (hd 0 b =? ch_N) with (hd 0 b =? 78). change (hd 0 b =? ch_i) with (hd 0 b =? 105). change (hd 0 b =? ch_I) with (hd 0 b =? 73).
  rewrite <- LN, <- LI. clear LN LI. unfold word_at.
  destruct (starts (text "nan") b) eqn:E1.
  { rewrite (SN (text "an") E1). cbn [orb]. cbn [snd]. split; [|congruence]. intros H. exfalso.
    destruct (skipn 3 b) as [|c r]; [discriminate|]. pose proof (closing_nonneg r). destruct ((c =? code "(") && negb (closing r =? 0)); lia. }
  destruct (starts (text "infinity") b) eqn:E2.
  { rewrite (SJ (text "nfinity") E2), orb_true_r. cbn [snd]. split; [discriminate|congruence]. }
  destruct (starts (text "inf") b) eqn:E3.
  { rewrite (SJ (text "nf") E3), orb_true_r. cbn [snd]. split; [discriminate|congruence]. }
  destruct (starts (text "n") b || starts (text "i") b); cbn [snd]; split; try discriminate; try congruence; try reflexivity.
Qed.

Definition special_of (w : word) : speciality := match w with Nan => sp_nan | Inf => sp_inf | NoWord => sp_no end.

Lemma word_digits : forall t sg b rest, snd (word_at b) <> 0 ->
  exists dp, parse_digits (fmt_of t) (sign_text sg ++ b ++ 0 :: rest) = Ok dp /\ dp_value dp = 0 /\ dp_K dp = 0 /\
    dp_str_end dp = zlen (sign_text sg) + snd (word_at b) /\ dp_special dp = special_of (fst (word_at b)) /\ dp_sign dp = negb (is_minus sg).
Proof.
  intros t sg b rest Hb.
  assert (Hc : In (hd 0 b) (text "nNiI")).
  { destruct (in_dec Z.eq_dec (hd 0 b) (text "nNiI")) as [|N]; [assumption|]. apply word_letters in N. contradiction. }
  destruct b as [|c r]; [vm_compute in Hc; intuition discriminate|]. cbn [hd] in Hc. clear Hb.
  destruct (word_scan t sg c r rest Hc) as (dp & P1 & P2 & P3 & _).
  rewrite <- app_comm_cons. set (s := sign_text sg ++ c :: r ++ 0 :: rest) in *.
  assert (Es : s = (sign_text sg ++ [c]) ++ r ++ 0 :: rest) by (unfold s; rewrite <- app_assoc; reflexivity).
  assert (ST : exists st1, step_char (decimal_q (fmt_of t)) s (sign_state sg) c = Ok (st1, true) /\ pd_digits st1 = [] /\ 0 <= pd_pos st1 /\
    pd_pos st1 = zlen (sign_text sg) + snd (word_at (c :: r)) /\ pd_special st1 = special_of (fst (word_at (c :: r))) /\ pd_sign st1 = negb (is_minus sg)).
  { pose proof (zlen_nonneg (sign_text sg)).
    assert (Hc' : any_case c 110 \/ any_case c 105) by (change (text "nNiI") with [110; 78; 105; 73] in Hc; cbn [In] in Hc; unfold any_case; change (code "a" - code "A") with 32; lia).
    destruct Hc' as [Hn|Hn].
    - destruct (word_nan (sign_text sg) c r rest Hn) as (k & K1 & K2 & ->). rewrite <- Es in K1.
      destruct (n_step (decimal_q (fmt_of t)) s sg c k Hn K1 K2) as (st1 & S1 & S2 & S3 & S4 & S5). exists st1.
      split; [exact S1|]. split; [exact S2|]. split; [lia|]. split; [cbn [snd]; lia|]. split; [|exact S5]. rewrite S4. destruct (k =? 0); reflexivity.
    - destruct (word_inf (sign_text sg) c r rest Hn) as (k & K1 & K2 & ->). rewrite <- Es in K1.
      destruct (i_step (decimal_q (fmt_of t)) s sg c k Hn K1 K2) as (st1 & S1 & S2 & S3 & S4 & S5). exists st1.
      split; [exact S1|]. split; [exact S2|]. split; [lia|]. split; [cbn [snd]; lia|]. split; [|exact S5]. rewrite S4. destruct (k =? 0); reflexivity. }
  destruct ST as (st1 & S1 & S2 & S3 & S4 & S5 & S6).
  destruct (scan_once t sg c (r ++ 0 :: rest) st1 S1 S2 S3) as (dp' & Q1 & _ & Q2 & Q3 & Q4). fold s in Q1.
  rewrite P1 in Q1. injection Q1 as <-. exists dp. split; [exact P1|]. split; [exact P2|]. split; [exact P3|]. split; [congruence|]. split; congruence.
Qed.

(** what the scanner makes of any text *)
Lemma reading_digits : forall t a rest n b, split_bare a = (n, b) ->
  (exists dp, no_digits n = true /\ snd (word_at b) <> 0 /\ parse_digits (fmt_of t) (a ++ 0 :: rest) = Ok dp /\
     dp_value dp = 0 /\ dp_str_end dp = mantissa_length a) \/
  (exists c r, a ++ 0 :: rest = mantissa_text n ++ c :: r /\ c = hd 0 b /\ bare n /\ cannot_continue n c /\
     mantissa_length a = Z.min (zlen (mantissa_text n)) 2049).
Proof.
  intros t a rest n b E. destruct (split_bare_ok a n b E) as (X & Ea & H).
  destruct (no_digits n && negb (snd (word_at b) =? 0)) eqn:W.
  - left. apply andb_true_iff in W as [W1 W2]. apply negb_true_iff, Z.eqb_neq in W2.
    destruct (word_digits t (n_sign n) b rest W2) as (dp & P1 & P2 & _ & P3 & _). exists dp.
    split; [exact W1|]. split; [exact W2|]. pose proof (proj1 (no_digits_text n X) W1) as MT.
    split; [rewrite Ea, MT, <- app_assoc; exact P1|]. split; [exact P2|].
    unfold mantissa_length. rewrite E, W1. destruct (Z.eqb_spec (snd (word_at b)) 0); [contradiction|]. cbn [andb negb]. rewrite P3, MT. reflexivity.
  - right. assert (B : exists c r, b ++ 0 :: rest = c :: r /\ c = hd 0 b) by (destruct b; cbn; eauto).
    destruct B as (c & r & EB & EC). exists c, r. split; [rewrite Ea, <- app_assoc, EB; reflexivity|]. split; [exact EC|]. split; [exact X|]. split.
    + rewrite EC. apply H. apply andb_false_iff in W as [W|W]; [now left|right]. apply negb_false_iff, Z.eqb_eq in W. now apply word_letters.
    + unfold mantissa_length. rewrite E, W. reflexivity.
Qed.

(** where it stops *)
Lemma reading_end : forall t a rest, exists dp, parse_digits (fmt_of t) (a ++ 0 :: rest) = Ok dp /\ dp_str_end dp = mantissa_length a.
Proof.
  intros t a rest. destruct (split_bare a) as [n b] eqn:E.
  destruct (reading_digits t a rest n b E) as [(dp & _ & _ & P1 & _ & P2)|(c & r & Es & _ & X & H & ->)]; [eauto|].
  destruct (scan_any t n c r X H) as (y & st & e & z & _ & _ & He & _ & _ & Hp). rewrite Es, Hp. eexists. split; [reflexivity|]. exact He.
Qed.

Lemma exponent_end : forall mk r rest ev ee, e_letter mk -> parse_exponent (mk :: r ++ 0 :: rest) = Ok (ev, ee) -> ee = 1 + mantissa_length r.
Proof.
  intros mk r rest ev ee Hm H. unfold parse_exponent in H. change (read (mk :: r ++ 0 :: rest) 0) with (Ok mk) in H. cbn [bind] in H.
  assert (ME : negb (mk =? ch_e) && negb (mk =? ch_E) = false) by (destruct Hm as [-> | ->]; reflexivity). rewrite ME in H.
  change (skipn 1 (mk :: r ++ 0 :: rest)) with (r ++ 0 :: rest) in H.
  destruct (reading_end Float r rest) as (dp & P1 & P2). change single with (fmt_of Float) in H. rewrite P1 in H. cbn [bind] in H.
  destruct (seq_pow 10 exponent_decimal_digits (dp_K dp)) as [p|]; [|discriminate]. cbn [bind] in H.
  destruct (negb (dp_sign dp)); cbn [bind] in H.
  - destruct (sint _) as [v|]; [|discriminate]. cbn [bind] in H. injection H as _ <-. now rewrite P2.
  - injection H as _ <-. now rewrite P2.
Qed.

Lemma e_lower : forall c, (lower c =? code "e") = true <-> e_letter c.
Proof.
  intros c. rewrite lower_tolower. change (code "e") with 101. rewrite (tolower_is c 101) by lia. unfold e_letter. change (code "e") with 101. change (code "E") with 69.
  destruct (Z.eqb_spec c 101), (Z.eqb_spec c (101 - 32)); cbn [orb]; split; intros; try reflexivity; try discriminate; lia.
Qed.

Lemma krosh_end : forall t a rest r, krosh (fmt_of t) (a ++ 0 :: rest) = Ok r -> kr_str_end r = text_length a.
Proof.
  intros t a rest r HK. destruct (split_bare a) as [n b] eqn:E. pose proof (split_bare_ok a n b E) as (X & Ea & _).
  assert (TL : coefficient n = 0 \/ (parser_limit < List.length (mantissa_text n))%nat \/ ~ e_letter (hd 0 b) -> text_length a = mantissa_length a).
  { intros H. unfold text_length. rewrite E. destruct b as [|mk b]; [reflexivity|]. cbn [hd] in H.
    destruct ((lower mk =? code "e") && negb (coefficient n =? 0) && (List.length (mantissa_text n) <=? parser_limit)%nat) eqn:B; [exfalso|reflexivity].
    apply andb_true_iff in B as [B B3]. apply andb_true_iff in B as [B1 B2]. apply e_lower in B1. apply negb_true_iff, Z.eqb_neq in B2. apply Nat.leb_le in B3.
    destruct H as [H|[H|H]]; [contradiction|lia|contradiction]. }
  destruct (reading_digits t a rest n b E) as [(dp & W1 & W2 & P1 & P2 & P3)|(c & z & Es & Ec & _ & H & ML)].
  - rewrite krosh_by_parts, P1 in HK. cbn [bind] in HK. rewrite P2 in HK.
    rewrite TL by (left; unfold no_digits in W1; unfold coefficient, frac_digits; destruct (n_int n), (n_frac n); try discriminate W1; reflexivity).
    rewrite <- P3. destruct (dp_special dp); injection HK as <-; reflexivity.
  - rewrite Es in HK.
    assert (D : {coefficient n = 0 \/ (parser_limit < List.length (mantissa_text n))%nat \/ ~ e_letter c} + {coefficient n <> 0 /\ (List.length (mantissa_text n) <= parser_limit)%nat /\ e_letter c}).
    { destruct (Z.eq_dec (coefficient n) 0); [left; now left|]. destruct (le_lt_dec (List.length (mantissa_text n)) parser_limit); [|left; right; now left].
      destruct (lower c =? code "e") eqn:B; [right; rewrite e_lower in B; auto|left; right; right; rewrite <- e_lower; congruence]. }
    destruct D as [D|(D1 & D2 & D3)].
    + destruct (krosh_bare t n c z X H D) as (v & st & acc & K & _). rewrite K in HK. injection HK as <-. cbn [kr_str_end]. rewrite TL, ML by (rewrite <- Ec; exact D). reflexivity.
    + destruct (krosh_any t n c z X D1 D2 H) as (d & K & f & e & _ & _ & Hf & He & K1). rewrite K1 in HK.
      destruct b as [|mk b]; [exfalso; rewrite Ec in D3; cbn in D3; destruct D3 as [D3|D3]; vm_compute in D3; discriminate D3|]. cbn [hd] in Ec. subst mk.
      assert (Ez : z = b ++ 0 :: rest).
      { rewrite Ea, <- app_assoc in Es. apply app_inv_head in Es. cbn [app] in Es. injection Es as ->. reflexivity. }
      subst z. destruct (parse_exponent (c :: b ++ 0 :: rest)) as [[ev ee]|] eqn:PE; [|discriminate]. cbn [bind] in HK.
      apply exponent_end in PE; [|exact D3]. destruct (sint (K + ev)) as [K'|]; [|discriminate]. cbn [bind] in HK.
      destruct (kr_scale_total t (is_minus (n_sign n)) (zlen (mantissa_text n) + ee) K' f e Hf He) as (v & st & acc & KS).
      rewrite KS in HK. injection HK as <-. cbn [kr_str_end]. unfold text_length. rewrite E.
      apply e_lower in D3. rewrite D3. destruct (Z.eqb_spec (coefficient n) 0); [contradiction|]. apply Nat.leb_le in D2. rewrite D2. cbn [andb negb]. rewrite PE. unfold zlen. lia.
Qed.

(** C75: how much is taken of any text, unless the fallback decides or the behaviour is
    undefined (C74). *)
Theorem C75_consumed : forall t a, ~ has_unfit_exponent t a ->
  (exists v st, forall rest want fb errno, atof (fmt_of t) (a ++ 0 :: rest) want fb errno = Ok (answer want errno v st (text_length a))) \/
  (forall rest want fb errno, atof (fmt_of t) (a ++ 0 :: rest) want fb errno = fallback_answer t (a ++ 0 :: rest) want fb errno).
Proof.
  intros t a NX. destruct (C27_terminator t a) as [(f & _ & _ & F)|[(v & st & e & _ & G)|G]]; [| |right; exact G].
  - exfalso. apply NX. apply C74_undefined_exactly. exists f. exact F.
  - left. exists v, st. assert (e = text_length a) as <-; [|exact G].
    pose proof (G [] true (fun _ _ => Fault OutOfFuel) 0) as G0. unfold atof in G0.
    destruct (krosh (fmt_of t) (a ++ [0])) as [r|] eqn:K; [|discriminate]. cbn [bind] in G0. pose proof (krosh_end t a [] r K) as <-.
    destruct (Z.eqb_spec (kr_str_end r) 0) as [Z0|Z0]; cbn [negb] in G0.
    + injection G0 as _ _ G0. congruence.
    + destruct (kr_is_accurate r); [|discriminate G0]. cbn [bind] in G0. injection G0 as _ _ G0. congruence.
Qed.

(** words: their value *)
Theorem C75_words : forall t a n b rest want fb errno, split_bare a = (n, b) -> no_digits n = true -> snd (word_at b) <> 0 ->
  atof (fmt_of t) (a ++ 0 :: rest) want fb errno =
    Ok (answer want errno (match fst (word_at b) with Nan => nan_of t | Inf => infinity_of t | NoWord => zero_of t end (is_minus (n_sign n)))
                    success (len (sign_text (n_sign n)) + snd (word_at b))).
Proof.
  intros t a n b rest want fb errno E W1 W2. destruct (split_bare_ok a n b E) as (X & Ea & _). pose proof (proj1 (no_digits_text n X) W1) as MT.
  destruct (word_digits t (n_sign n) b rest W2) as (dp & P1 & P2 & _ & P3 & P4 & P5). rewrite Ea, MT, <- app_assoc.
  assert (N : dp_str_end dp <> 0).
  { rewrite P3. pose proof (zlen_nonneg (sign_text (n_sign n))). assert (0 <= snd (word_at b)); [|lia].
    unfold word_at. destruct (starts (text "nan") b).
    - cbn [snd]. destruct (skipn 3 b) as [|c r]; [lia|]. pose proof (closing_nonneg r). destruct ((c =? code "(") && negb (closing r =? 0)); lia.
    - destruct (starts (text "infinity") b); [cbn; lia|]. destruct (starts (text "inf") b); [cbn; lia|]. destruct (starts (text "n") b || starts (text "i") b); cbn; lia. }
  change (len (sign_text (n_sign n))) with (zlen (sign_text (n_sign n))). rewrite <- P3. apply atof_fast; [|exact N].
  rewrite krosh_by_parts, P1. cbn [bind]. rewrite P4, P5, P2. destruct (fst (word_at b)); cbn [special_of Z.eqb].
  - now rewrite nan_value.
  - now rewrite inf_value.
  - now rewrite apply_sign_zero.
Qed.

(** ... so a number is read correctly whatever follows it, if only that cannot continue it. *)
Theorem C76_correct : forall t n c rest want fb errno, bare n -> coefficient n <> 0 -> (List.length (mantissa_text n) <= parser_limit)%nat ->
  cannot_continue n c -> ~ e_letter c -> short_decimal t n -> in_range t (value n) -> ~ carries t (value n) ->
  let s := mantissa_text n ++ c :: rest in
  (exists v, atof (fmt_of t) s want fb errno = Ok (answer want errno v success (len (mantissa_text n))) /\
     correctly_rounded t (is_minus (n_sign n)) (value n) v) \/
  atof (fmt_of t) s want fb errno = fallback_answer t s want fb errno.
Proof.
  intros t n c rest want fb errno X CN L H NE S R NC s.
  destruct (nonzero_text n X CN) as [_ W]. pose proof X as (X1 & _).
  assert (H0 : cannot_continue n 0).
  { apply stops_cannot. pose proof W as (W1 & W2 & W3 & _). rewrite frac_odig in W3. apply stops_numeral; try assumption; [unfold nondigit|]; lia. }
  assert (N0 : ends_number 0) by (repeat split; vm_compute; intuition congruence).
  assert (E0 : ~ e_letter 0) by (intros [E|E]; vm_compute in E; discriminate E).
  assert (ET : written n = mantissa_text n) by (unfold written, exponent_text; rewrite X1; apply app_nil_r).
  assert (WL : within_limits n) by (split; [exact L|unfold exponent_text; rewrite X1; cbn; lia]).
  destruct (C76_what_follows t n c rest 0 [] X H H0 (or_intror (conj NE E0))) as [(v & st & G)|G].
  - left. destruct (G want fb errno) as [G1 _].
    pose proof (C29_correct_or_deferred t n 0 [] true (fun _ _ => Fault OutOfFuel) 0 W N0 WL S R NC) as C. cbn zeta in C. rewrite ET in C.
    destruct (G true (fun _ _ => Fault OutOfFuel) 0) as [_ G2]. rewrite Z.min_l in G1, G2 by (unfold len, parser_limit in *; lia).
    destruct C as [(v' & C1 & C2)|C1]; [|rewrite G2 in C1; discriminate C1].
    rewrite G2 in C1. injection C1 as -> ->. exists v'. auto.
  - right. exact (proj1 (G want fb errno)).
Qed.
