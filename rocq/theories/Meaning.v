(** C79: what atof makes of any text. *)
From Coq Require Import Reals Lra Lia ZArith Bool List String Ascii.
From Flocq Require Import Core.
From Verif Require Import Machine MachineFacts BitOps StaticPow Fraction Format DiyFp KComp Chars Krosh Atof Spec ParseSpec TextSpec ReadSpec MeanSpec ParseApi Instances
  DiyFacts BoundFacts TableFacts GrisuFacts FtoaFacts RoundFacts DownFacts DvalFacts CmpFacts ArithProps ScanFacts LoopFacts ParseFacts GapFacts KroshNum ShortFacts FracFacts LongFacts ParseProps Refuted LocalFacts LocalProps NegFacts Marker Tokens Truncate Defined Ends Reading ErrorProps.
Open Scope Z_scope.

(** * Moving the point *)

Lemma drop_zeros_split : forall l, exists k, l = repeat 0 k ++ drop_zeros l.
Proof.
  induction l as [|d l (k & IH)]; [exists 0%nat; reflexivity|]. cbn [drop_zeros]. destruct (Z.eqb_spec d 0) as [-> |].
  - exists (S k). cbn [repeat app]. now rewrite <- IH.
  - exists 0%nat. reflexivity.
Qed.

Lemma drop_zeros_hd : forall l, drop_zeros l <> [] -> hd 0 (drop_zeros l) <> 0.
Proof. induction l as [|d l IH]; [contradiction|]. cbn [drop_zeros]. destruct (Z.eqb_spec d 0); [exact IH|]. intros _. exact n. Qed.

Lemma rev_zeros : forall k, rev (repeat 0 k) = repeat 0 k.
Proof.
  induction k; [reflexivity|]. cbn [repeat rev]. rewrite IHk. clear IHk. induction k; [reflexivity|]. cbn [repeat app]. now rewrite IHk.
Qed.

Lemma Forall_drop : forall l, Forall digit l -> Forall digit (drop_zeros l).
Proof. intros l H. destruct (drop_zeros_split l) as (k & E). rewrite E in H. now apply Forall_app in H as [_ H]. Qed.

Lemma move_point_ok : forall t n, Forall digit (n_int n) -> Forall digit (frac_digits n) -> coefficient n <> 0 ->
  point_moved t n (fst (move_point t n)) (snd (move_point t n)).
Proof.
  intros t n D1 D2 CN. unfold move_point. set (all := n_int n ++ frac_digits n) in *. set (sig := drop_zeros all).
  assert (DA : Forall digit all) by (apply Forall_app; auto).
  destruct (drop_zeros_split all) as (k0 & E0). fold sig in E0.
  pose proof (Forall_drop all DA) as DS. fold sig in DS.
  assert (CS : coefficient n = dval sig).
  { unfold coefficient. fold all. rewrite E0 at 1. rewrite dval_app, dval_zeros. lia. }
  destruct (drop_zeros_split (rev sig)) as (k1 & E1). set (rc := drop_zeros (rev sig)) in *. set (core := rev rc).
  assert (ES : sig = core ++ repeat 0 k1).
  { rewrite <- (rev_involutive sig), E1, rev_app_distr, rev_zeros. reflexivity. }
  assert (DC : Forall digit core) by (rewrite ES in DS; now apply Forall_app in DS as [DS _]).
  assert (NC : core <> []).
  { intros E. apply CN. rewrite CS, ES, E. cbn [app]. apply dval_zeros. }
  assert (LC : exists c0 z, core = c0 ++ [z] /\ z <> 0).
  { pose proof (drop_zeros_hd (rev sig)) as H. fold rc in H. destruct rc as [|z r]; [exfalso; apply NC; reflexivity|].
    exists (rev r), z. split; [reflexivity|]. apply H. discriminate. }
  assert (HC : hd 0 core <> 0).
  { assert (H : hd 0 sig <> 0). { apply drop_zeros_hd. fold sig. rewrite ES. destruct core; [contradiction|discriminate]. }
    rewrite ES in H. destruct core; [contradiction|exact H]. }
  set (N := Z.to_nat (exact_digits t)). set (ds := firstn N core). set (rs := skipn N core).
  assert (EC : core = ds ++ rs) by (symmetry; apply firstn_skipn).
  assert (DD : Forall digit ds /\ Forall digit rs) by (rewrite EC in DC; now apply Forall_app in DC).
  destruct DD as [DD DR].
  assert (NP : 0 < exact_digits t) by (destruct t; cbn; lia).
  assert (ND : ds <> []).
  { unfold ds, N. destruct core; [contradiction|]. destruct (Z.to_nat (exact_digits t)) eqn:E; [lia|]. cbn [firstn]. discriminate. }
  assert (HD : hd 0 ds = hd 0 core) by (rewrite EC; destruct ds; [contradiction|reflexivity]).
  cbn [fst snd]. fold sig. fold ds. 
  pose proof (dval_bounds ds DD) as BD. pose proof (dval_bounds rs DR) as BR.
  assert (LD : (List.length ds <= N)%nat) by (unfold ds; apply firstn_le_length).
  assert (PD : 0 < dval ds).
  { destruct ds as [|x l]; [contradiction|]. cbn [hd] in HD. pose proof (dval_lower x l DD ltac:(congruence)).
    pose proof (pow10_pos (zlen l) (zlen_nonneg l)). lia. }
  split.
  { split; [exact PD|]. apply Z.lt_le_trans with (1 := proj2 BD). apply Z.pow_le_mono_r; [lia|]. unfold zlen, N in *. lia. }
  exists (zlen rs + Z.of_nat k1), (dval rs * 10 ^ Z.of_nat k1).
  assert (LS : Z.of_nat (List.length sig) = zlen ds + zlen rs + Z.of_nat k1).
  { rewrite ES, EC, !app_length, repeat_length. unfold zlen. lia. }
  assert (QV : forall k, dval (repeat 0 k) = 0) by exact dval_zeros.
  assert (ZR : zlen (repeat 0 k1) = Z.of_nat k1) by (unfold zlen; now rewrite repeat_length).
  split; [unfold zlen; lia|]. split; [rewrite LS; change (Z.of_nat (List.length ds)) with (zlen ds); lia|]. split.
  { rewrite CS, ES, EC, !dval_app, QV, ZR, Z.pow_add_r by (unfold zlen; lia). ring. }
  destruct rs as [|x l] eqn:ER.
  - left. split; [reflexivity|]. rewrite app_nil_r in EC. destruct LC as (c0 & z & LC & Z0). rewrite <- EC, LC, dval_app. cbn [dval fold_left] in *.
    rewrite LC in DC. apply Forall_app in DC as [_ DC]. inversion DC as [|? ? B _]; subst. unfold digit in B.
    change (zlen [z]) with 1. change (10 ^ 1) with 10. replace (dval [z]) with z by (unfold dval; cbn; lia).
    rewrite Z.add_comm, Z.mod_add by lia. rewrite Z.mod_small by lia. exact Z0.
  - right. rewrite <- ER in *. assert (FULL : List.length ds = N).
    { unfold ds. rewrite firstn_length_le; [reflexivity|]. unfold rs in ER. destruct (le_lt_dec N (List.length core)); [assumption|].
      rewrite skipn_all2 in ER by lia. discriminate. }
    assert (PR : 0 < dval rs).
    { assert (exists r0 z, rs = r0 ++ [z] /\ z <> 0) as (r0 & z & -> & Z0).
      { destruct LC as (c0 & z & LC & Z0). destruct (exists_last (l := rs)) as (r0 & y & Ey); [rewrite ER; discriminate|].
        exists r0, y. split; [exact Ey|]. rewrite EC, Ey, app_assoc in LC. apply app_inj_tail in LC as [_ ->]. exact Z0. }
      apply Forall_app in DR as [DR1 DR2]. inversion DR2 as [|? ? B _]; subst. unfold digit in B.
      rewrite dval_app. change (zlen [z]) with 1. replace (dval [z]) with z by (unfold dval; cbn; lia). pose proof (dval_bounds r0 DR1). lia. }
    pose proof (pow10_pos (Z.of_nat k1) ltac:(lia)). split.
    + split; [apply Z.mul_pos_pos; lia|]. rewrite Z.pow_add_r by (unfold zlen; lia). apply Z.mul_lt_mono_pos_r; lia.
    + destruct ds as [|y m] eqn:ED; [contradiction|]. cbn [hd] in HD.
      replace (exact_digits t - 1) with (zlen m) by (cbn [List.length] in FULL; unfold zlen, N in *; lia).
      apply dval_lower; congruence.
Qed.

(** * Splitting a text *)

Lemma take_digits_full : forall l b, Forall digit l -> nondigit (hd 0 b) -> take_digits (dchars l ++ b) = (l, b).
Proof.
  induction l as [|d l IH]; intros b D N.
  - change (dchars [] ++ b) with b. destruct b as [|c b]; [reflexivity|]. cbn [take_digits hd] in *. destruct (is_digit c) eqn:E; [|reflexivity].
    apply is_digit_spec in E. unfold nondigit in N. contradiction.
  - inversion D as [|? ? D1 D2]; subst. change (dchars (d :: l) ++ b) with (code "0" + d :: dchars l ++ b). cbn [take_digits].
    unfold digit in D1. assert (is_digit (code "0" + d) = true) as -> by (apply is_digit_spec; change (code "0") with 48; lia).
    rewrite IH by assumption. do 2 f_equal. lia.
Qed.

Lemma take_sign_full : forall sg u, (sg = NoSign -> hd 0 u <> 43 /\ hd 0 u <> 45) -> take_sign (sign_text sg ++ u) = (sg, u).
Proof.
  intros [| |] u H; try reflexivity. change (sign_text NoSign ++ u) with u. destruct u as [|c u]; [reflexivity|].
  cbn [take_sign hd] in *. specialize (H eq_refl). change (code "+") with 43. change (code "-") with 45.
  destruct (Z.eqb_spec c 43); [lia|]. destruct (Z.eqb_spec c 45); [lia|]. reflexivity.
Qed.

(** nothing of [b] can be added to [n] *)
Definition maximal (n : numeral) (c : Z) : Prop :=
  nondigit c /\ (c = 46 -> n_frac n <> None) /\ (c = 43 \/ c = 45 -> mantissa_text n <> []).

Lemma cannot_maximal : forall n c, cannot_continue n c -> maximal n c.
Proof. intros n c (A & B & C & _). split; [exact A|]. split; [exact B|exact C]. Qed.

Lemma split_bare_full : forall n b, bare n -> maximal n (hd 0 b) -> split_bare (mantissa_text n ++ b) = (n, b).
Proof.
  intros n b (X1 & X2 & X3) (M1 & M2 & M3). rewrite mant_text in *. unfold mant. rewrite <- !app_assoc. unfold split_bare.
  set (tl := (match n_frac n with None => [] | Some f => 46 :: dchars f end) ++ b).
  assert (ND : nondigit (hd 0 tl)).
  { unfold tl. destruct (n_frac n); [cbn; unfold nondigit; lia|exact M1]. }
  rewrite take_sign_full.
  2:{ intros S. destruct (n_int n) as [|d l] eqn:EI.
      - change (dchars [] ++ tl) with tl. unfold tl. destruct (n_frac n) eqn:EF; [cbn; lia|]. cbn [app] in *.
        assert (HN : ~ (hd 0 b = 43 \/ hd 0 b = 45)); [|lia]. intros H. apply M3 in H. apply H. rewrite S. reflexivity.
      - inversion X2 as [|? ? B _]; subst. change (dchars (d :: l) ++ tl) with (code "0" + d :: dchars l ++ tl). cbn [hd]. change (code "0") with 48. unfold digit in B. lia. }
  rewrite take_digits_full by assumption. destruct n as [sg I F ex]. cbn [n_sign n_int n_frac n_exp] in *. subst ex.
  unfold frac_digits in X3. cbn [n_frac] in X3.
  unfold tl in *. destruct F as [f|].
  - cbn [app]. change (46 =? code ".") with true. cbv iota. rewrite take_digits_full by assumption. reflexivity.
  - cbn [app]. destruct b as [|c b]; [reflexivity|]. cbn [hd] in *. change (code ".") with 46. destruct (Z.eqb_spec c 46) as [E|]; [|reflexivity].
    exfalso. exact (M2 E eq_refl).
Qed.

Lemma cannot_zero : forall n, cannot_continue n 0.
Proof.
  intros n. split; [unfold between; vm_compute; intuition congruence|]. split; [intros E; vm_compute in E; discriminate E|].
  split; [intros [E|E]; vm_compute in E; discriminate E|]. intros E. vm_compute in E. intuition discriminate.
Qed.

Lemma word_maximal : forall sg c, In c (text "nNiI") -> maximal {| n_sign := sg; n_int := []; n_frac := None; n_exp := None |} c.
Proof.
  intros sg c H. change (text "nNiI") with [110; 78; 105; 73] in H. cbn [In] in H. split; [unfold nondigit; lia|]. split; lia.
Qed.

(** what is taken of an exponent *)
Lemma split_firstn : forall r x b, split_bare r = (x, b) ->
  part_taken x (fst (split_bare (firstn (S parser_limit) r))).
Proof.
  intros r x b E. destruct (split_bare_ok r x b E) as (X & Er & H).
  assert (M : maximal x (hd 0 b)).
  { destruct (no_digits x) eqn:N; [|now apply cannot_maximal, H; left].
    destruct (in_dec Z.eq_dec (hd 0 b) (text "nNiI")) as [W|W]; [|now apply cannot_maximal, H; right].
    destruct X as (X1 & _). destruct x as [sg [|] [|] ex]; try discriminate N. cbn in X1. subst ex. now apply word_maximal. }
  destruct (le_lt_dec (List.length (mantissa_text x)) parser_limit) as [L|L].
  - assert (split_bare (firstn (S parser_limit) r) = (x, firstn (S parser_limit - List.length (mantissa_text x)) b)) as ->.
    { rewrite Er, firstn_app, firstn_all2 by lia. apply split_bare_full; [exact X|].
      destruct (S parser_limit - List.length (mantissa_text x))%nat eqn:Q; [lia|]. destruct b; exact M. }
    cbn [fst]. split; [exact X|]. split; [reflexivity|]. left. auto.
  - destruct (scan_any Float x 0 [] X (cannot_zero x)) as (y & _ & _ & _ & (Y1 & Y2 & [[YL _]|(_ & Y3 & q & Y4)]) & _); [lia|].
    assert (split_bare (firstn (S parser_limit) r) = (y, [])) as ->.
    { rewrite Er, Y4, <- app_assoc, firstn_app, firstn_all2, Y3, Nat.sub_diag, firstn_O, app_nil_r by lia.
      rewrite <- (app_nil_r (mantissa_text y)). apply split_bare_full; [exact Y1|]. apply cannot_maximal, cannot_zero. }
    cbn [fst]. split; [exact Y1|]. split; [exact Y2|]. right. split; [exact L|]. split; [exact Y3|]. exists q. exact Y4.
Qed.

(** * The exponent *)

Lemma exponent_of_read : forall x E, bare x -> (exponent_of x = Some E <-> exponent_read x E).
Proof.
  intros x E (X1 & X2 & X3). unfold exponent_of. destruct (Z.eqb_spec (coefficient x) 0) as [C|C].
  - split; [intros H; injection H as <-; now left|]. intros [[_ ->]|(d & k & m & P & _)]; [reflexivity|]. apply moved_nonzero in P. contradiction.
  - pose proof (move_point_ok Float x X2 X3 C) as PM. destruct (move_point Float x) as [d k]. cbn [fst snd] in PM.
    assert (IA : as_int (d * 10 ^ k) (int_of (d * 10 ^ k))).
    { pose proof (narrow_as_int (d * 10 ^ k)) as A. replace (int_of (d * 10 ^ k)) with (narrow_int (wrap 32 (d * 10 ^ k))); [exact A|].
      unfold narrow_int, wrap, int_of. now rewrite Zplus_mod_idemp_l. }
    split.
    + destruct (Z.leb_spec 0 k), (Z.leb_spec k 3); cbn [andb]; try discriminate.
      destruct (Z.ltb_spec (signed (n_sign x) (int_of (d * 10 ^ k))) (2 ^ 31)) as [B|B]; [|discriminate]. intros Q. injection Q as <-.
      right. exists d, k, (int_of (d * 10 ^ k)). auto 6.
    + intros [[C' _]|(d' & k' & m & P & K & A & -> & B)]; [contradiction|]. destruct (moved_unique _ _ _ _ _ _ P PM) as [-> ->].
      destruct (Z.leb_spec 0 k), (Z.leb_spec k 3); try lia. cbn [andb].
      assert (m = int_of (d * 10 ^ k)) as -> by (apply as_int_narrow in A, IA; congruence).
      destruct (Z.ltb_spec (signed (n_sign x) (int_of (d * 10 ^ k))) (2 ^ 31)); [reflexivity|lia].
Qed.

Lemma exponent_meaning : forall mk r rest, e_letter mk ->
  match exponent_of (fst (split_bare (firstn (S parser_limit) r))) with
  | Some E => - 2 ^ 31 <= E < 2 ^ 31 /\ parse_exponent (mk :: r ++ 0 :: rest) = Ok (E, 1 + mantissa_length r)
  | None => exists f, parse_exponent (mk :: r ++ 0 :: rest) = Fault f
  end.
Proof.
  intros mk r rest Hm. destruct (split_bare r) as [x b] eqn:E. pose proof (split_firstn r x b E) as PT.
  set (y := fst (split_bare (firstn (S parser_limit) r))) in *. clearbody y. pose proof PT as (Y & _).
  destruct (reading_digits Float r rest x b E) as [(dp & W1 & W2 & P1 & P2 & P3)|(c & z & Es & _ & X & H & ML)].
  - destruct (split_bare_ok r x b E) as (X & _).
    assert (C0 : coefficient y = 0).
    { assert (y = x) as ->.
      { apply (taken_unique x); [exact X|exact PT|]. split; [exact X|]. split; [reflexivity|]. left. split; [|reflexivity].
        rewrite (proj1 (no_digits_text x X) W1). destruct (n_sign x); cbn [sign_text text map list_ascii_of_string List.length]; unfold parser_limit; lia. }
      unfold no_digits in W1. unfold coefficient, frac_digits. destruct (n_int x), (n_frac x); try discriminate W1. reflexivity. }
    unfold exponent_of. rewrite C0. cbn [Z.eqb]. split; [change (2 ^ 31) with 2147483648; lia|].
    unfold parse_exponent. change (read (mk :: r ++ 0 :: rest) 0) with (Ok mk). cbn [bind].
    assert (ME : negb (mk =? ch_e) && negb (mk =? ch_E) = false) by (destruct Hm as [-> | ->]; reflexivity). rewrite ME.
    change (skipn 1 (mk :: r ++ 0 :: rest)) with (r ++ 0 :: rest). change single with (fmt_of Float). rewrite P1. cbn [bind].
    assert (KZ : dp_K dp = 0).
    { destruct (word_digits Float (n_sign x) b rest W2) as (dp' & Q1 & _ & Q3 & _).
      destruct (split_bare_ok r x b E) as (_ & Er & _). rewrite Er, (proj1 (no_digits_text x X) W1), <- app_assoc, Q1 in P1. injection P1 as <-. exact Q3. }
    rewrite KZ, P2, P3. destruct (negb (dp_sign dp)); reflexivity.
  - destruct (exponent_any mk x c z Hm X H) as (y' & PT' & G). assert (y' = y) as -> by (apply (taken_unique x); assumption).
    rewrite Es, ML. destruct G as [(E0 & R & B & P)|(NR & f & _ & P)].
    + apply (exponent_of_read y E0 Y) in R. rewrite R. auto.
    + destruct (exponent_of y) as [E0|] eqn:Q; [|eauto]. apply exponent_of_read in Q; [|exact Y]. exfalso. exact (NR E0 Q).
Qed.

(** * All together *)

Lemma four_digits : forall e, 0 <= e <= 9999 -> Forall digit [e / 1000; e / 100 mod 10; e / 10 mod 10; e mod 10] /\
  dval [e / 1000; e / 100 mod 10; e / 10 mod 10; e mod 10] = e.
Proof.
  intros e He. pose proof (Z.div_mod e 10 ltac:(lia)). pose proof (Z.mod_pos_bound e 10 ltac:(lia)).
  pose proof (Z.div_mod (e / 10) 10 ltac:(lia)). pose proof (Z.mod_pos_bound (e / 10) 10 ltac:(lia)).
  pose proof (Z.div_mod (e / 100) 10 ltac:(lia)). pose proof (Z.mod_pos_bound (e / 100) 10 ltac:(lia)).
  assert (e / 10 / 10 = e / 100) by (rewrite Z.div_div by lia; reflexivity).
  assert (e / 100 / 10 = e / 1000) by (rewrite Z.div_div by lia; reflexivity).
  assert (0 <= e / 1000 <= 9) by (split; [apply Z.div_pos; lia|]; assert (e / 1000 < 10) by (apply Z.div_lt_upper_bound; lia); lia).
  split; [repeat constructor; unfold digit; lia|]. unfold dval. cbn [fold_left]. lia.
Qed.

Lemma with_exponent_ok : forall n E, bare n -> coefficient n <> 0 -> (List.length (mantissa_text n) <= parser_limit)%nat ->
  let m := with_exponent n E in
  well_formed m /\ small_exponent m /\ within_limits m /\ mantissa_text m = mantissa_text n /\ coefficient m = coefficient n /\
  exponent_value m = signed (if E <? 0 then Minus else NoSign) (Z.min (Z.abs E) 9999) /\
  (exists r, exponent_text m = code "e" :: r).
Proof.
  intros n E (X1 & X2 & X3) CN L m. destruct (four_digits (Z.min (Z.abs E) 9999) ltac:(lia)) as [F1 F2].
  assert (EV : exponent_value m = signed (if E <? 0 then Minus else NoSign) (Z.min (Z.abs E) 9999)) by (unfold exponent_value, m, with_exponent; cbn [n_exp x_sign x_digits]; now rewrite F2).
  split; [|split; [|split; [|split; [reflexivity|split; [reflexivity|split; [exact EV|]]]]]].
  - split; [exact X2|]. split; [exact X3|]. split; [|split; [exact F1|discriminate]].
    change (n_int n ++ frac_digits n <> []). intros Q. apply CN. unfold coefficient. now rewrite Q.
  - unfold small_exponent. rewrite EV. unfold signed. destruct (E <? 0); cbn [is_minus]; lia.
  - split; [exact L|]. unfold exponent_text, m, with_exponent. cbn [n_exp x_upper x_sign x_digits]. rewrite !app_length. unfold dchars. rewrite map_length.
    assert (3 <= parser_limit)%nat by (unfold parser_limit; lia). destruct (E <? 0); cbn [List.length sign_text text list_ascii_of_string map]; unfold parser_limit; lia.
  - eexists. reflexivity.
Qed.

Lemma far_result : forall t neg se K f e, 2 ^ (width t - 1) <= f < 2 ^ width t -> 4000 <= Z.abs K ->
  kr_scale (fmt_of t) neg se K (mk_diy f e) =
    Ok {| kr_value := if K <? 0 then zero_of t false else infinity_of t false; kr_str_end := se;
          kr_status := if K <? 0 then underflow else overflow; kr_is_accurate := true |}.
Proof.
  intros t neg se K f e Hf HK. unfold kr_scale.
  assert (EL : fpow_lo (fmt_of t) = - table_max t /\ fpow_hi (fmt_of t) = table_max t) by (destruct t; auto).
  assert (T0 : 0 <= table_max t <= 400) by (destruct t; cbn; lia).
  destruct EL as [-> ->]. destruct (Z.eqb_spec K 0); [lia|].
  destruct (Z.ltb_spec K 0).
  - destruct (Z.leb_spec (- table_max t) K); [exfalso; lia|]. reflexivity.
  - destruct (Z.leb_spec (- table_max t) K); [|lia]. destruct (Z.leb_spec K (table_max t)); [lia|]. destruct t; reflexivity.
Qed.

(** What atof makes of any text (terminated by a NUL): undefined behaviour, a word, or a plain
    number: then the value, the status and whether the fallback is called are the same as for that
    number written plainly. *)
Theorem C79_meaning : forall t a rest,
  let s := a ++ 0 :: rest in
  match meaning_of t a with
  | Undefined => exists f, forall want fb errno, atof (fmt_of t) s want fb errno = Fault f
  | Word sg w => forall want fb errno, atof (fmt_of t) s want fb errno =
      Ok (answer want errno (match w with Nan => nan_of t | Inf => infinity_of t | NoWord => zero_of t end (is_minus sg)) success (text_length a))
  | Number m =>
      (exists v st, forall rest' want fb errno,
         atof (fmt_of t) s want fb errno = Ok (answer want errno v st (text_length a)) /\
         atof (fmt_of t) (written m ++ 0 :: rest') want fb errno = Ok (answer want errno v st (text_length (written m)))) \/
      (forall rest' want fb errno, let s' := written m ++ 0 :: rest' in
         atof (fmt_of t) s want fb errno = fallback_answer t s want fb errno /\
         atof (fmt_of t) s' want fb errno = fallback_answer t s' want fb errno)
  end.
Proof.
  intros t a rest s. unfold meaning_of. destruct (split_bare a) as [n b] eqn:E. destruct (split_bare_ok a n b E) as (X & Ea & _).
  destruct (no_digits n && negb (snd (word_at b) =? 0)) eqn:WD.
  { apply andb_true_iff in WD as [W1 W2]. apply negb_true_iff, Z.eqb_neq in W2. intros want fb errno.
    unfold s. rewrite (C75_words t a n b rest want fb errno E W1 W2). do 2 f_equal.
    unfold text_length. rewrite E. assert (C0 : coefficient n = 0).
    { unfold no_digits in W1. unfold coefficient, frac_digits. destruct (n_int n), (n_frac n); try discriminate W1. reflexivity. }
    assert (ML : mantissa_length a = len (sign_text (n_sign n)) + snd (word_at b)).
    { unfold mantissa_length. rewrite E, W1. destruct (Z.eqb_spec (snd (word_at b)) 0); [contradiction|]. cbn [andb negb].
      rewrite (proj1 (no_digits_text n X) W1). reflexivity. }
    rewrite ML. destruct b as [|mk r]; [reflexivity|]. rewrite C0. cbn [Z.eqb negb]. rewrite andb_false_r. reflexivity. }
  destruct (reading_digits t a rest n b E) as [(dp & W1 & W2 & _)|(c & z & Es & Ec & _ & H & ML)].
  { exfalso. rewrite W1 in WD. destruct (Z.eqb_spec (snd (word_at b)) 0); [contradiction|discriminate]. }
  (* the case without exponent *)
  assert (PLAIN : coefficient n = 0 \/ (parser_limit < List.length (mantissa_text n))%nat \/ ~ e_letter c ->
    (exists v st, forall rest' want fb errno,
         atof (fmt_of t) s want fb errno = Ok (answer want errno v st (text_length a)) /\
         atof (fmt_of t) (written n ++ 0 :: rest') want fb errno = Ok (answer want errno v st (text_length (written n)))) \/
      (forall rest' want fb errno, let s' := written n ++ 0 :: rest' in
         atof (fmt_of t) s want fb errno = fallback_answer t s want fb errno /\
         atof (fmt_of t) s' want fb errno = fallback_answer t s' want fb errno)).
  { intros D. assert (EW : written n = mantissa_text n) by (unfold written, exponent_text; rewrite (proj1 X); apply app_nil_r).
    assert (D0 : coefficient n = 0 \/ (parser_limit < List.length (mantissa_text n))%nat \/ ~ e_letter 0) by (right; right; intros [Q|Q]; vm_compute in Q; discriminate Q).
    destruct (krosh_bare t n c z X H D) as (v & st & acc & K1 & _ & K2).
    assert (KS : krosh (fmt_of t) s = Ok {| kr_value := v; kr_str_end := Z.min (zlen (mantissa_text n)) 2049; kr_status := st; kr_is_accurate := acc |}) by (unfold s; rewrite Es; exact K1).
    assert (KW : forall rest', krosh (fmt_of t) (written n ++ 0 :: rest') = Ok {| kr_value := v; kr_str_end := Z.min (zlen (mantissa_text n)) 2049; kr_status := st; kr_is_accurate := acc |}).
    { intros rest'. rewrite EW, (K2 0 rest' (cannot_zero n) D0). exact K1. }
    pose proof (krosh_end t a rest _ KS) as E1. pose proof (krosh_end t (written n) [] _ (KW [])) as E2. cbn [kr_str_end] in E1, E2.
    rewrite <- E1, <- E2. clear E1 E2. set (e := Z.min (zlen (mantissa_text n)) 2049) in *. clearbody e.
    destruct (Z.eq_dec e 0) as [-> |N0].
    - left. exists 0, success. intros rest' want fb errno. unfold atof. rewrite KS, KW. split; reflexivity.
    - destruct acc; [left; exists v, st|right]; intros rest' want fb errno.
      + split; [exact (atof_fast t s want fb errno _ _ _ KS N0)|exact (atof_fast t _ want fb errno _ _ _ (KW rest') N0)].
      + split; [exact (atof_slow t s want fb errno _ _ _ KS N0)|exact (atof_slow t _ want fb errno _ _ _ (KW rest') N0)]. }
  destruct b as [|mk r].
  { apply PLAIN. right. right. rewrite Ec. cbn [hd]. intros [Q|Q]; vm_compute in Q; discriminate Q. }
  cbn [hd] in Ec. subst mk.
  destruct ((lower c =? code "e") && negb (coefficient n =? 0) && (List.length (mantissa_text n) <=? parser_limit)%nat) eqn:B.
  2:{ apply PLAIN. apply andb_false_iff in B as [B|B]; [apply andb_false_iff in B as [B|B]|].
      - right. right. rewrite <- e_lower. congruence.
      - left. now apply negb_false_iff, Z.eqb_eq in B.
      - right. left. now apply Nat.leb_gt in B. }
  clear PLAIN. apply andb_true_iff in B as [B B3]. apply andb_true_iff in B as [B1 B2]. apply e_lower in B1. apply negb_true_iff, Z.eqb_neq in B2. apply Nat.leb_le in B3.
  assert (Ez : z = r ++ 0 :: rest).
  { rewrite Ea, <- app_assoc in Es. apply app_inv_head in Es. cbn [app] in Es. injection Es as ->. reflexivity. }
  subst z. assert (Ss : s = mantissa_text n ++ c :: r ++ 0 :: rest) by exact Es.
  destruct (krosh_any t n c (r ++ 0 :: rest) X B2 B3 H) as (d & K & f & e & PM & HK & Hf & He & K1). rewrite <- Ss in K1.
  pose proof X as (X1 & X2 & X3). pose proof (move_point_ok t n X2 X3 B2) as MP. pose proof (exponent_meaning c r rest B1) as EM. unfold applied.
  destruct (exponent_of _) as [E0|].
  2:{ destruct EM as (g & EM). exists g. intros want fb errno. apply krosh_fault. rewrite K1, EM. reflexivity. }
  destruct EM as [EB EP]. rewrite EP in K1. cbn [bind] in K1.
  destruct (move_point t n) as [d' K']. cbn [fst snd] in MP. destruct (moved_unique _ _ _ _ _ _ MP PM) as [-> ->]. clear MP.
  destruct ((- 2 ^ 31 <=? K + E0) && (K + E0 <? 2 ^ 31)) eqn:BK.
  2:{ exists SignedOverflow. intros want fb errno. apply krosh_fault. rewrite K1, sint_bad; [reflexivity|].
      intros [Q1 Q2]. apply Z.leb_le in Q1. apply Z.ltb_lt in Q2. rewrite Q1, Q2 in BK. discriminate. }
  apply andb_true_iff in BK as [BK1 BK2]. apply Z.leb_le in BK1. apply Z.ltb_lt in BK2. rewrite sint_ok in K1 by (split; assumption). cbn [bind] in K1.
  destruct (with_exponent_ok n E0 X B2 B3) as (W & SM & WL & MT & CM & EV & (er & ET)). set (m := with_exponent n E0) in *.
  assert (N0 : ends_number 0) by (repeat split; vm_compute; intuition congruence).
  assert (PE : forall rest', parse_exponent (code "e" :: er ++ 0 :: rest') = Ok (exponent_value m, zlen (exponent_text m))).
  { intros rest'. rewrite app_comm_cons, <- ET. exact (parse_exponent_ok m 0 rest' W N0 (small_readable _ SM) (proj2 WL)). }
  assert (SW : forall rest', written m ++ 0 :: rest' = mantissa_text n ++ code "e" :: er ++ 0 :: rest').
  { intros rest'. unfold written. rewrite MT, ET, <- app_assoc. reflexivity. }
  assert (LM : 0 < zlen (mantissa_text n)). { pose proof (zlen_nonneg (mantissa_text n)). destruct (nonzero_text n X B2). lia. }
  assert (KM : 0 <= mantissa_length r).
  { pose proof (reading_end Float r rest) as (dp & _ & Q). unfold mantissa_length. destruct (split_bare r) as [x bb]. destruct (no_digits x && negb (snd (word_at bb) =? 0)).
    - assert (0 <= snd (word_at bb)); [|lia]. unfold word_at. destruct (starts (text "nan") bb).
      + cbn [snd]. destruct (skipn 3 bb) as [|c1 r1]; [lia|]. pose proof (closing_nonneg r1). destruct ((c1 =? code "(") && negb (closing r1 =? 0)); lia.
      + destruct (starts (text "infinity") bb); [cbn; lia|]. destruct (starts (text "inf") bb); [cbn; lia|]. destruct (starts (text "n") bb || starts (text "i") bb); cbn; lia.
    - lia. }
  assert (EE : breaks (code "e")) by (apply marker_breaks; left; reflexivity).
  destruct (Z.le_gt_cases (Z.abs E0) 9999) as [SE|SE].
  - (* ordinary exponents *)
    assert (EV0 : exponent_value m = E0) by (rewrite EV; unfold signed; destruct (Z.ltb_spec E0 0); cbn [is_minus]; lia).
    destruct (nonzero_text n X B2) as [_ Wn].
    assert (G : forall rest', let s' := written m ++ 0 :: rest' in
      (exists v st, forall want fb errno,
        atof (fmt_of t) s want fb errno = Ok (answer want errno v st (len (mantissa_text n) + (1 + mantissa_length r))) /\
        atof (fmt_of t) s' want fb errno = Ok (answer want errno v st (len (mantissa_text n) + zlen (exponent_text m)))) \/
      (forall want fb errno, atof (fmt_of t) s want fb errno = fallback_answer t s want fb errno /\ atof (fmt_of t) s' want fb errno = fallback_answer t s' want fb errno)).
    { intros rest' s'. unfold s'. rewrite SW, Ss. specialize (PE rest'). rewrite EV0 in PE.
      exact (same_exponent t n c (r ++ 0 :: rest) (code "e") (er ++ 0 :: rest') E0 (1 + mantissa_length r) (zlen (exponent_text m)) Wn B2 B3 (marker_breaks c B1) EE
        ltac:(lia) (zlen_nonneg _) ltac:(change (2 ^ 30) with 1073741824; lia) EP PE). }
    assert (L1 : len (mantissa_text n) + (1 + mantissa_length r) = text_length a).
    { unfold text_length. rewrite E. apply e_lower in B1. rewrite B1. destruct (Z.eqb_spec (coefficient n) 0); [contradiction|]. apply Nat.leb_le in B3. rewrite B3. cbn [andb negb]. unfold len. lia. }
    assert (L2 : len (mantissa_text n) + zlen (exponent_text m) = text_length (written m)).
    { specialize (PE []). rewrite EV0 in PE.
      destruct (krosh_any t n (code "e") (er ++ [0]) X B2 B3 (marker_cannot n _ B2 X ltac:(left; reflexivity))) as (d2 & Ka & fa & ea & PM2 & HKa & Hfa & Hea & Ka1).
      rewrite PE in Ka1. cbn [bind] in Ka1. rewrite sint_ok in Ka1 by (change (2 ^ 31) with 2147483648; lia). cbn [bind] in Ka1.
      destruct (kr_scale_total t (is_minus (n_sign n)) (zlen (mantissa_text n) + zlen (exponent_text m)) (Ka + E0) fa ea Hfa Hea) as (v2 & st2 & acc2 & KS2).
      rewrite KS2 in Ka1. pose proof (SW []) as SW0. rewrite <- SW0 in Ka1. pose proof (krosh_end t (written m) [] _ Ka1) as Q. exact Q. }
    rewrite L1, L2 in G. clear L1 L2.
    destruct (G []) as [(v & st & G0)|G0].
    + left. exists v, st. intros rest' want fb errno. split; [exact (proj1 (G0 want fb errno))|].
      destruct (G rest') as [(v' & st' & G1)|G1].
      * pose proof (proj1 (G1 want fb errno)) as Q. rewrite (proj1 (G0 want fb errno)) in Q. injection Q as Q1 Q2. rewrite Q1, Q2. exact (proj2 (G1 want fb errno)).
      * exfalso. pose proof (proj1 (G1 want (fun _ _ => Fault OutOfFuel) errno)) as Q. rewrite (proj1 (G0 want _ errno)) in Q. discriminate Q.
    + right. intros rest' want fb errno. cbv zeta. split; [exact (proj1 (G0 want fb errno))|].
      destruct (G rest') as [(v' & st' & G1)|G1]; [|exact (proj2 (G1 want fb errno))].
      exfalso. pose proof (proj1 (G0 want (fun _ _ => Fault OutOfFuel) errno)) as Q. rewrite (proj1 (G1 want _ errno)) in Q. discriminate Q.
  - (* far exponents *)
    rewrite far_result in K1 by (try assumption; lia).
    assert (SG : (K + E0 <? 0) = (E0 <? 0)) by (destruct (Z.ltb_spec (K + E0) 0), (Z.ltb_spec E0 0); lia). rewrite SG in K1.
    assert (KW : forall rest', krosh (fmt_of t) (written m ++ 0 :: rest') =
      Ok {| kr_value := if E0 <? 0 then zero_of t false else infinity_of t false; kr_str_end := zlen (mantissa_text n) + zlen (exponent_text m);
            kr_status := if E0 <? 0 then underflow else overflow; kr_is_accurate := true |}).
    { intros rest'. specialize (PE rest').
      destruct (krosh_any t n (code "e") (er ++ 0 :: rest') X B2 B3 (marker_cannot n _ B2 X ltac:(left; reflexivity))) as (d2 & Ka & fa & ea & PM2 & HKa & Hfa & Hea & Ka1).
      rewrite PE in Ka1. cbn [bind] in Ka1. rewrite SW, Ka1.
      assert (EV1 : exponent_value m = if E0 <? 0 then -9999 else 9999) by (rewrite EV; unfold signed; destruct (E0 <? 0); cbn [is_minus]; lia).
      rewrite EV1, sint_ok by (change (2 ^ 31) with 2147483648; destruct (E0 <? 0); lia). cbn [bind].
      rewrite far_result by (try assumption; destruct (E0 <? 0); lia).
      assert ((Ka + (if E0 <? 0 then -9999 else 9999) <? 0) = (E0 <? 0)) as ->; [|reflexivity].
      destruct (E0 <? 0); [apply Z.ltb_lt; lia|apply Z.ltb_ge; lia]. }
    left. exists (if E0 <? 0 then zero_of t false else infinity_of t false), (if E0 <? 0 then underflow else overflow).
    pose proof (krosh_end t a rest _ K1) as E1. pose proof (krosh_end t (written m) [] _ (KW [])) as E2. cbn [kr_str_end] in E1, E2. rewrite <- E1, <- E2.
    intros rest' want fb errno. pose proof (zlen_nonneg (exponent_text m)). split.
    + exact (atof_fast t s want fb errno _ _ _ K1 ltac:(lia)).
    + exact (atof_fast t _ want fb errno _ _ _ (KW rest') ltac:(lia)).
Qed.

Lemma number_ok : forall t a m, meaning_of t a = Number m -> value m <> 0%R -> (List.length (mantissa_text m) <= parser_limit)%nat ->
  well_formed m /\ within_limits m.
Proof.
  intros t a m H V L. assert (CN : coefficient m <> 0).
  { intros C. apply V. unfold value, abs_value. rewrite C. destruct (is_minus _); ring. }
  unfold meaning_of in H. destruct (split_bare a) as [n b] eqn:E. destruct (split_bare_ok a n b E) as (X & _ & _).
  assert (PN : n = m -> well_formed m /\ within_limits m).
  { intros ->. destruct (nonzero_text m X CN) as [_ W]. split; [exact W|]. split; [exact L|]. unfold exponent_text. rewrite (proj1 X). cbn. lia. }
  destruct (no_digits n && negb (snd (word_at b) =? 0)); [discriminate|].
  destruct b as [|mk r]; [injection H as H; auto|].
  destruct ((lower mk =? code "e") && negb (coefficient n =? 0) && (List.length (mantissa_text n) <=? parser_limit)%nat) eqn:B; [|injection H as H; auto].
  apply andb_true_iff in B as [B B3]. apply andb_true_iff in B as [B1 B2]. apply negb_true_iff, Z.eqb_neq in B2. apply Nat.leb_le in B3.
  destruct (applied t n r) as [E0|]; [|discriminate]. injection H as <-.
  destruct (with_exponent_ok n E0 X B2 B3) as (W & _ & WL & _). auto.
Qed.

Lemma ends_zero : ends_number 0.
Proof. repeat split; vm_compute; intuition congruence. Qed.

(** ... so any text that means a short number in the range of the type is read correctly ... *)
Theorem C79_correct : forall t a m rest want fb errno, meaning_of t a = Number m -> (List.length (mantissa_text m) <= parser_limit)%nat ->
  short_decimal t m -> in_range t (value m) -> ~ carries t (value m) ->
  let s := a ++ 0 :: rest in
  (exists v, atof (fmt_of t) s want fb errno = Ok (answer want errno v success (text_length a)) /\
     correctly_rounded t (is_minus (n_sign m)) (value m) v) \/
  atof (fmt_of t) s want fb errno = fallback_answer t s want fb errno.
Proof.
  intros t a m rest want fb errno HM L S R NC s.
  assert (V0 : value m <> 0%R). { intros V. destruct R as [R _]. rewrite V, Rabs_R0 in R. pose proof (bpow_gt_0 radix2 (min_exp t)). lra. }
  destruct (number_ok t a m HM V0 L) as [W WL].
  pose proof (C79_meaning t a rest) as G. rewrite HM in G. destruct G as [(v & st & G)|G].
  - left. destruct (G [] want fb errno) as [G1 _]. destruct (G [] true (fun _ _ => Fault OutOfFuel) 0) as [_ G2].
    destruct (C29_correct_or_deferred t m 0 [] true (fun _ _ => Fault OutOfFuel) 0 W ends_zero WL S R NC) as [(v' & C1 & C2)|C1].
    + rewrite G2 in C1. injection C1 as -> -> _. exists v'. auto.
    + rewrite G2 in C1. discriminate C1.
  - right. exact (proj1 (G [] want fb errno)).
Qed.

(** ... and any text that means a number in the range of the type nearly so. *)
Theorem C79_near : forall t a m rest want fb errno, meaning_of t a = Number m -> (List.length (mantissa_text m) <= parser_limit)%nat ->
  (bpow radix2 (min_exp t) * (1 + bpow radix2 (- precision t)) <= Rabs (value m)
     <= bpow radix2 (max_exp t) * (1 - bpow radix2 (1 - precision t)))%R ->
  (t = Float -> pow10 (-42) <= Rabs (value m))%R ->
  let s := a ++ 0 :: rest in
  (exists v, atof (fmt_of t) s want fb errno = Ok (answer want errno v success (text_length a)) /\
     finite t v /\ (negative t v <-> n_sign m = Minus) /\
     ((Rabs (real_of t v - value m) <= (/ 2 + any_length_margin t) * ulp_of t v)%R \/
      exists k, min_exp t + precision t - 1 <= k /\
        (bpow radix2 k * (1 - bpow radix2 (1 - precision t)) <= Rabs (value m) < bpow radix2 k * (1 + bpow radix2 (- precision t)))%R /\
        Rabs (real_of t v) = (if k =? min_exp t + precision t - 1 then 0 else bpow radix2 (k - 1))%R)) \/
  atof (fmt_of t) s want fb errno = fallback_answer t s want fb errno.
Proof.
  intros t a m rest want fb errno HM L R HF s.
  assert (V0 : value m <> 0%R).
  { intros V. destruct R as [R _]. rewrite V, Rabs_R0 in R. pose proof (bpow_gt_0 radix2 (min_exp t)) as P1. pose proof (bpow_gt_0 radix2 (- precision t)) as P2.
    assert (0 < bpow radix2 (min_exp t) * (1 + bpow radix2 (- precision t)))%R by (apply Rmult_lt_0_compat; lra). lra. }
  destruct (number_ok t a m HM V0 L) as [W WL].
  pose proof (C79_meaning t a rest) as G. rewrite HM in G. destruct G as [(v & st & G)|G].
  - left. destruct (G [] want fb errno) as [G1 _]. destruct (G [] true (fun _ _ => Fault OutOfFuel) 0) as [_ G2].
    destruct (C68_error_bound t m 0 [] true (fun _ _ => Fault OutOfFuel) 0 W ends_zero WL R HF) as [(v' & C1 & C2)|C1].
    + rewrite G2 in C1. injection C1 as -> -> _. exists v'. split; [exact G1|exact C2].
    + rewrite G2 in C1. discriminate C1.
  - right. exact (proj1 (G [] want fb errno)).
Qed.

(** The computable notion of undefined behaviour agrees with that of C74. *)
Theorem C79_undefined : forall t a, meaning_of t a = Undefined <-> has_unfit_exponent t a.
Proof.
  intros t a. rewrite <- C74_undefined_exactly. split.
  - intros H. destruct (C27_terminator t a) as [(f & _ & _ & F)|[(v & st & e & _ & G)|G]]; [eauto|exfalso|exfalso];
      pose proof (C79_meaning t a []) as M; rewrite H in M; destruct M as (f & M).
    + pose proof (G [] true (fun _ _ => Fault OutOfFuel) 0) as Q. rewrite M in Q. discriminate Q.
    + pose proof (G [] true (fun _ _ => Ok {| fb_value := 0; fb_str_end := 0; fb_errno := 0 |}) 0) as Q. rewrite M in Q. discriminate Q.
  - intros (f & F). pose proof (C79_meaning t a []) as M. destruct (meaning_of t a) as [|sg w|m]; [reflexivity|exfalso|exfalso].
    + specialize (M true (fun _ _ => Fault OutOfFuel) 0). rewrite F in M. discriminate M.
    + destruct M as [(v & st & M)|M].
      * destruct (M [] true (fun _ _ => Fault OutOfFuel) 0) as [Q _]. rewrite F in Q. discriminate Q.
      * destruct (M [] true (fun _ _ => Ok {| fb_value := 0; fb_str_end := 0; fb_errno := 0 |}) 0) as [Q _]. rewrite F in Q. discriminate Q.
Qed.
