(** Words and rejected texts: C37, C38. *)
From Coq Require Import Reals Lra Lia ZArith List String Ascii.
From Flocq Require Import Core.
From Verif Require Import Machine MachineFacts BitOps StaticPow Fraction Format DiyFp KComp Chars Krosh Atof Spec ParseSpec ParseApi Instances
  DiyFacts BoundFacts TableFacts GrisuFacts FtoaFacts RoundFacts DownFacts DvalFacts CmpFacts ArithProps ScanFacts LoopFacts ParseFacts GapFacts KroshNum ShortFacts FracFacts LongFacts ParseProps Refuted LocalFacts LocalProps.
Open Scope Z_scope.

(** the state of the scanner behind an optional sign *)
Definition sign_state (sg : signopt) : pstate :=
  match sg with
  | NoSign => pstate_init
  | Plus => set_pos 1 (set_sign true pstate_init)
  | Minus => set_pos 1 (set_sign false pstate_init)
  end.

Lemma fuel_two : exists f, parse_fuel = S (S (S f)).
Proof. unfold parse_fuel, maximum_offset. exists (Z.to_nat 2048). lia. Qed.

Lemma loop_sign : forall kap sg u, exists f,
  parse_loop kap (sign_text sg ++ u) parse_fuel pstate_init = parse_loop kap (sign_text sg ++ u) (S (S f)) (sign_state sg).
Proof.
  intros kap sg u. destruct fuel_two as (f & ->). destruct sg; cbn [sign_text sign_state].
  - now exists (S f).
  - exists f. reflexivity.
  - exists f. reflexivity.
Qed.

Lemma sign_pos : forall sg, pd_pos (sign_state sg) = zlen (sign_text sg).
Proof. destruct sg; reflexivity. Qed.

Lemma sign_facts : forall sg, pd_digits (sign_state sg) = [] /\ pd_pos (sign_state sg) =? b2z (pd_sign_set (sign_state sg)) = true /\
  pd_sign (sign_state sg) = negb (is_minus sg) /\ pd_dot_set (sign_state sg) = false /\ pd_special (sign_state sg) = sp_no.
Proof. destruct sg; repeat split. Qed.

Lemma read_behind : forall (a : list Z) u k x, 0 <= k -> read u k = Ok x -> read (a ++ u) (zlen a + k) = Ok x.
Proof.
  intros a u k x Hk H. unfold read in *. destruct (Z.ltb_spec (zlen a + k) 0); [pose proof (zlen_nonneg a); lia|].
  destruct (Z.ltb_spec k 0); [lia|]. rewrite nth_error_app2 by (unfold zlen; lia).
  replace (Z.to_nat (zlen a + k) - List.length a)%nat with (Z.to_nat k) by (unfold zlen; lia). exact H.
Qed.

(** one iteration behind the sign that ends the loop *)
Lemma scan_once : forall t sg x u st1, step_char (decimal_q (fmt_of t)) (sign_text sg ++ x :: u) (sign_state sg) x = Ok (st1, true) ->
  pd_digits st1 = [] -> 0 <= pd_pos st1 ->
  exists dp, parse_digits (fmt_of t) (sign_text sg ++ x :: u) = Ok dp /\ dp_value dp = 0 /\ dp_str_end dp = pd_pos st1 /\
    dp_special dp = pd_special st1 /\ dp_sign dp = pd_sign st1.
Proof.
  intros t sg x u st1 H HD HP. unfold parse_digits. destruct (loop_sign (decimal_q (fmt_of t)) sg (x :: u)) as (f & ->).
  cbn [parse_loop]. rewrite sign_pos.
  pose proof (read_behind (sign_text sg) (x :: u) 0 x ltac:(lia) eq_refl) as R0. rewrite Z.add_0_r in R0. rewrite R0. cbn [bind]. rewrite H. cbn [bind orb]. cbv zeta. cbn [orb bind].
  cbn [set_pos pd_digits]. rewrite HD. cbn [rev weighted_sum bind]. eexists. split; [reflexivity|].
  cbn [dp_value dp_str_end dp_special dp_sign pd_pos set_pos pd_special pd_sign]. repeat split; lia.
Qed.

Lemma apply_sign_zero : forall t sg, apply_sign (fmt_of t) (negb (is_minus sg)) 0 = zero_of t (is_minus sg).
Proof. intros t sg. unfold apply_sign, zero_of. destruct (is_minus sg); cbn [negb]; [|reflexivity]. now rewrite neg_bits_small by (destruct t; cbn; lia). Qed.

(** nothing but a sign and perhaps one more character was taken *)
Lemma atof_nothing : forall t sg s dp, parse_digits (fmt_of t) s = Ok dp -> dp_value dp = 0 -> dp_special dp = sp_no -> dp_sign dp = negb (is_minus sg) ->
  dp_str_end dp <> 0 -> forall want fb errno, atof (fmt_of t) s want fb errno = Ok (answer want errno (zero_of t (is_minus sg)) success (dp_str_end dp)).
Proof.
  intros t sg s dp H V Sp Sg N want fb errno. apply atof_fast; [|assumption]. rewrite krosh_by_parts, H. cbn [bind].
  rewrite Sp, V, Sg. cbn [Z.eqb]. now rewrite apply_sign_zero.
Qed.

Lemma begins_nothing_step : forall kap s st x, begins_nothing x -> step_char kap s st x = Ok (st, true).
Proof.
  intros kap s st x (H0 & H1 & H2 & H3 & H4 & H5 & H6 & H7). unfold between in H0.
  change (code "0") with 48 in *. change (code "9") with 57 in *. change (code ".") with 46 in *. change (code "+") with 43 in *.
  change (code "-") with 45 in *. change (code "n") with 110 in *. change (code "N") with 78 in *. change (code "i") with 105 in *. change (code "I") with 73 in *.
  unfold step_char, ch_0, ch_dot, ch_n, ch_N, ch_i, ch_I, ch_minus, ch_plus.
  destruct (Z.eqb_spec x 48); [lia|]. destruct (Z.leb_spec 49 x), (Z.leb_spec x 57); cbn [andb]; try lia.
  all: repeat match goal with |- context [?a =? ?b] => destruct (Z.eqb_spec a b); [lia|] end; reflexivity.
Qed.

(** C38, as far as it holds: text that begins with none of digit, point, sign, n or i. *)
Theorem C38_rejected_partial : forall t x rest want fb errno, begins_nothing x ->
  atof (fmt_of t) (x :: rest) want fb errno = Ok (answer want errno 0 success 0).
Proof.
  intros t x rest want fb errno H.
  destruct (scan_once t NoSign x rest pstate_init) as (dp & E & V & S1 & S2 & S3); try reflexivity.
  - now apply begins_nothing_step.
  - cbn [sign_text app] in E. unfold atof. rewrite krosh_by_parts, E. cbn [bind]. rewrite V, S1, S2. reflexivity.
Qed.

(** What happens to the others: a sign before no number is consumed and gives a zero with that sign. *)
Theorem C38_lone_sign : forall t sg x rest want fb errno, sg <> NoSign -> begins_nothing x \/ x = code "+" \/ x = code "-" ->
  atof (fmt_of t) (sign_text sg ++ x :: rest) want fb errno = Ok (answer want errno (zero_of t (is_minus sg)) success 1).
Proof.
  intros t sg x rest want fb errno N H. destruct (sign_facts sg) as (F1 & F2 & F3 & F4 & F5).
  assert (Sp : pd_pos (sign_state sg) = 1) by (destruct sg; [congruence| |]; reflexivity).
  destruct (scan_once t sg x rest (sign_state sg)) as (dp & E & V & S1 & S2 & S3); try assumption.
  - destruct H as [H|[-> | ->]]; [now apply begins_nothing_step| |]; destruct sg; try congruence; reflexivity.
  - lia.
  - rewrite Sp in S1. rewrite (atof_nothing t sg _ dp E V); [now rewrite S1|congruence|congruence|lia].
Qed.

(** ... and so is a point not followed by a digit ... *)
Theorem C38_lone_point : forall t sg x rest want fb errno, ~ between "0" "9" x ->
  atof (fmt_of t) (sign_text sg ++ code "." :: x :: rest) want fb errno
  = Ok (answer want errno (zero_of t (is_minus sg)) success (len (sign_text sg) + 1)).
Proof.
  intros t sg x rest want fb errno H. destruct (sign_facts sg) as (F1 & F2 & F3 & F4 & F5).
  unfold between in H. change (code "0") with 48 in *. change (code "9") with 57 in *. change (code ".") with 46.
  set (s := sign_text sg ++ 46 :: x :: rest).
  assert (E : exists dp, parse_digits (fmt_of t) s = Ok dp /\ dp_value dp = 0 /\ dp_str_end dp = len (sign_text sg) + 1 /\ dp_special dp = sp_no /\ dp_sign dp = negb (is_minus sg)).
  { unfold parse_digits, s. destruct (loop_sign (decimal_q (fmt_of t)) sg (46 :: x :: rest)) as (f & ->). fold s.
    cbn [parse_loop]. rewrite sign_pos.
    assert (R0 : read s (zlen (sign_text sg)) = Ok 46) by (rewrite <- (Z.add_0_r (zlen (sign_text sg))); now apply read_behind).
    assert (R1 : read s (zlen (sign_text sg) + 1) = Ok x) by (now apply read_behind).
    rewrite R0. cbn [bind]. assert (S1 : step_char (decimal_q (fmt_of t)) s (sign_state sg) 46 = Ok (set_dot (sign_state sg), false)) by (unfold step_char; cbn; now rewrite F4).
    rewrite S1. cbn [bind orb]. cbv zeta. cbn [set_dot pd_pos]. rewrite sign_pos.
    assert (L : zlen (sign_text sg) <= 1) by (destruct sg; cbn; lia). pose proof (zlen_nonneg (sign_text sg)).
    destruct (Z.ltb_spec maximum_offset (zlen (sign_text sg))); [unfold maximum_offset in *; lia|].
    set (st := set_pos (zlen (sign_text sg) + 1) (set_dot (sign_state sg))).
    change (pd_pos st) with (zlen (sign_text sg) + 1). rewrite R1. cbn [bind].
    assert (S2 : exists st2, step_char (decimal_q (fmt_of t)) s st x = Ok (st2, true) /\ pd_digits st2 = [] /\ pd_pos st2 = pd_pos st /\ pd_special st2 = sp_no /\ pd_sign st2 = negb (is_minus sg)).
    { assert (B0 : pd_pos st =? b2z (pd_sign_set st) = false) by (unfold st; destruct sg; reflexivity).
      assert (B1 : pd_pos st =? 0 = false) by (unfold st; destruct sg; reflexivity).
      assert (St : pd_digits st = [] /\ pd_special st = sp_no /\ pd_sign st = negb (is_minus sg)) by (unfold st; destruct sg; repeat split). destruct St as (T1 & T2 & T3).
      unfold step_char, ch_0, ch_dot. destruct (Z.eqb_spec x 48); [lia|]. destruct (Z.leb_spec 49 x), (Z.leb_spec x 57); cbn [andb]; try lia.
      all: rewrite B0, B1.
      all: destruct (Z.eqb_spec x 46); [exists (set_dot st); split; [reflexivity|]; repeat split; assumption|].
      all: exists st; split; [|repeat split; assumption].
      all: destruct ((x =? ch_n) || (x =? ch_N)); [reflexivity|]; destruct ((x =? ch_i) || (x =? ch_I)); [reflexivity|]; destruct ((x =? ch_minus) || (x =? ch_plus)); reflexivity. }
    destruct S2 as (st2 & -> & D2 & P2 & Sp2 & Sg2). cbn [bind orb]. cbv zeta. cbn [orb bind]. cbn [set_pos pd_digits]. rewrite D2. cbn [rev weighted_sum bind].
    eexists. split; [reflexivity|]. cbn [dp_value dp_str_end dp_special dp_sign pd_pos set_pos pd_special pd_sign].
    split; [reflexivity|]. split; [|split; assumption]. rewrite P2. unfold st. cbn [set_pos pd_pos]. unfold zlen, len in *. lia. }
  destruct E as (dp & E & V & S1 & S2 & S3). rewrite (atof_nothing t sg s dp E V); try assumption; [now rewrite S1|].
  rewrite S1. unfold len. lia.
Qed.

(** * Words *)

Lemma spells_length : forall w a, spells w a -> List.length a = List.length w.
Proof. intros w a H. induction H; cbn; congruence. Qed.

Lemma any_case_lower : forall c l, any_case c l -> 97 <= l <= 122 -> tolower c = l /\ (c =? l) || (c =? l - 32) = true.
Proof.
  intros c l H L. unfold any_case in H. change (code "a" - code "A") with 32 in H. unfold tolower.
  destruct H as [-> | ->].
  - destruct (Z.leb_spec 65 l), (Z.leb_spec l 90); cbn [andb]; lia.
  - destruct (Z.leb_spec 65 (l - 32)), (Z.leb_spec (l - 32) 90); cbn [andb]; lia.
Qed.

Lemma not_case : forall c l, ~ any_case c l -> 97 <= l <= 122 -> tolower c <> l /\ (c =? l) || (c =? l - 32) = false.
Proof.
  intros c l H L. unfold any_case in H. change (code "a" - code "A") with 32 in H. unfold tolower.
  split.
  - destruct (Z.leb_spec 65 c), (Z.leb_spec c 90); cbn [andb]; lia.
  - destruct (Z.eqb_spec c l), (Z.eqb_spec c (l - 32)); cbn; try reflexivity; lia.
Qed.

Lemma payload_nchar : forall c, payload_char c <-> is_nchar c = true.
Proof.
  intros c. unfold payload_char, between. change (code "0") with 48. change (code "9") with 57. change (code "A") with 65. change (code "Z") with 90.
  change (code "a") with 97. change (code "z") with 122. change (code "_") with 95.
  unfold is_nchar, tolower, ch_0, ch_9, ch_a, ch_z, ch_under.
  destruct (Z.leb_spec 65 c), (Z.leb_spec c 90); cbn [andb];
    repeat match goal with |- context [?a <=? ?b] => destruct (Z.leb_spec a b) end; destruct (Z.eqb_spec c 95); cbn [andb orb]; split; intros; try reflexivity; try discriminate; lia.
Qed.

Lemma payload_end : forall p s fuel cp pre x r, s = pre ++ p ++ x :: r -> cp + 1 = zlen pre -> Forall payload_char p -> ~ payload_char x ->
  (List.length p < fuel)%nat -> nan_payload_end s fuel cp = Ok (cp + 1 + zlen p).
Proof.
  induction p as [|c p IH]; intros s fuel cp pre x r E Hc HF Nx Hf; (destruct fuel as [|fuel]; [cbn in Hf; lia|]); cbn [nan_payload_end]; cbv zeta; rewrite Hc.
  - assert (R : read s (zlen pre) = Ok x) by (rewrite E; now apply read_app). rewrite R. cbn [bind].
    destruct (is_nchar x) eqn:B; [apply payload_nchar in B; contradiction|]. f_equal. rewrite zlen_nil. lia.
  - inversion_clear HF as [|? ? F1 F2].
    assert (R : read s (zlen pre) = Ok c) by (rewrite E; now apply read_app). rewrite R. cbn [bind].
    apply payload_nchar in F1. rewrite F1. rewrite (IH s fuel (zlen pre) (pre ++ [c]) x r); auto.
    + f_equal. rewrite zlen_cons. lia.
    + rewrite E, <- app_assoc. reflexivity.
    + rewrite zlen_app. reflexivity.
    + cbn in Hf. lia.
Qed.

(** the value of a word *)
Lemma word_result : forall t sg x u st1 (inf : bool), step_char (decimal_q (fmt_of t)) (sign_text sg ++ x :: u) (sign_state sg) x = Ok (st1, true) ->
  pd_digits st1 = [] -> 0 < pd_pos st1 -> pd_special st1 = (if inf then sp_inf else sp_nan) -> pd_sign st1 = negb (is_minus sg) ->
  forall want fb errno, atof (fmt_of t) (sign_text sg ++ x :: u) want fb errno
  = Ok (answer want errno (apply_sign (fmt_of t) (negb (is_minus sg)) (if inf then inf_bits (fmt_of t) else qnan_bits (fmt_of t))) success (pd_pos st1)).
Proof.
  intros t sg x u st1 inf H D P Sp Sg want fb errno.
  destruct (scan_once t sg x u st1 H D ltac:(lia)) as (dp & E & V & S1 & S2 & S3).
  apply atof_fast; [|lia]. rewrite krosh_by_parts, E. cbn [bind]. rewrite S2, Sp, S3, Sg, S1. destruct inf; reflexivity.
Qed.

Lemma inf_value : forall t sg, apply_sign (fmt_of t) (negb (is_minus sg)) (inf_bits (fmt_of t)) = infinity_of t (is_minus sg).
Proof. intros [] []; reflexivity. Qed.

(** the NaN that is returned *)
Definition nan_of (t : ftype) (neg : bool) : Z := infinity_of t neg + 2 ^ (precision t - 2).
Lemma nan_value : forall t sg, apply_sign (fmt_of t) (negb (is_minus sg)) (qnan_bits (fmt_of t)) = nan_of t (is_minus sg).
Proof. intros [] []; reflexivity. Qed.
Lemma nan_of_nan : forall t neg, nan t (nan_of t neg) /\ (negative t (nan_of t neg) <-> neg = true).
Proof. intros [] []; (split; [repeat split; vm_compute; congruence|]); split; vm_compute; congruence. Qed.

Lemma n_step : forall kap s sg c k, any_case c 110 -> eat_nan s (zlen (sign_text sg) + 1) = Ok k -> 0 <= k ->
  exists st1, step_char kap s (sign_state sg) c = Ok (st1, true) /\ pd_digits st1 = [] /\ pd_pos st1 = zlen (sign_text sg) + 1 + k /\
    pd_special st1 = (if k =? 0 then sp_no else sp_nan) /\ pd_sign st1 = negb (is_minus sg).
Proof.
  intros kap s sg c k Hc E Hk. destruct (sign_facts sg) as (F1 & F2 & F3 & F4 & F5).
  assert (Hc' : c = 110 \/ c = 78) by exact Hc.
  unfold step_char, ch_0, ch_dot. destruct (Z.eqb_spec c 48); [lia|]. destruct (Z.leb_spec 49 c), (Z.leb_spec c 57); cbn [andb]; try lia.
  destruct (Z.eqb_spec c 46); [lia|]. assert ((c =? ch_n) || (c =? ch_N) = true) as ->.
  { unfold ch_n, ch_N. destruct Hc' as [-> | ->]; reflexivity. }
  rewrite F2, sign_pos, E. cbn [bind]. cbv zeta. eexists. split; [reflexivity|].
  destruct (k =? 0); cbn [negb set_special set_pos pd_digits pd_pos pd_special pd_sign]; repeat split; try assumption; lia.
Qed.

Lemma i_step : forall kap s sg c k, any_case c 105 -> eat_inf s (zlen (sign_text sg) + 1) = Ok k -> 0 <= k ->
  exists st1, step_char kap s (sign_state sg) c = Ok (st1, true) /\ pd_digits st1 = [] /\ pd_pos st1 = zlen (sign_text sg) + 1 + k /\
    pd_special st1 = (if k =? 0 then sp_no else sp_inf) /\ pd_sign st1 = negb (is_minus sg).
Proof.
  intros kap s sg c k Hc E Hk. destruct (sign_facts sg) as (F1 & F2 & F3 & F4 & F5).
  assert (Hc' : c = 105 \/ c = 73) by exact Hc.
  unfold step_char, ch_0, ch_dot. destruct (Z.eqb_spec c 48); [lia|]. destruct (Z.leb_spec 49 c), (Z.leb_spec c 57); cbn [andb]; try lia.
  destruct (Z.eqb_spec c 46); [lia|]. assert ((c =? ch_n) || (c =? ch_N) = false) as ->.
  { unfold ch_n, ch_N. destruct Hc' as [-> | ->]; reflexivity. }
  assert ((c =? ch_i) || (c =? ch_I) = true) as ->.
  { unfold ch_i, ch_I. destruct Hc' as [-> | ->]; reflexivity. }
  rewrite F2, sign_pos, E. cbn [bind]. cbv zeta. eexists. split; [reflexivity|].
  destruct (k =? 0); cbn [negb set_special set_pos pd_digits pd_pos pd_special pd_sign]; repeat split; try assumption; lia.
Qed.

Lemma spells_three : forall w1 w2 w3 a, spells [w1; w2; w3] a -> exists a1 a2 a3, a = [a1; a2; a3] /\ any_case a1 w1 /\ any_case a2 w2 /\ any_case a3 w3.
Proof.
  intros w1 w2 w3 a H. inversion_clear H as [|a1 ? ? ? H1 H']. inversion_clear H' as [|a2 ? ? ? H2 H'']. inversion_clear H'' as [|a3 ? ? ? H3 H3'].
  inversion_clear H3'. exists a1, a2, a3. auto.
Qed.

(** C37: nan *)
Theorem C37_nan : forall t sg a c rest want fb errno, spells (text "nan") a -> c <> code "(" ->
  atof (fmt_of t) (sign_text sg ++ a ++ c :: rest) want fb errno
  = Ok (answer want errno (nan_of t (is_minus sg)) success (len (sign_text sg ++ a))).
Proof.
  intros t sg a c rest want fb errno Sp Nc. apply spells_three in Sp as (a1 & a2 & a3 & -> & H1 & H2 & H3).
  change (code "(") with 40 in Nc. cbn [app]. set (s := sign_text sg ++ a1 :: a2 :: a3 :: c :: rest).
  assert (E : eat_nan s (zlen (sign_text sg) + 1) = Ok 2).
  { unfold eat_nan. assert (R2 : read s (zlen (sign_text sg) + 1) = Ok a2) by (now apply read_behind).
    assert (R3 : read s (zlen (sign_text sg) + 1 + 1) = Ok a3) by (rewrite <- Z.add_assoc; now apply read_behind).
    assert (R4 : read s (zlen (sign_text sg) + 1 + 2) = Ok c) by (rewrite <- Z.add_assoc; now apply read_behind).
    rewrite R2. cbn [bind]. destruct (any_case_lower a2 97 H2 ltac:(lia)) as [_ B2]. change ((a2 =? ch_a) || (a2 =? ch_A)) with ((a2 =? 97) || (a2 =? 97 - 32)). rewrite B2.
    rewrite R3. cbn [bind]. destruct (any_case_lower a3 110 H3 ltac:(lia)) as [_ B3]. change ((a3 =? ch_n) || (a3 =? ch_N)) with ((a3 =? 110) || (a3 =? 110 - 32)). rewrite B3.
    cbv zeta. rewrite R4. cbn [bind]. unfold ch_lpar. destruct (Z.eqb_spec c 40); [contradiction|reflexivity]. }
  destruct (n_step (decimal_q (fmt_of t)) s sg a1 2 H1 E ltac:(lia)) as (st1 & S1 & S2 & S3 & S4 & S5).
  pose proof (zlen_nonneg (sign_text sg)).
  etransitivity; [exact (word_result t sg a1 _ st1 false S1 S2 ltac:(lia) S4 S5 want fb errno)|]. rewrite nan_value, S3. do 3 f_equal.
  unfold len. rewrite app_length. unfold zlen. cbn [List.length]. lia.
Qed.

(** nan(chars) *)
Theorem C37_nan_payload : forall t sg a p rest want fb errno, spells (text "nan") a -> Forall payload_char p ->
  atof (fmt_of t) (sign_text sg ++ a ++ text "(" ++ p ++ text ")" ++ rest) want fb errno
  = Ok (answer want errno (nan_of t (is_minus sg)) success (len (sign_text sg ++ a ++ text "(" ++ p ++ text ")"))).
Proof.
  intros t sg a p rest want fb errno Sp Hp. apply spells_three in Sp as (a1 & a2 & a3 & -> & H1 & H2 & H3).
  change (text "(") with [40]. change (text ")") with [41]. cbn [app]. set (s := sign_text sg ++ a1 :: a2 :: a3 :: 40 :: p ++ 41 :: rest).
  assert (E : eat_nan s (zlen (sign_text sg) + 1) = Ok (zlen p + 4)).
  { unfold eat_nan. assert (R2 : read s (zlen (sign_text sg) + 1) = Ok a2) by (now apply read_behind).
    assert (R3 : read s (zlen (sign_text sg) + 1 + 1) = Ok a3) by (rewrite <- Z.add_assoc; now apply read_behind).
    assert (R4 : read s (zlen (sign_text sg) + 1 + 2) = Ok 40) by (rewrite <- Z.add_assoc; now apply read_behind).
    rewrite R2. cbn [bind]. destruct (any_case_lower a2 97 H2 ltac:(lia)) as [_ B2]. change ((a2 =? ch_a) || (a2 =? ch_A)) with ((a2 =? 97) || (a2 =? 97 - 32)). rewrite B2.
    rewrite R3. cbn [bind]. destruct (any_case_lower a3 110 H3 ltac:(lia)) as [_ B3]. change ((a3 =? ch_n) || (a3 =? ch_N)) with ((a3 =? 110) || (a3 =? 110 - 32)). rewrite B3.
    cbv zeta. rewrite R4. cbn [bind]. change (40 =? ch_lpar) with true. cbv iota.
    assert (Es : s = (sign_text sg ++ [a1; a2; a3; 40]) ++ p ++ 41 :: rest) by (unfold s; rewrite <- app_assoc; reflexivity).
    assert (Ls : zlen (sign_text sg ++ [a1; a2; a3; 40]) = zlen (sign_text sg) + 4) by (rewrite zlen_app; reflexivity).
    rewrite (payload_end p s _ _ _ 41 rest Es); [|lia|assumption|rewrite payload_nchar; vm_compute; congruence|unfold s; rewrite !app_length; cbn [List.length]; rewrite app_length; cbn [List.length]; lia].
    cbn [bind].
    assert (R5 : read s (zlen (sign_text sg) + 1 + 2 + 1 + zlen p) = Ok 41).
    { rewrite Es, app_assoc. apply read_app. rewrite zlen_app. lia. }
    rewrite R5. cbn [bind]. change (41 =? ch_rpar) with true. cbv iota. f_equal. lia. }
  pose proof (zlen_nonneg (sign_text sg)). pose proof (zlen_nonneg p).
  destruct (n_step (decimal_q (fmt_of t)) s sg a1 _ H1 E ltac:(lia)) as (st1 & S1 & S2 & S3 & S4 & S5).
  assert (zlen p + 4 =? 0 = false) as B by (apply Z.eqb_neq; lia). rewrite B in S4.
  etransitivity; [exact (word_result t sg a1 _ st1 false S1 S2 ltac:(lia) S4 S5 want fb errno)|]. rewrite nan_value, S3. do 3 f_equal.
  unfold len. rewrite !app_length. cbn [List.length]. rewrite app_length. unfold zlen. cbn [List.length]. lia.
Qed.

(** a parenthesis that is not closed properly does not belong to the token *)
Theorem C37_nan_open : forall t sg a p c rest want fb errno, spells (text "nan") a -> Forall payload_char p -> ~ payload_char c -> c <> code ")" ->
  atof (fmt_of t) (sign_text sg ++ a ++ text "(" ++ p ++ c :: rest) want fb errno
  = Ok (answer want errno (nan_of t (is_minus sg)) success (len (sign_text sg ++ a))).
Proof.
  intros t sg a p c rest want fb errno Sp Hp Hc Nc. apply spells_three in Sp as (a1 & a2 & a3 & -> & H1 & H2 & H3).
  change (code ")") with 41 in Nc. change (text "(") with [40]. cbn [app]. set (s := sign_text sg ++ a1 :: a2 :: a3 :: 40 :: p ++ c :: rest).
  assert (E : eat_nan s (zlen (sign_text sg) + 1) = Ok 2).
  { unfold eat_nan. assert (R2 : read s (zlen (sign_text sg) + 1) = Ok a2) by (now apply read_behind).
    assert (R3 : read s (zlen (sign_text sg) + 1 + 1) = Ok a3) by (rewrite <- Z.add_assoc; now apply read_behind).
    assert (R4 : read s (zlen (sign_text sg) + 1 + 2) = Ok 40) by (rewrite <- Z.add_assoc; now apply read_behind).
    rewrite R2. cbn [bind]. destruct (any_case_lower a2 97 H2 ltac:(lia)) as [_ B2]. change ((a2 =? ch_a) || (a2 =? ch_A)) with ((a2 =? 97) || (a2 =? 97 - 32)). rewrite B2.
    rewrite R3. cbn [bind]. destruct (any_case_lower a3 110 H3 ltac:(lia)) as [_ B3]. change ((a3 =? ch_n) || (a3 =? ch_N)) with ((a3 =? 110) || (a3 =? 110 - 32)). rewrite B3.
    cbv zeta. rewrite R4. cbn [bind]. change (40 =? ch_lpar) with true. cbv iota.
    assert (Es : s = (sign_text sg ++ [a1; a2; a3; 40]) ++ p ++ c :: rest) by (unfold s; rewrite <- app_assoc; reflexivity).
    assert (Ls : zlen (sign_text sg ++ [a1; a2; a3; 40]) = zlen (sign_text sg) + 4) by (rewrite zlen_app; reflexivity).
    rewrite (payload_end p s _ _ _ c rest Es); [|lia|assumption|assumption|unfold s; rewrite !app_length; cbn [List.length]; rewrite app_length; cbn [List.length]; lia].
    cbn [bind].
    assert (R5 : read s (zlen (sign_text sg) + 1 + 2 + 1 + zlen p) = Ok c).
    { rewrite Es, app_assoc. apply read_app. rewrite zlen_app. lia. }
    rewrite R5. cbn [bind]. unfold ch_rpar. destruct (Z.eqb_spec c 41); [contradiction|reflexivity]. }
  destruct (n_step (decimal_q (fmt_of t)) s sg a1 2 H1 E ltac:(lia)) as (st1 & S1 & S2 & S3 & S4 & S5).
  pose proof (zlen_nonneg (sign_text sg)).
  etransitivity; [exact (word_result t sg a1 _ st1 false S1 S2 ltac:(lia) S4 S5 want fb errno)|]. rewrite nan_value, S3. do 3 f_equal.
  unfold len. rewrite app_length. unfold zlen. cbn [List.length]. lia.
Qed.

Lemma match_all : forall w s pre b r, Forall (fun l => 97 <= l <= 122) w -> spells w b -> s = pre ++ b ++ r ->
  match_suffix s w (zlen pre) = Ok (Some (zlen pre + zlen w)).
Proof.
  induction w as [|l w IH]; intros s pre b r HF Sp E; inversion Sp as [|c ? b' ? H1 H2]; subst b; cbn [match_suffix].
  - rewrite zlen_nil. do 2 f_equal. lia.
  - inversion_clear HF as [|? ? F1 F2]. assert (R : read s (zlen pre) = Ok c) by (rewrite E; now apply read_app). rewrite R. cbn [bind].
    destruct (any_case_lower c l H1 F1) as [-> _]. rewrite Z.eqb_refl.
    replace (zlen pre + 1) with (zlen (pre ++ [c])) by (rewrite zlen_app; reflexivity).
    rewrite (IH s (pre ++ [c]) b' r F2 H2); [|rewrite E, <- app_assoc; reflexivity].
    rewrite zlen_app, !zlen_cons, zlen_nil. do 2 f_equal. lia.
Qed.

Lemma match_none : forall w1 l w2 s pre b c r, Forall (fun l => 97 <= l <= 122) (w1 ++ l :: w2) -> spells w1 b -> ~ any_case c l -> s = pre ++ b ++ c :: r ->
  match_suffix s (w1 ++ l :: w2) (zlen pre) = Ok None.
Proof.
  induction w1 as [|x w1 IH]; intros l w2 s pre b c r HF Sp Nc E; inversion Sp as [|y ? b' ? H1 H2]; subst b; cbn [match_suffix app]; inversion_clear HF as [|? ? F1 F2].
  - assert (R : read s (zlen pre) = Ok c) by (rewrite E; now apply read_app). rewrite R. cbn [bind].
    destruct (not_case c l Nc F1) as [N _]. destruct (Z.eqb_spec (tolower c) l); [contradiction|reflexivity].
  - assert (R : read s (zlen pre) = Ok y) by (rewrite E; now apply read_app). rewrite R. cbn [bind].
    destruct (any_case_lower y x H1 F1) as [-> _]. rewrite Z.eqb_refl.
    replace (zlen pre + 1) with (zlen (pre ++ [y])) by (rewrite zlen_app; reflexivity).
    apply (IH l w2 s (pre ++ [y]) b' c r F2 H2 Nc). rewrite E, <- app_assoc. reflexivity.
Qed.

Lemma nity_letters : Forall (fun l => 97 <= l <= 122) [ch_n; ch_i; ch_t; ch_y].
Proof. repeat constructor; vm_compute; congruence. Qed.

(** infinity *)
Theorem C37_infinity : forall t sg a rest want fb errno, spells (text "infinity") a ->
  atof (fmt_of t) (sign_text sg ++ a ++ rest) want fb errno
  = Ok (answer want errno (infinity_of t (is_minus sg)) success (len (sign_text sg ++ a))).
Proof.
  intros t sg a rest want fb errno Sp. change (text "infinity") with [105; 110; 102; 105; 110; 105; 116; 121] in Sp.
  inversion_clear Sp as [|a1 ? b ? H1 Sp1]. inversion_clear Sp1 as [|a2 ? b' ? H2 Sp2]. inversion_clear Sp2 as [|a3 ? b'' ? H3 Sp3]. inversion_clear Sp3 as [|a4 ? b4 ? H4 Sp4].
  cbn [app]. set (s := sign_text sg ++ a1 :: a2 :: a3 :: a4 :: b4 ++ rest).
  assert (E : eat_inf s (zlen (sign_text sg) + 1) = Ok 7).
  { unfold eat_inf. assert (R2 : read s (zlen (sign_text sg) + 1) = Ok a2) by (now apply read_behind).
    assert (R3 : read s (zlen (sign_text sg) + 1 + 1) = Ok a3) by (rewrite <- Z.add_assoc; now apply read_behind).
    assert (R4 : read s (zlen (sign_text sg) + 1 + 2) = Ok a4) by (rewrite <- Z.add_assoc; now apply read_behind).
    rewrite R2. cbn [bind]. destruct (any_case_lower a2 110 H2 ltac:(lia)) as [_ B2]. change ((a2 =? ch_n) || (a2 =? ch_N)) with ((a2 =? 110) || (a2 =? 110 - 32)). rewrite B2.
    rewrite R3. cbn [bind]. destruct (any_case_lower a3 102 H3 ltac:(lia)) as [_ B3]. change ((a3 =? ch_f) || (a3 =? ch_F)) with ((a3 =? 102) || (a3 =? 102 - 32)). rewrite B3.
    cbv zeta. rewrite R4. cbn [bind]. destruct (any_case_lower a4 105 H4 ltac:(lia)) as [_ B4]. change ((a4 =? ch_i) || (a4 =? ch_I)) with ((a4 =? 105) || (a4 =? 105 - 32)). rewrite B4.
    assert (Ls : zlen (sign_text sg) + 1 + 2 + 1 = zlen (sign_text sg ++ [a1; a2; a3; a4])) by (rewrite zlen_app; cbn; lia).
    rewrite Ls, (match_all [ch_n; ch_i; ch_t; ch_y] s _ b4 rest nity_letters Sp4) by (unfold s; rewrite <- app_assoc; reflexivity).
    cbn [bind]. f_equal. rewrite <- Ls. cbn. lia. }
  destruct (i_step (decimal_q (fmt_of t)) s sg a1 7 H1 E ltac:(lia)) as (st1 & S1 & S2 & S3 & S4 & S5).
  pose proof (zlen_nonneg (sign_text sg)).
  etransitivity; [exact (word_result t sg a1 _ st1 true S1 S2 ltac:(lia) S4 S5 want fb errno)|]. rewrite inf_value, S3. do 3 f_equal.
  pose proof (spells_length _ _ Sp4) as L4. cbn [List.length] in L4.
  unfold len. rewrite app_length. unfold zlen. cbn [List.length]. lia.
Qed.

(** inf, followed by anything that does not complete "infinity" *)
Theorem C37_inf : forall t sg a b w1 l w2 c rest want fb errno, spells (text "inf") a ->
  text "inity" = w1 ++ l :: w2 -> spells w1 b -> ~ any_case c l ->
  atof (fmt_of t) (sign_text sg ++ a ++ b ++ c :: rest) want fb errno
  = Ok (answer want errno (infinity_of t (is_minus sg)) success (len (sign_text sg ++ a))).
Proof.
  intros t sg a b w1 l w2 c rest want fb errno Sp Ew Sb Nc. apply spells_three in Sp as (a1 & a2 & a3 & -> & H1 & H2 & H3).
  cbn [app]. set (s := sign_text sg ++ a1 :: a2 :: a3 :: b ++ c :: rest).
  assert (E : eat_inf s (zlen (sign_text sg) + 1) = Ok 2).
  { unfold eat_inf. assert (R2 : read s (zlen (sign_text sg) + 1) = Ok a2) by (now apply read_behind).
    assert (R3 : read s (zlen (sign_text sg) + 1 + 1) = Ok a3) by (rewrite <- Z.add_assoc; now apply read_behind).
    rewrite R2. cbn [bind]. destruct (any_case_lower a2 110 H2 ltac:(lia)) as [_ B2]. change ((a2 =? ch_n) || (a2 =? ch_N)) with ((a2 =? 110) || (a2 =? 110 - 32)). rewrite B2.
    rewrite R3. cbn [bind]. destruct (any_case_lower a3 102 H3 ltac:(lia)) as [_ B3]. change ((a3 =? ch_f) || (a3 =? ch_F)) with ((a3 =? 102) || (a3 =? 102 - 32)). rewrite B3.
    cbv zeta. change (text "inity") with (105 :: [ch_n; ch_i; ch_t; ch_y]) in Ew.
    destruct w1 as [|w w1]; cbn [app] in Ew.
    - inversion Sb; subst b. injection Ew as <- _. 
      assert (R4 : read s (zlen (sign_text sg) + 1 + 2) = Ok c) by (rewrite <- Z.add_assoc; now apply read_behind).
      rewrite R4. cbn [bind]. destruct (not_case c 105 Nc ltac:(lia)) as [_ B4]. change ((c =? ch_i) || (c =? ch_I)) with ((c =? 105) || (c =? 105 - 32)). now rewrite B4.
    - inversion Sb as [|b0 ? b' ? Hb Sb' Eb1 Eb2]; subst b. assert (Ew0 : w = 105) by congruence. assert (Ew' : [ch_n; ch_i; ch_t; ch_y] = w1 ++ l :: w2) by congruence. rewrite Ew0 in Hb.
      assert (R4 : read s (zlen (sign_text sg) + 1 + 2) = Ok b0) by (rewrite <- Z.add_assoc; now apply read_behind).
      rewrite R4. cbn [bind]. destruct (any_case_lower b0 105 Hb ltac:(lia)) as [_ B4]. change ((b0 =? ch_i) || (b0 =? ch_I)) with ((b0 =? 105) || (b0 =? 105 - 32)). rewrite B4.
      assert (Ls : zlen (sign_text sg) + 1 + 2 + 1 = zlen (sign_text sg ++ [a1; a2; a3; b0])) by (rewrite zlen_app; cbn; lia).
      rewrite Ls, Ew'. pose proof nity_letters as NL. rewrite Ew' in NL.
      rewrite (match_none w1 l w2 s _ b' c rest NL Sb' Nc) by (unfold s; rewrite <- app_assoc; reflexivity). reflexivity. }
  destruct (i_step (decimal_q (fmt_of t)) s sg a1 2 H1 E ltac:(lia)) as (st1 & S1 & S2 & S3 & S4 & S5).
  pose proof (zlen_nonneg (sign_text sg)).
  etransitivity; [exact (word_result t sg a1 _ st1 true S1 S2 ltac:(lia) S4 S5 want fb errno)|]. rewrite inf_value, S3. do 3 f_equal.
  unfold len. rewrite app_length. unfold zlen. cbn [List.length]. lia.
Qed.

(** C38 again: a letter n or i that begins no word is consumed all the same *)
Theorem C38_false_word : forall t sg x y rest want fb errno,
  any_case x (code "n") /\ ~ any_case y (code "a") \/ any_case x (code "i") /\ ~ any_case y (code "n") ->
  atof (fmt_of t) (sign_text sg ++ x :: y :: rest) want fb errno
  = Ok (answer want errno (zero_of t (is_minus sg)) success (len (sign_text sg) + 1)).
Proof.
  intros t sg x y rest want fb errno H. set (s := sign_text sg ++ x :: y :: rest).
  assert (R2 : read s (zlen (sign_text sg) + 1) = Ok y) by (now apply read_behind).
  pose proof (zlen_nonneg (sign_text sg)).
  assert (Q : exists st1, step_char (decimal_q (fmt_of t)) s (sign_state sg) x = Ok (st1, true) /\ pd_digits st1 = [] /\ pd_pos st1 = zlen (sign_text sg) + 1 /\
    pd_special st1 = sp_no /\ pd_sign st1 = negb (is_minus sg)).
  { destruct H as [[Hx Hy]|[Hx Hy]].
    - assert (E : eat_nan s (zlen (sign_text sg) + 1) = Ok 0).
      { unfold eat_nan. rewrite R2. cbn [bind]. destruct (not_case y 97 Hy ltac:(lia)) as [_ B]. change ((y =? ch_a) || (y =? ch_A)) with ((y =? 97) || (y =? 97 - 32)). now rewrite B. }
      destruct (n_step (decimal_q (fmt_of t)) s sg x 0 Hx E ltac:(lia)) as (st1 & S1 & S2 & S3 & S4 & S5). exists st1. repeat split; try assumption. lia.
    - assert (E : eat_inf s (zlen (sign_text sg) + 1) = Ok 0).
      { unfold eat_inf. rewrite R2. cbn [bind]. destruct (not_case y 110 Hy ltac:(lia)) as [_ B]. change ((y =? ch_n) || (y =? ch_N)) with ((y =? 110) || (y =? 110 - 32)). now rewrite B. }
      destruct (i_step (decimal_q (fmt_of t)) s sg x 0 Hx E ltac:(lia)) as (st1 & S1 & S2 & S3 & S4 & S5). exists st1. repeat split; try assumption. lia. }
  destruct Q as (st1 & S1 & S2 & S3 & S4 & S5).
  destruct (scan_once t sg x (y :: rest) st1 S1 S2 ltac:(lia)) as (dp & E & V & T1 & T2 & T3). fold s in E.
  rewrite (atof_nothing t sg s dp E V); try congruence; [|lia]. do 2 f_equal. rewrite T1, S3. reflexivity.
Qed.

(** concrete words *)
Example C37_example : forall want fb errno,
  atof double (cstr "-NaN(0x_1)") want fb errno = Ok (answer want errno (nan_of Double true) success 10) /\
  atof single (cstr "+iNFinIty") want fb errno = Ok (answer want errno (infinity_of Float false) success 9).
Proof.
  intros. split.
  - apply (C37_nan_payload Double Minus (text "NaN") (text "0x_1") [0]).
    + repeat constructor; vm_compute; intuition congruence.
    + repeat constructor; unfold payload_char, between; vm_compute; intuition congruence.
  - apply (C37_infinity Float Plus (text "iNFinIty") [0]). repeat constructor; vm_compute; intuition congruence.
Qed.
Example C38_example : forall want fb errno, atof double (cstr "hello") want fb errno = Ok (answer want errno 0 success 0).
Proof. intros. apply (C38_rejected_partial Double). unfold begins_nothing, between. vm_compute. intuition congruence. Qed.
