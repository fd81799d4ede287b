(** Running the loop of [parse_digits] over a whole mantissa. *)
From Coq Require Import String Ascii Lia ZArith List.
From Verif Require Import Machine MachineFacts BitOps StaticPow Fraction Format DiyFp Chars Krosh Spec Instances
  TableFacts DiyFacts DvalFacts ArithProps ScanFacts.
Open Scope Z_scope.

Lemma scan_inv_ext : forall kap s sg I F a b, same_frame a b ->
  dig_inv kap s (zlen (sign_text sg)) (I ++ odig F) (zlen (odig F)) a ->
  scan_inv kap s sg I F b -> scan_inv kap s sg I F a.
Proof.
  intros kap s sg I F a b (E1 & E2 & E3 & E4 & E5) D (B1 & B2 & B3 & B4 & B5 & B6).
  unfold scan_inv. rewrite E1, E2, E3, E4, E5. auto 10.
Qed.

Definition extI (I : list Z) (F : option (list Z)) (l : list Z) : list Z :=
  match F with None => I ++ l | Some _ => I end.
Definition extF (F : option (list Z)) (l : list Z) : option (list Z) :=
  match F with None => None | Some f => Some (f ++ l) end.

Lemma mant_ext : forall sg I F l, mant sg (extI I F l) (extF F l) = mant sg I F ++ dchars l.
Proof.
  intros sg I [f|] l; unfold mant, extI, extF; cbn [odig]; rewrite ?dchars_app, ?app_nil_r, <- ?app_assoc; reflexivity.
Qed.

Lemma ext_digits : forall I F l, extI I F l ++ odig (extF F l) = (I ++ odig F) ++ l.
Proof. intros I [f|] l; cbn; rewrite ?app_nil_r, <- ?app_assoc; reflexivity. Qed.

Lemma ext_some : forall F l, is_some (extF F l) = is_some F.
Proof. destruct F; reflexivity. Qed.

Lemma ext_nf : forall F l, zlen (odig (extF F l)) = zlen (odig F) + b2z (is_some F) * zlen l.
Proof. intros [f|] l; cbn [extF odig is_some b2z]; [rewrite zlen_app|rewrite zlen_nil]; lia. Qed.

Lemma ext_app : forall I F a b, extI (extI I F a) (extF F a) b = extI I F (a ++ b) /\ extF (extF F a) b = extF F (a ++ b).
Proof. intros I [f|] a b; cbn; rewrite <- ?app_assoc; auto. Qed.
Lemma ext_nil : forall I F, extI I F [] = I /\ extF F [] = F.
Proof. intros I [f|]; cbn; rewrite ?app_nil_r; auto. Qed.

Lemma step_digit : forall kap s sg I F st d m cc, scan_inv kap s sg I F st -> digit d ->
  (1 <= kap)%nat -> Z.of_nat kap < 100 -> zlen (mant sg I F) < 2 ^ 60 ->
  zlen (mant sg I F) <= m -> read s m = Ok cc -> nondigit cc ->
  exists st', step_char kap s st (48 + d) = Ok (st', false) /\ pd_pos st' = pd_pos st /\
    scan_inv kap s sg (extI I F [d]) (extF F [d]) (set_pos (pd_pos st' + 1) st').
Proof.
  intros kap s sg I F st d m cc (B1 & B2 & B3 & B4 & B5 & B6) Hd Hk1 Hk2 HL Hm Hr Hcc.
  rewrite zlen_mant in *. pose proof (zlen_nonneg I). pose proof (zlen_nonneg (odig F)).
  assert (HB : 0 <= b2z (has_sign sg) <= 1 /\ 0 <= b2z (is_some F) <= 1) by (destruct sg, F; cbn; lia).
  assert (NF : pd_dot_set st = false -> zlen (odig F) = 0) by (rewrite B2; destruct F; [discriminate|reflexivity]).
  assert (K : forall st', same_frame st' st ->
    dig_inv kap s (zlen (sign_text sg)) ((I ++ odig F) ++ [d]) (zlen (odig F) + b2z (pd_dot_set st)) st' ->
    pd_pos st' = pd_pos st /\ scan_inv kap s sg (extI I F [d]) (extF F [d]) (set_pos (pd_pos st' + 1) st')).
  { intros st' (E1 & E2 & E3 & E4 & E5) D. split; [assumption|].
    unfold scan_inv. cbn [set_pos pd_pos pd_dot_set pd_sign_set pd_sign pd_special].
    rewrite E1, E2, E3, E4, E5, mant_ext, zlen_app, zlen_mant, ext_some, zlen_dchars.
    change (zlen [d]) with 1. split; [lia|]. repeat (split; [assumption|]).
    rewrite ext_digits, ext_nf. change (zlen [d]) with 1. rewrite Z.mul_1_r, <- B2. exact D. }
  unfold step_char. change ch_0 with 48.
  assert (L : zlen (I ++ odig F) < 2 ^ 60) by (rewrite zlen_app; lia).
  destruct (Z.eqb_spec (48 + d) 48) as [E|E].
  - assert (d = 0) as -> by lia.
    destruct (step_zero_inv kap s _ _ _ st B6 L NF) as (D & S).
    destruct (K _ S D) as (K1 & K2). exists (step_zero st). auto.
  - unfold digit in Hd. destruct (Z.leb_spec 49 (48 + d)); [|lia]. destruct (Z.leb_spec (48 + d) 57); [|lia]. cbn [andb].
    destruct (step_nonzero_inv kap s _ _ _ st d m cc B6 L) as (st' & S1 & S2 & S3); try assumption; try lia.
    { rewrite zlen_sign. lia. }
    { rewrite zlen_app. lia. }
    { rewrite B1, B2, zlen_sign, zlen_app. lia. }
    rewrite S1. cbn [bind]. destruct (K _ S3 S2) as (K1 & K2). exists st'. auto.
Qed.

(** a run of digits *)
Lemma loop_digits : forall kap s sg m cc, (1 <= kap)%nat -> Z.of_nat kap < 100 -> read s m = Ok cc -> nondigit cc ->
  forall l I F st rest n, scan_inv kap s sg I F st -> Forall digit l ->
  s = mant sg I F ++ dchars l ++ rest -> zlen (mant sg I F) + zlen l <= m ->
  zlen (mant sg I F) + zlen l <= 2049 ->
  exists st', parse_loop kap s (List.length l + n) st = parse_loop kap s n st' /\
    scan_inv kap s sg (extI I F l) (extF F l) st'.
Proof.
  intros kap s sg m cc Hk1 Hk2 Hr Hcc. induction l as [|d l IH]; intros I F st rest n Hi Hl Es Hm HL.
  - destruct (ext_nil I F) as [-> ->]. exists st. auto.
  - inversion_clear Hl as [|? ? Hd Hl']. rewrite zlen_cons in *. pose proof (zlen_nonneg l).
    cbn [List.length plus parse_loop]. pose proof Hi as (B1 & _).
    assert (R : read s (pd_pos st) = Ok (48 + d)).
    { rewrite Es, B1. cbn [dchars map app]. apply read_app. reflexivity. }
    rewrite R. cbn [bind].
    destruct (step_digit kap s sg I F st d m cc Hi Hd Hk1 Hk2 ltac:(lia) ltac:(lia) Hr Hcc) as (st1 & S1 & S2 & S3).
    rewrite S1. cbn [bind orb]. unfold maximum_offset. rewrite S2, B1 in *.
    destruct (Z.ltb_spec 2048 (zlen (mant sg I F))); [lia|].
    destruct (IH (extI I F [d]) (extF F [d]) _ rest n S3 Hl') as (st' & P1 & P2).
    + rewrite mant_ext, <- app_assoc. exact Es.
    + rewrite mant_ext, zlen_app, zlen_dchars. change (zlen [d]) with 1. lia.
    + rewrite mant_ext, zlen_app, zlen_dchars. change (zlen [d]) with 1. lia.
    + exists st'. split; [exact P1|]. destruct (ext_app I F [d] l) as [E1 E2]. rewrite E1, E2 in P2. exact P2.
Qed.

Lemma scan_inv_fresh : forall kap s sg st, pd_digits st = [] -> pd_zeros st = 0 -> pd_pow_gain st = 0 ->
  pd_fraction_count st = 0 -> pd_frac_calculated st = false -> pd_frac st = 0 -> pd_pos st = zlen (sign_text sg) ->
  pd_dot_set st = false -> pd_sign_set st = has_sign sg -> pd_sign st = negb (is_minus sg) -> pd_special st = sp_no ->
  scan_inv kap s sg [] None st.
Proof.
  intros kap s sg st E1 E2 E3 E4 E5 E6 E7 E8 E9 E10 E11. unfold scan_inv, dig_inv.
  rewrite E1, E2, E3, E4, E5, E6, E7, E8, E9, E10, E11. cbn [odig app is_some]. rewrite !zlen_nil.
  split; [unfold mant; cbn [dchars map app]; now rewrite app_nil_r|].
  repeat (split; [reflexivity|]). split; [constructor|]. repeat (split; [lia|]). left. repeat split; reflexivity.
Qed.

Lemma scan_inv_init : forall kap s, scan_inv kap s NoSign [] None pstate_init.
Proof. intros. apply scan_inv_fresh; reflexivity. Qed.

Lemma step_sign : forall kap s sg, sg <> NoSign ->
  exists c, sign_text sg = [c] /\
  exists st', step_char kap s pstate_init c = Ok (st', false) /\ pd_pos st' = 0 /\
    scan_inv kap s sg [] None (set_pos 1 st').
Proof.
  intros kap s [| |] H; [congruence| |]; eexists; (split; [reflexivity|]); eexists; (split; [reflexivity|]); (split; [reflexivity|]);
    apply scan_inv_fresh; reflexivity.
Qed.

Lemma step_dot : forall kap s sg I st, scan_inv kap s sg I None st ->
  step_char kap s st 46 = Ok (set_dot st, false) /\
  scan_inv kap s sg I (Some []) (set_pos (pd_pos st + 1) (set_dot st)).
Proof.
  intros kap s sg I st (B1 & B2 & B3 & B4 & B5 & B6). unfold step_char. cbn [Z.eqb Z.leb andb Z.compare Pos.compare Pos.compare_cont Pos.eqb ch_0 ch_dot].
  change (46 =? ch_0) with false. change ((49 <=? 46) && (46 <=? 57)) with false. change (46 =? ch_dot) with true. cbv iota.
  rewrite B2. split; [reflexivity|].
  unfold scan_inv, set_pos, set_dot. cbn [pd_pos pd_dot_set pd_sign_set pd_sign pd_special].
  rewrite B1, !zlen_mant. cbn [is_some odig b2z].
  split; [rewrite zlen_nil; lia|]. repeat (split; [assumption || reflexivity|]).
  exact B6.
Qed.

(** the whole mantissa *)
Lemma loop_mant : forall kap s sg I F rest m cc n, (1 <= kap)%nat -> Z.of_nat kap < 100 ->
  Forall digit I -> Forall digit (odig F) ->
  s = mant sg I F ++ rest -> read s m = Ok cc -> nondigit cc -> zlen (mant sg I F) <= m ->
  zlen (mant sg I F) <= 2049 ->
  exists st', parse_loop kap s (List.length (mant sg I F) + n) pstate_init = parse_loop kap s n st' /\
    scan_inv kap s sg I F st'.
Proof.
  intros kap s sg I F rest m cc n Hk1 Hk2 HI HF Es Hr Hcc Hm HL.
  (* sign *)
  assert (SG : forall n, exists st, parse_loop kap s (List.length (sign_text sg) + n) pstate_init = parse_loop kap s n st /\
    scan_inv kap s sg [] None st).
  { intros k. destruct (has_sign sg) eqn:Eh.
    - destruct (step_sign kap s sg) as (c & E & st' & S1 & S2 & S3); [destruct sg; discriminate|].
      exists (set_pos 1 st'). split; [|assumption]. rewrite E. cbn [List.length plus parse_loop].
      assert (R : read s (pd_pos pstate_init) = Ok c).
      { rewrite Es. unfold mant. rewrite E, <- app_assoc. reflexivity. }
      rewrite R. cbn [bind]. rewrite S1. cbn [bind orb]. rewrite S2. reflexivity.
    - destruct sg; try discriminate. exists pstate_init. split; [reflexivity|]. apply scan_inv_init. }
  rewrite zlen_mant in *. pose proof (zlen_nonneg I) as LI. pose proof (zlen_nonneg (odig F)) as LF.
  assert (HB : 0 <= b2z (has_sign sg) <= 1 /\ 0 <= b2z (is_some F) <= 1) by (destruct sg, F; cbn; lia).
  (* integer digits *)
  assert (EI : s = mant sg [] None ++ dchars I ++ (match F with None => [] | Some f => 46 :: dchars f end) ++ rest).
  { rewrite Es. unfold mant. cbn [dchars map app]. rewrite app_nil_r, <- !app_assoc. reflexivity. }
  assert (L0 : zlen (mant sg [] None) = b2z (has_sign sg)) by (rewrite zlen_mant; cbn [is_some odig b2z]; rewrite !zlen_nil; lia).
  unfold mant at 1. rewrite app_length. unfold dchars at 1.
  destruct F as [f|]; cbn [odig is_some b2z] in *.
  - rewrite app_length, map_length. cbn [List.length]. unfold dchars. rewrite map_length.
    replace (List.length (sign_text sg) + (List.length I + S (List.length f)) + n)%nat
      with (List.length (sign_text sg) + (List.length I + S (List.length f + n)))%nat by lia.
    destruct (SG (List.length I + Datatypes.S (List.length f + n))%nat) as (st0 & P0 & I0). rewrite P0.
    destruct (loop_digits kap s sg m cc Hk1 Hk2 Hr Hcc I [] None st0 _ (Datatypes.S (List.length f + n)) I0 HI EI ltac:(lia) ltac:(lia))
      as (st1 & P1 & I1). cbn [extI extF app] in I1. rewrite P1.
    destruct (step_dot kap s sg I st1 I1) as (D1 & D2).
    cbn [parse_loop]. pose proof I1 as (B1 & _).
    assert (EI2 : s = mant sg I None ++ 46 :: dchars f ++ rest).
    { rewrite Es. unfold mant. rewrite app_nil_r, <- !app_assoc. reflexivity. }
    assert (R : read s (pd_pos st1) = Ok 46) by (rewrite B1, EI2; apply read_app; reflexivity).
    rewrite R. cbn [bind]. rewrite D1. cbn [bind orb]. cbn [set_dot pd_pos].
    assert (L1 : zlen (mant sg I None) = b2z (has_sign sg) + zlen I) by (rewrite zlen_mant; cbn [is_some odig b2z]; rewrite !zlen_nil; lia).
    unfold maximum_offset. rewrite B1, L1. destruct (Z.ltb_spec 2048 (b2z (has_sign sg) + zlen I)); [lia|].
    rewrite B1, L1 in D2.
    assert (EM : mant sg I (Some []) = mant sg I None ++ [46]) by (unfold mant; rewrite app_nil_r, <- app_assoc; reflexivity).
    destruct (loop_digits kap s sg m cc Hk1 Hk2 Hr Hcc f I (Some []) _ rest n D2 HF) as (st2 & P2 & I2).
    + rewrite EM, <- app_assoc. exact EI2.
    + rewrite EM, zlen_app, L1. change (zlen [46]) with 1. lia.
    + rewrite EM, zlen_app, L1. change (zlen [46]) with 1. lia.
    + exists st2. split; [exact P2|exact I2].
  - rewrite app_nil_r, map_length.
    replace (List.length (sign_text sg) + List.length I + n)%nat with (List.length (sign_text sg) + (List.length I + n))%nat by lia.
    destruct (SG (List.length I + n)%nat) as (st0 & P0 & I0). rewrite P0.
    destruct (loop_digits kap s sg m cc Hk1 Hk2 Hr Hcc I [] None st0 _ n I0 HI EI ltac:(lia) ltac:(lia)) as (st1 & P1 & I1).
    exists st1. split; [exact P1|exact I1].
Qed.

(** * Where the loop stops *)

Definition is_n (c : Z) : bool := (c =? ch_n) || (c =? ch_N).
Definition is_i (c : Z) : bool := (c =? ch_i) || (c =? ch_I).
Definition is_pm (c : Z) : bool := (c =? ch_minus) || (c =? ch_plus).

(** [c] ends the mantissa prefix [mant sg I F] *)
Definition stops (sg : signopt) (I : list Z) (F : option (list Z)) (c : Z) : Prop :=
  nondigit c /\ (c = 46 -> F <> None) /\ (is_pm c = true -> mant sg I F <> []) /\
  (is_n c || is_i c = true -> mant sg I F <> sign_text sg).

Lemma stop_step : forall kap s sg I F st c, scan_inv kap s sg I F st -> stops sg I F c ->
  exists st', step_char kap s st c = Ok (st', true) /\ pd_pos st' = pd_pos st /\ scan_inv kap s sg I F st'.
Proof.
  intros kap s sg I F st c Hi (N & Hdot & Hpm & Hni). pose proof Hi as (B1 & B2 & B3 & B4 & B5 & B6).
  unfold step_char. unfold nondigit in N. change ch_0 with 48.
  destruct (Z.eqb_spec c 48); [lia|].
  assert ((49 <=? c) && (c <=? 57) = false) as ->.
  { destruct (Z.leb_spec 49 c), (Z.leb_spec c 57); try reflexivity; lia. }
  change ch_dot with 46. destruct (Z.eqb_spec c 46) as [E|E].
  - destruct F as [f|]; [|exfalso; now apply Hdot]. rewrite B2. cbn [is_some].
    exists (set_dot st). split; [reflexivity|]. split; [reflexivity|]. exact (conj B1 (conj eq_refl (conj B3 (conj B4 (conj B5 B6))))).
  - assert (PS : mant sg I F <> sign_text sg -> (pd_pos st =? b2z (pd_sign_set st)) = false).
    { intros Hne. apply Z.eqb_neq. rewrite B1, B3, zlen_mant. intros E2. apply Hne.
      pose proof (zlen_nonneg I). pose proof (zlen_nonneg (odig F)).
      assert (0 <= b2z (is_some F)) by (destruct F; cbn; lia).
      assert (zlen I = 0) by lia. assert (F = None) as -> by (destruct F; [cbn [is_some b2z] in *; lia|reflexivity]).
      destruct I; [|rewrite zlen_cons in *; pose proof (zlen_nonneg I); lia]. unfold mant. cbn. apply app_nil_r. }
    unfold is_n, is_i, is_pm in *.
    destruct ((c =? ch_n) || (c =? ch_N)) eqn:En.
    { rewrite PS by (now apply Hni). exists st. auto. }
    destruct ((c =? ch_i) || (c =? ch_I)) eqn:Ei.
    { rewrite PS by (now apply Hni). exists st. auto. }
    destruct ((c =? ch_minus) || (c =? ch_plus)) eqn:Ep.
    { assert (pd_pos st =? 0 = false) as ->.
      { apply Z.eqb_neq. rewrite B1. intros E2. apply (Hpm eq_refl). destruct (mant sg I F); [reflexivity|].
        rewrite zlen_cons in E2. pose proof (zlen_nonneg l). lia. }
      exists st. auto. }
    exists st. auto.
Qed.

Lemma kap_facts : forall t, (1 <= fd10 (fmt_of t))%nat /\ Z.of_nat (fd10 (fmt_of t)) < 100 /\
  10 ^ Z.of_nat (fd10 (fmt_of t)) <= 2 ^ width t.
Proof. destruct t; (split; [cbn; lia|split; [cbn; lia|apply Z.leb_le; vm_compute; reflexivity]]). Qed.

Definition digit_result (sg : signopt) (st : pstate) (e : Z) : digit_parse_result :=
  {| dp_value := dval (pd_digits st); dp_K := pd_pow_gain st - pd_fraction_count st; dp_str_end := e;
     dp_frac := pd_frac st; dp_special := sp_no; dp_sign := negb (is_minus sg) |}.

Lemma finish_digits : forall t s sg I F st, scan_inv (decimal_q (fmt_of t)) s sg I F st -> zlen (I ++ odig F) < 2 ^ 30 ->
  weighted_sum (fw (fmt_of t)) (decimal_q (fmt_of t)) (rev (pd_digits st)) 0 0 = Ok (dval (pd_digits st)) /\
  narrow_int (wrap 64 (pd_pow_gain st - pd_fraction_count st)) = pd_pow_gain st - pd_fraction_count st.
Proof.
  intros t s sg I F st (_ & _ & _ & _ & _ & B6) HL. unfold decimal_q in *.
  destruct (kap_facts t) as (K1 & K2 & K3).
  destruct B6 as (D1 & D2 & D3 & D4 & D5). split.
  - rewrite fw_width. apply weighted_sum_ok; try assumption; try lia; [destruct t; cbn; lia|].
    destruct D5 as [(-> & _)|[(_ & L & _)|(L & _)]]; [rewrite zlen_nil; lia|lia|lia].
  - apply narrow_wrap64. lia.
Qed.

Lemma parse_digits_ok : forall t s sg I F c rest, Forall digit I -> Forall digit (odig F) ->
  s = mant sg I F ++ c :: rest -> stops sg I F c -> zlen (mant sg I F) <= 2049 ->
  exists st, scan_inv (decimal_q (fmt_of t)) s sg I F st /\
    parse_digits (fmt_of t) s = Ok (digit_result sg st (zlen (mant sg I F))).
Proof.
  intros t s sg I F c rest HI HF Es Hs HL. destruct (kap_facts t) as (K1 & K2 & K3).
  pose proof (zlen_nonneg (mant sg I F)) as LM.
  assert (R : read s (zlen (mant sg I F)) = Ok c) by (rewrite Es; apply read_app; reflexivity).
  destruct (loop_mant (decimal_q (fmt_of t)) s sg I F (c :: rest) (zlen (mant sg I F)) c
             (parse_fuel - List.length (mant sg I F)) K1 K2 HI HF Es R (proj1 Hs) ltac:(lia) HL) as (st & P1 & P2).
  assert (FU : (List.length (mant sg I F) + (parse_fuel - List.length (mant sg I F)))%nat = parse_fuel).
  { unfold parse_fuel, maximum_offset. unfold zlen in HL. lia. }
  rewrite FU in P1. unfold parse_digits. rewrite P1.
  destruct (parse_fuel - List.length (mant sg I F))%nat as [|k] eqn:Ek.
  { unfold parse_fuel, maximum_offset, zlen in *. lia. }
  cbn [parse_loop]. destruct (stop_step _ _ _ _ _ _ _ P2 Hs) as (st' & S1 & S2 & S3).
  pose proof P2 as (B1 & _). rewrite B1, R. cbn [bind]. rewrite S1. cbn [bind orb].
  destruct (finish_digits t s sg I F st' S3) as (W & K).
  { rewrite zlen_mant in HL. rewrite zlen_app. assert (0 <= b2z (has_sign sg) /\ 0 <= b2z (is_some F)) by (destruct sg, F; cbn; lia). lia. }
  cbn [set_pos pd_digits pd_pow_gain pd_fraction_count pd_frac pd_special pd_sign pd_pos]. rewrite W, K. cbn [bind].
  exists st'. split; [exact S3|]. unfold digit_result. pose proof S3 as (C1 & C2 & C3 & C4 & C5 & C6).
  rewrite S2, B1, C4, C5. do 2 f_equal. lia.
Qed.
