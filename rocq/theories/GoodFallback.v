(** A fallback that rounds every number correctly exists: the hypothesis [good_fallback]
    of the parsing theorems can be met.  Nothing here models code of the library; it is a
    reference strtod written from the grammar of Spec.v. *)
From Coq Require Import Reals Lra Lia ZArith List String Ascii.
From Flocq Require Import Core.
From Verif Require Import Machine MachineFacts Format DiyFp Krosh Atof Spec ParseSpec ParseApi Instances BoundFacts TableFacts GrisuFacts DvalFacts RoundFacts DownFacts ArithProps PrintProps CmpFacts GapFacts KroshNum.
Open Scope Z_scope.

(** * Reading a number by its grammar *)

Fixpoint take_digits (s : list Z) : list Z * list Z :=
  match s with
  | c :: u => if (code "0" <=? c) && (c <=? code "9")
              then let (a, b) := take_digits u in (c - code "0" :: a, b) else ([], s)
  | [] => ([], [])
  end.

Definition take_sign (s : list Z) : signopt * list Z :=
  match s with
  | c :: u => if c =? code "-" then (Minus, u) else if c =? code "+" then (Plus, u) else (NoSign, s)
  | [] => (NoSign, [])
  end.

Definition take_frac (s : list Z) : option (list Z) * list Z :=
  match s with
  | c :: u => if c =? code "." then let (a, b) := take_digits u in (Some a, b) else (None, s)
  | [] => (None, [])
  end.

Definition take_exp (s : list Z) : option exponent_part :=
  match s with
  | c :: u => if (c =? code "e") || (c =? code "E") then
                let (sg, u1) := take_sign u in
                let (x, _) := take_digits u1 in
                match x with [] => None | _ => Some {| x_upper := (c =? code "E"); x_sign := sg; x_digits := x |} end
              else None
  | [] => None
  end.

Definition scan (s : list Z) : numeral :=
  let (sg, s1) := take_sign s in
  let (i, s2) := take_digits s1 in
  let (f, s3) := take_frac s2 in
  {| n_sign := sg; n_int := i; n_frac := f; n_exp := take_exp s3 |}.

Lemma take_digits_ok : forall ds c rest, Forall digit ds -> ~ (code "0" <= c <= code "9") ->
  take_digits (dchars ds ++ c :: rest) = (ds, c :: rest).
Proof.
  induction ds as [|d ds IH]; intros c rest H Hc.
  - cbn [dchars map app take_digits]. destruct (Z.leb_spec (code "0") c), (Z.leb_spec c (code "9")); cbn [andb]; try reflexivity. lia.
  - inversion H; subst. cbn [dchars map app take_digits]. unfold digit in *.
    change (code "9") with 57. change (code "0") with 48 in *.
    destruct (Z.leb_spec 48 (48 + d)), (Z.leb_spec (48 + d) 57); cbn [andb]; try lia.
    change (map (fun d0 : Z => 48 + d0) ds) with (dchars ds). rewrite IH by assumption. f_equal. f_equal. lia.
Qed.

Lemma take_sign_ok : forall sg c rest, c <> code "-" -> c <> code "+" ->
  take_sign (sign_text sg ++ c :: rest)%list = (sg, c :: rest).
Proof.
  intros sg c rest H1 H2. destruct sg; cbn [sign_text text map list_ascii_of_string app take_sign]; try reflexivity.
  destruct (Z.eqb_spec c (code "-")); [contradiction|]. destruct (Z.eqb_spec c (code "+")); [contradiction|reflexivity].
Qed.

Lemma digit_first : forall d (ds : list Z) rest, digit d ->
  exists c u, dchars (d :: ds) ++ rest = c :: u /\ c <> code "-" /\ c <> code "+" /\ code "0" <= c <= code "9".
Proof.
  intros d ds rest H. unfold digit in H. cbn [dchars map app]. eexists. eexists. split; [reflexivity|].
  change (code "0") with 48. change (code "-") with 45. change (code "+") with 43. change (code "9") with 57. lia.
Qed.

Lemma exp_first : forall n c rest, ends_number c -> exists x u, exponent_text n ++ c :: rest = x :: u /\
  ~ (code "0" <= x <= code "9") /\ x <> code ".".
Proof.
  intros n c rest (H1 & H2 & H3 & H4). unfold exponent_text. destruct (n_exp n) as [x|]; [|now exists c, rest].
  destruct (x_upper x); cbn [text list_ascii_of_string map app]; eexists; eexists; (split; [reflexivity|]);
    (split; [intros [C1 C2]; vm_compute in C1, C2; congruence|discriminate]).
Qed.

Lemma take_exp_ok : forall n c rest, well_formed n -> ends_number c -> take_exp (exponent_text n ++ c :: rest) = n_exp n.
Proof.
  intros n c rest (_ & _ & _ & W) (H1 & H2 & H3 & H4). unfold exponent_text. destruct (n_exp n) as [[up sg ds]|].
  - destruct W as [W1 W2]. cbn [x_digits x_upper x_sign] in *. destruct ds as [|d ds]; [contradiction|].
    assert (E : take_sign (sign_text sg ++ dchars (d :: ds) ++ c :: rest) = (sg, dchars (d :: ds) ++ c :: rest)).
    { inversion W1; subst. destruct (digit_first d ds (c :: rest)) as (x & u & E & A & B & _); [assumption|]. rewrite E. now apply take_sign_ok. }
    replace ((text (if up then "E"%string else "e"%string) ++ sign_text sg ++ dchars (d :: ds)) ++ c :: rest)%list
      with (code (if up then "E"%char else "e"%char) :: (sign_text sg ++ dchars (d :: ds) ++ c :: rest)%list).
    + unfold take_exp. rewrite E. rewrite (take_digits_ok (d :: ds)) by assumption. destruct up; reflexivity.
    + destruct up; cbn [text list_ascii_of_string map app]; now rewrite <- !app_assoc.
  - cbn [app take_exp]. destruct (Z.eqb_spec c (code "e")); [contradiction|]. destruct (Z.eqb_spec c (code "E")); [contradiction|]. reflexivity.
Qed.

Lemma scan_written : forall n c rest, well_formed n -> ends_number c -> scan (written n ++ c :: rest) = n.
Proof.
  intros n c rest W Hc. pose proof W as (W1 & W2 & W3 & _).
  destruct (exp_first n c rest Hc) as (x & u & E & X1 & X2).
  unfold written, mantissa_text. rewrite <- !app_assoc.
  assert (ED : take_digits (dchars (n_int n) ++ match n_frac n with None => [] | Some ds => text "." ++ dchars ds end ++ x :: u)%list
               = (n_int n, match n_frac n with None => [] | Some ds => text "." ++ dchars ds end ++ x :: u)%list).
  { destruct (n_frac n) as [f|]; cbn [app]; apply take_digits_ok; try assumption. intros [C1 C2]. vm_compute in C1, C2. congruence. }
  assert (ES : take_sign (sign_text (n_sign n) ++ dchars (n_int n) ++ match n_frac n with None => [] | Some ds => text "." ++ dchars ds end ++ x :: u)%list
               = (n_sign n, dchars (n_int n) ++ match n_frac n with None => [] | Some ds => text "." ++ dchars ds end ++ x :: u)%list).
  { destruct (n_int n) as [|d i] eqn:Ei.
    - destruct (n_frac n) as [f|] eqn:Ef.
      + apply take_sign_ok; discriminate.
      + exfalso. unfold frac_digits in W3. rewrite Ef in W3. apply W3. reflexivity.
    - inversion W1; subst. edestruct (digit_first d i) as (y & v & EE & A & B & _); [assumption|]. rewrite EE. now apply take_sign_ok. }
  assert (EF : take_frac (match n_frac n with None => [] | Some ds => text "." ++ dchars ds end ++ x :: u)%list = (n_frac n, x :: u)).
  { unfold frac_digits in W2. destruct (n_frac n) as [f|].
    - change (take_frac ((text "." ++ dchars f) ++ x :: u)%list) with (let (a, b) := take_digits (dchars f ++ x :: u)%list in (Some a, b)).
      now rewrite take_digits_ok by assumption.
    - cbn [app take_frac]. destruct (Z.eqb_spec x (code ".")); [contradiction|reflexivity]. }
  unfold scan. rewrite E, ES, ED, EF, <- E, (take_exp_ok n c rest W Hc). destruct n; reflexivity.
Qed.

(** * The bits of the correctly rounded value *)

Definition round_bits (t : ftype) (x : R) : Z :=
  let e := cexp radix2 (FLT_exp (min_exp t) (precision t)) (Rabs x) in
  let m := ZnearestE (scaled_mantissa radix2 (FLT_exp (min_exp t) (precision t)) (Rabs x)) in
  m + (e - min_exp t) * 2 ^ (precision t - 1).

Lemma nonneg_bits : forall t m k, 0 <= m <= 2 ^ precision t -> 0 <= k -> (0 < k -> 2 ^ (precision t - 1) <= m) ->
  let v := m + k * 2 ^ (precision t - 1) in
  v < all_ones t * 2 ^ (precision t - 1) ->
  finite t v /\ magnitude t v = (IZR m * bpow radix2 (min_exp t + k))%R /\ sign_field t v = 0.
Proof.
  intros t m k Hm Hk Hl v Hv.
  set (h := 2 ^ (precision t - 1)) in *.
  assert (H0 : 0 < h) by (unfold h; destruct t; reflexivity).
  assert (P2 : 2 ^ precision t = 2 * h) by (unfold h; destruct t; reflexivity).
  assert (A : all_ones t * h < 2 ^ (width t - 1) + 1 /\ 0 < 2 ^ (width t - 1) < 2 ^ width t /\ 2 ^ (width t - precision t) = all_ones t + 1 /\ 0 < all_ones t)
    by (unfold h; destruct t; vm_compute; intuition congruence).
  destruct A as (A1 & A2 & A3 & A4).
  assert (Hv0 : 0 <= v) by (unfold v; nia).
  assert (Q : v / h = m / h + k) by (unfold v; rewrite Z.div_add by lia; reflexivity).
  assert (M : v mod h = m mod h) by (unfold v; rewrite Z.mod_add by lia; reflexivity).
  assert (Qb : 0 <= v / h < all_ones t) by (split; [apply Z.div_pos; lia|apply Z.div_lt_upper_bound; lia]).
  assert (E : exp_field t v = m / h + k).
  { unfold exp_field. fold h. rewrite Q, A3. apply Z.mod_small. lia. }
  assert (F : frac_field t v = m mod h) by (unfold frac_field; fold h; exact M).
  split; [split; [unfold pattern; lia|rewrite E; lia]|]. split; [|unfold sign_field; apply Z.div_small; lia].
  unfold magnitude, significand, exponent. rewrite E, F. fold h.
  pose proof (Z.div_mod m h ltac:(lia)) as DM. pose proof (Z.mod_pos_bound m h H0) as MB.
  destruct (Z.eqb_spec (m / h + k) 0) as [Z0|Z0].
  - assert (k = 0) by (assert (0 <= m / h) by (apply Z.div_pos; lia); lia). subst k.
    assert (m / h = 0) by lia. rewrite H. cbn [Z.add Z.max]. replace (m mod h) with m by lia. f_equal. f_equal. lia.
  - assert (D : m / h = 0 \/ m / h = 1 \/ m / h = 2 /\ m = 2 * h).
    { assert (0 <= m / h) by (apply Z.div_pos; lia). assert (m / h <= 2) by (apply Z.div_le_upper_bound; lia).
      assert (m / h = 2 -> m = 2 * h) by (intros X; rewrite X in DM; nia). lia. }
    destruct D as [D|[D|[D1 D2]]].
    + rewrite D in DM. specialize (Hl ltac:(lia)). lia.
    + rewrite D in *. replace (m mod h + h) with m by lia. f_equal. f_equal. lia.
    + rewrite D1, D2. rewrite D2 in MB. replace (2 * h mod h) with 0 by (rewrite Z.mod_mul by lia; reflexivity).
      rewrite mult_IZR. replace (min_exp t + Z.max 1 (2 + k) - 1) with (1 + (min_exp t + k)) by lia. rewrite bpow_plus.
      change (bpow radix2 1) with 2%R. rewrite Z.add_0_l. ring.
Qed.

Lemma round_bits_ok : forall t x, x <> 0%R -> (Rabs (rnd t x) < bpow radix2 (max_exp t))%R ->
  finite t (round_bits t x) /\ magnitude t (round_bits t x) = Rabs (rnd t x) /\ sign_field t (round_bits t x) = 0.
Proof.
  intros t x X0 H.
  assert (RA : Rabs (rnd t x) = rnd t (Rabs x)).
  { unfold rnd. symmetry. apply round_NE_abs. apply FLT_exp_valid. unfold Prec_gt_0. destruct t; cbn; lia. }
  rewrite RA in *. set (y := Rabs x) in *. assert (Hy : (0 <= y)%R) by apply Rabs_pos.
  unfold round_bits. fold y. cbv zeta.
  set (e := cexp radix2 (FLT_exp (min_exp t) (precision t)) y).
  set (m := ZnearestE (scaled_mantissa radix2 (FLT_exp (min_exp t) (precision t)) y)).
  assert (Er : rnd t y = (IZR m * bpow radix2 e)%R) by reflexivity.
  assert (He : min_exp t <= e) by (unfold e, cexp, FLT_exp; lia).
  assert (S0 : (0 <= scaled_mantissa radix2 (FLT_exp (min_exp t) (precision t)) y)%R).
  { unfold scaled_mantissa. apply Rmult_le_pos; [assumption|apply bpow_ge_0]. }
  assert (m0 : 0 <= m).
  { unfold m. rewrite <- (Znearest_imp (fun z => negb (Z.even z)) 0 0) at 1; [|rewrite Rminus_0_r, Rabs_R0; lra].
    now apply Zrnd_le; [apply valid_rnd_N|]. }
  assert (Pp : 0 < precision t) by (destruct t; reflexivity).
  assert (PB : (IZR (2 ^ precision t) = bpow radix2 (precision t))%R) by (change (2 ^ precision t) with (radix2 ^ precision t); rewrite <- bpow_IZR by lia; reflexivity).
  assert (PB1 : (IZR (2 ^ (precision t - 1)) = bpow radix2 (precision t - 1))%R) by (change (2 ^ (precision t - 1)) with (radix2 ^ (precision t - 1)); rewrite <- bpow_IZR by lia; reflexivity).
  assert (VN : forall z, ZnearestE (IZR z) = z) by (intros; apply (Zrnd_IZR ZnearestE)).
  assert (m1 : m <= 2 ^ precision t).
  { rewrite <- (VN (2 ^ precision t)). unfold m. apply Zrnd_le; [apply valid_rnd_N|]. rewrite PB.
    unfold scaled_mantissa. fold e. apply Rmult_le_reg_r with (bpow radix2 e); [apply bpow_gt_0|].
    rewrite Rmult_assoc, <- bpow_plus. replace (- e + e) with 0 by lia. change (bpow radix2 0) with 1%R. rewrite Rmult_1_r, <- bpow_plus.
    destruct (Req_dec y 0) as [->|Ny]; [apply bpow_ge_0|].
    apply Rle_trans with (bpow radix2 (mag radix2 y)).
    - rewrite <- (Rabs_pos_eq y Hy) at 1. apply Rlt_le, bpow_mag_gt.
    - apply bpow_le. unfold e, cexp, FLT_exp. lia. }
  assert (m2 : 0 < e - min_exp t -> 2 ^ (precision t - 1) <= m).
  { intros Le. rewrite <- (VN (2 ^ (precision t - 1))). unfold m. apply Zrnd_le; [apply valid_rnd_N|]. rewrite PB1.
    assert (Ee : e = mag radix2 y - precision t) by (unfold e, cexp, FLT_exp in *; lia).
    assert (Ny : y <> 0%R) by now apply Rabs_no_R0.
    unfold scaled_mantissa. fold e. apply Rmult_le_reg_r with (bpow radix2 e); [apply bpow_gt_0|].
    rewrite Rmult_assoc, <- !bpow_plus. replace (- e + e) with 0 by lia. change (bpow radix2 0) with 1%R. rewrite Rmult_1_r.
    replace (precision t - 1 + e) with (mag radix2 y - 1) by lia. apply Rle_trans with (Rabs y); [now apply bpow_mag_le|rewrite (Rabs_pos_eq y Hy); lra]. }
  assert (B : m + (e - min_exp t) * 2 ^ (precision t - 1) < all_ones t * 2 ^ (precision t - 1)).
  { rewrite Er in H. set (h := 2 ^ (precision t - 1)) in *.
    assert (h0 : 0 < h) by (unfold h; destruct t; reflexivity).
    assert (Mx : max_exp t = min_exp t + all_ones t + precision t - 2) by (destruct t; reflexivity).
    destruct (Z.eq_dec (e - min_exp t) 0) as [Z0|Z0].
    - rewrite Z0. assert (2 ^ precision t < all_ones t * h) by (unfold h; destruct t; reflexivity). lia.
    - specialize (m2 ltac:(lia)).
      assert (Lq : e + (precision t - 1) < max_exp t).
      { apply (lt_bpow radix2). apply Rle_lt_trans with (2 := H). rewrite bpow_plus, Rmult_comm, <- PB1.
        apply Rmult_le_compat_r; [apply bpow_ge_0|now apply IZR_le]. }
      destruct (Z.eq_dec (e + precision t) (max_exp t)) as [Q|Q].
      + assert (m < 2 ^ precision t).
        { apply lt_IZR. rewrite PB. apply Rmult_lt_reg_r with (bpow radix2 e); [apply bpow_gt_0|].
          rewrite <- bpow_plus. replace (precision t + e) with (max_exp t) by lia. exact H. }
        assert (2 ^ precision t = 2 * h) by (unfold h; destruct t; reflexivity).
        replace (e - min_exp t) with (all_ones t - 2) by lia. nia.
      + assert (2 ^ precision t = 2 * h) by (unfold h; destruct t; reflexivity).
        assert (e - min_exp t <= all_ones t - 3) by lia. nia. }
  destruct (nonneg_bits t m (e - min_exp t) ltac:(lia) ltac:(lia) m2 B) as (N1 & N2 & N3).
  split; [exact N1|]. split; [|exact N3]. rewrite N2, Er. f_equal. f_equal. lia.
Qed.

Definition reference_fallback (t : ftype) : fallback := fun s errno =>
  let n := scan s in
  Ok {| fb_value := round_bits t (value n) + zero_of t (is_minus (n_sign n));
        fb_str_end := len (written n); fb_errno := errno |}.

Theorem good_fallback_exists : forall t, good_fallback t (reference_fallback t).
Proof.
  intros t n c rest errno W Hc [R1 R]. unfold reference_fallback. rewrite (scan_written n c rest W Hc).
  eexists. split; [reflexivity|]. cbn [fb_errno fb_str_end fb_value]. split; [now left|]. split; [reflexivity|].
  destruct (round_bits_ok t (value n)) as (F & M & S); [intros C; rewrite C, Rabs_R0 in R1; pose proof (bpow_gt_0 radix2 (min_exp t)); lra|exact R|].
  set (v := round_bits t (value n)) in *.
  assert (N0 : (0 <= abs_value n)%R).
  { unfold abs_value, coefficient. apply Rmult_le_pos; [|apply bpow_ge_0]. apply IZR_le.
    destruct W as (W1 & W2 & _). assert (WA : Forall digit (n_int n ++ frac_digits n)) by (apply Forall_app; now split).
    now apply dval_bounds. }
  assert (EA : Rabs (rnd t (value n)) = rnd t (abs_value n)).
  { unfold value. destruct (is_minus (n_sign n)).
    - rewrite rnd_opp, Rabs_Ropp. apply Rabs_pos_eq. now apply rnd_nonneg.
    - apply Rabs_pos_eq. now apply rnd_nonneg. }
  rewrite EA in *.
  assert (Lv : 0 <= v < 2 ^ (width t - 1)).
  { destruct F as [[F1 F2] _]. split; [assumption|]. unfold sign_field in S.
    assert (0 < 2 ^ (width t - 1)) by (destruct t; reflexivity).
    apply Z.div_small_iff in S; lia. }
  replace (v + zero_of t (is_minus (n_sign n))) with (apply_sign (fmt_of t) (negb (is_minus (n_sign n))) v).
  - unfold value. apply signed_correct; try assumption; [lia|]. unfold real_of. rewrite S. cbn [Z.eqb]. exact M.
  - unfold apply_sign, zero_of. rewrite negb_involutive. destruct (is_minus (n_sign n)); [now apply neg_bits_small|lia].
Qed.

(** ... and one that, like glibc, sets errno for everything below the normal numbers is good too *)
Definition errno_fallback (t : ftype) : fallback := fun s errno =>
  let n := scan s in
  let r := round_bits t (value n) + zero_of t (is_minus (n_sign n)) in
  Ok {| fb_value := r; fb_str_end := len (written n);
        fb_errno := if Rlt_dec (Rabs (value n)) (bpow radix2 (min_exp t + precision t - 1)) then ERANGE else errno |}.

Theorem errno_fallback_good : forall t, good_fallback t (errno_fallback t).
Proof.
  intros t n c rest errno W Hc R.
  destruct (good_fallback_exists t n c rest errno W Hc R) as (r & A & _ & B & C).
  unfold reference_fallback in A. rewrite (scan_written n c rest W Hc) in A. injection A as <-. cbn [fb_str_end fb_value] in B, C.
  unfold errno_fallback. rewrite (scan_written n c rest W Hc). eexists. split; [reflexivity|]. cbn [fb_errno fb_str_end fb_value].
  split; [|split; [exact B|exact C]]. unfold below_normal. destruct (Rlt_dec _ _); auto.
Qed.
