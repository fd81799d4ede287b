(** C115: the decimal point of the C locale, which strtod -- the default fallback -- obeys.

    default_fallback.h:45-60 calls std::strtof and std::strtod, which are outside this model.  What they are taken to do here is what the C
    standard says about them (C11 7.22.1.3): [standard_fallback] in the "C" locale, and in a locale with another decimal-point
    character the same with that character in the place of the point; a '.' then ends a number like any other foreign character. *)
From Coq Require Import Reals Lra Lia ZArith List String Ascii.
From Flocq Require Import Core.
From Verif Require Import Machine MachineFacts Format DiyFp Krosh Atof Ftoa Spec ParseSpec Api ParseApi Instances
  DiyFacts BoundFacts TableFacts GrisuFacts ShownFacts FtoaFacts RoundFacts DownFacts ArithProps WrittenFacts PrintProps DvalFacts CmpFacts GapFacts KroshNum ShortFacts ParseProps Protocol GoodFallback RoundTrip.
Import ListNotations.
Open Scope Z_scope.

(** strtod in the "C" locale: rounds numbers correctly and consumes them; zeros are zeros; without a digit nothing is consumed *)
Definition standard_fallback (t : ftype) (fb : fallback) : Prop :=
  good_fallback t fb /\
  (forall n c rest errno, well_formed n -> ends_number c -> coefficient n = 0 ->
     fb (written n ++ c :: rest) errno = Ok {| fb_value := zero_of t (is_minus (n_sign n)); fb_str_end := len (written n); fb_errno := errno |}) /\
  (forall sg rest errno, fb (sign_text sg ++ 0 :: rest) errno = Ok {| fb_value := 0; fb_str_end := 0; fb_errno := errno |}).

(** a character that can be a decimal point *)
Definition point_char (p : Z) : Prop :=
  p <> 0 /\ ~ (code "0" <= p <= code "9") /\ p <> code "e" /\ p <> code "E" /\ p <> code "+" /\ p <> code "-".

(** what a character means when [p] is the decimal point *)
Definition as_point (p c : Z) : Z := if c =? p then code "." else if c =? code "." then 0 else c.
(** strtod when [p] is the decimal point *)
Definition with_point (p : Z) (fb : fallback) : fallback := fun s errno => fb (map (as_point p) s) errno.

Lemma with_point_same : forall fb s errno, with_point (code ".") fb s errno = fb s errno.
Proof.
  intros fb s errno. unfold with_point. f_equal. rewrite <- (map_id s) at 2. apply map_ext. intros c. unfold as_point. destruct (Z.eqb_spec c (code ".")); auto.
Qed.

(** such a fallback exists *)
Definition strtod_reference (t : ftype) : fallback := fun s errno =>
  let n := scan s in
  match (n_int n ++ frac_digits n)%list with
  | [] => Ok {| fb_value := 0; fb_str_end := 0; fb_errno := errno |}
  | _ => if coefficient n =? 0 then Ok {| fb_value := zero_of t (is_minus (n_sign n)); fb_str_end := len (written n); fb_errno := errno |}
         else reference_fallback t s errno
  end.
Theorem standard_fallback_exists : forall t, standard_fallback t (strtod_reference t).
Proof.
  intros t. split; [|split].
  - intros n c rest errno W Hc R. unfold strtod_reference. rewrite (scan_written n c rest W Hc).
    pose proof W as (_ & _ & W3 & _). destruct (n_int n ++ frac_digits n)%list eqn:E; [contradiction|].
    destruct (Z.eqb_spec (coefficient n) 0) as [Z0|Z0]; [|now apply good_fallback_exists].
    exfalso. destruct R as [R _]. rewrite value_abs in R by assumption. unfold abs_value in R. rewrite Z0, Rmult_0_l in R.
    pose proof (bpow_gt_0 radix2 (min_exp t)). lra.
  - intros n c rest errno W Hc Z0. unfold strtod_reference. rewrite (scan_written n c rest W Hc), Z0.
    pose proof W as (_ & _ & W3 & _). destruct (n_int n ++ frac_digits n)%list eqn:E; [contradiction|]. reflexivity.
  - intros sg rest errno. unfold strtod_reference. destruct sg; reflexivity.
Qed.

(** * Texts under the other reading *)

Definition plain (p c : Z) : Prop := c <> p /\ c <> code ".".
Lemma map_plain : forall p s, Forall (plain p) s -> map (as_point p) s = s.
Proof.
  intros p s H. induction H as [|c s [H1 H2] _ IH]; [reflexivity|]. cbn [map]. rewrite IH. f_equal. unfold as_point.
  destruct (Z.eqb_spec c p); [contradiction|]. destruct (Z.eqb_spec c (code ".")); [contradiction|reflexivity].
Qed.
Lemma plain_dchars : forall p ds, point_char p -> Forall digit ds -> Forall (plain p) (dchars ds).
Proof.
  intros p ds (_ & P & _) H. unfold dchars. apply Forall_map. eapply Forall_impl; [|exact H]. intros d D. unfold digit in D. cbn beta.
  change (code "0") with 48 in *. change (code "9") with 57 in *. unfold plain. change (code ".") with 46. lia.
Qed.
Lemma plain_sign : forall p sg, point_char p -> Forall (plain p) (sign_text sg).
Proof.
  intros p sg (_ & _ & _ & _ & P1 & P2). change (code "+") with 43 in *. change (code "-") with 45 in *.
  destruct sg; repeat constructor; try (intros C; vm_compute in C; lia).
Qed.
Lemma plain_exp : forall p n, point_char p -> well_formed n -> Forall (plain p) (exponent_text n).
Proof.
  intros p n P (_ & _ & _ & W). unfold exponent_text. destruct (n_exp n) as [x|]; [|constructor]. destruct W as [W _].
  apply Forall_app. split; [|apply Forall_app; split; [now apply plain_sign|now apply plain_dchars]].
  destruct P as (_ & _ & P1 & P2 & _). change (code "e") with 101 in *. change (code "E") with 69 in *.
  destruct (x_upper x); repeat constructor; try (intros C; vm_compute in C; lia).
Qed.
Lemma map_no_point : forall p n, point_char p -> well_formed n -> n_frac n = None -> map (as_point p) (written n) = written n.
Proof.
  intros p n P W F. apply map_plain. unfold written, mantissa_text. rewrite F, app_nil_r. pose proof W as (W1 & _).
  apply Forall_app. split; [apply Forall_app; split; [now apply plain_sign|now apply plain_dchars]|now apply plain_exp].
Qed.
Lemma zero_ends : ends_number 0.
Proof. repeat split; vm_compute; intuition congruence. Qed.
Lemma ends_as_point : forall p c, ends_number c -> c <> p -> as_point p c = c.
Proof.
  intros p c (_ & H & _) N. unfold as_point. destruct (Z.eqb_spec c p); [contradiction|]. destruct (Z.eqb_spec c (code ".")); [contradiction|reflexivity].
Qed.

(** the part of a number in front of its point *)
Definition whole_part (n : numeral) : numeral := {| n_sign := n_sign n; n_int := n_int n; n_frac := None; n_exp := None |}.
Lemma whole_part_wf : forall n, well_formed n -> n_int n <> [] -> well_formed (whole_part n).
Proof.
  intros n (W1 & _) N. unfold well_formed, whole_part. cbn [n_int frac_digits n_frac n_exp]. rewrite app_nil_r. repeat split; [assumption|constructor|assumption].
Qed.
Lemma map_point : forall p n f c rest, point_char p -> p <> code "." -> well_formed n -> n_frac n = Some f ->
  exists u, map (as_point p) (written n ++ c :: rest) = (sign_text (n_sign n) ++ dchars (n_int n) ++ 0 :: u)%list.
Proof.
  intros p n f c rest P Np W F. pose proof W as (W1 & _). unfold written, mantissa_text. rewrite F, <- !app_assoc, !map_app.
  rewrite (map_plain p (sign_text (n_sign n))) by now apply plain_sign. rewrite (map_plain p (dchars (n_int n))) by now apply plain_dchars.
  eexists. do 2 f_equal. cbn [text list_ascii_of_string map app]. f_equal. unfold as_point. change (code ".") with 46 in *.
  destruct (Z.eqb_spec 46 p); [exfalso; lia|reflexivity].
Qed.

(** * What happens *)

Lemma either : forall t s want fb errno,
  (forall fb', atof (fmt_of t) s want fb' errno = atof (fmt_of t) s want fb errno) \/
  (forall fb', atof (fmt_of t) s want fb' errno = fallback_answer t s want fb' errno).
Proof.
  intros t s want fb errno. destruct (C42_protocol t s) as [(f & E)|[(v & st & e & _ & E)|E]]; [left|left|right]; intros; rewrite ?E; reflexivity.
Qed.

(** C115: A number without a point is read as in the "C" locale, unless the character behind it is the decimal point of the locale:
    the fallback is as good for it. *)
Theorem C115_no_point : forall t p fb n c rest errno, standard_fallback t fb -> point_char p ->
  well_formed n -> n_frac n = None -> ends_number c -> c <> p -> in_range t (value n) ->
  exists r, with_point p fb (written n ++ c :: rest) errno = Ok r /\
    (fb_errno r = errno \/ fb_errno r = ERANGE /\ below_normal t (value n)) /\ fb_str_end r = len (written n) /\
    correctly_rounded t (is_minus (n_sign n)) (value n) (fb_value r).
Proof.
  intros t p fb n c rest errno (G & _) P W F Hc N R. unfold with_point. rewrite map_app, (map_no_point p n P W F). cbn [map]. rewrite (ends_as_point p c Hc N).
  now apply G.
Qed.

(** C115: so numbers of at most 19 (float: 9) digits without a point are read correctly in every locale. *)
Theorem C115_no_point_read : forall t p fb n c rest errno, standard_fallback t fb -> point_char p ->
  well_formed n -> n_frac n = None -> ends_number c -> c <> p -> within_limits n -> short_decimal t n -> in_range t (value n) -> ~ carries t (value n) ->
  exists r, atof (fmt_of t) (written n ++ c :: rest) true (with_point p fb) errno = Ok r /\
    correctly_rounded t (is_minus (n_sign n)) (value n) (at_value r) /\ at_str_end r = Some (len (written n)).
Proof.
  intros t p fb n c rest errno G P W F Hc N L S R NC.
  destruct (C29_correct_or_deferred t n c rest true (with_point p fb) errno W Hc L S R NC) as [(v & E & V)|E]; rewrite E.
  - eexists. split; [reflexivity|]. cbn. auto.
  - destruct (C115_no_point t p fb n c rest errno G P W F Hc N R) as (r & G1 & G2 & G3 & G4). unfold fallback_answer. rewrite G1.
    eexists. split; [reflexivity|]. cbn [at_value at_str_end]. rewrite G3. auto.
Qed.

(** C115: A number with a point, in a locale with another decimal point: either the result is the same whatever the fallback does, or
    the result is what stands in front of the point, and the reading ends there. *)
Theorem C115_point : forall t p fb n f c rest errno, standard_fallback t fb -> point_char p -> p <> code "." ->
  well_formed n -> n_frac n = Some f -> n_int n <> [] -> coefficient (whole_part n) = 0 \/ in_range t (value (whole_part n)) ->
  let s := written n ++ c :: rest in
  (forall fb', atof (fmt_of t) s true fb' errno = atof (fmt_of t) s true (with_point p fb) errno) \/
  exists r, atof (fmt_of t) s true (with_point p fb) errno = Ok r /\ at_used_fallback r = true /\
    at_str_end r = Some (len (written (whole_part n))) /\
    (errno <> ERANGE -> at_status r = success /\ at_errno r = errno) /\
    (coefficient (whole_part n) = 0 /\ at_value r = zero_of t (is_minus (n_sign n)) \/
     correctly_rounded t (is_minus (n_sign n)) (value (whole_part n)) (at_value r)).
Proof.
  intros t p fb n f c rest errno (G & Gz & _) P Np W F Ni R s.
  destruct (either t s true (with_point p fb) errno) as [E|E]; [now left|right]. rewrite E.
  destruct (map_point p n f c rest P Np W F) as (u & M). fold s in M.
  assert (M' : map (as_point p) s = (written (whole_part n) ++ 0 :: u)%list).
  { rewrite M. unfold written, mantissa_text, exponent_text, whole_part. cbn [n_sign n_int n_frac n_exp]. now rewrite !app_nil_r, <- app_assoc. }
  pose proof (whole_part_wf n W Ni) as Wm. unfold fallback_answer, with_point. rewrite M'.
  assert (CE : forall v, errno <> ERANGE -> check_errno (fmt_of t) errno v = success).
  { intros v NE. unfold check_errno. destruct (Z.eqb_spec errno ERANGE); [contradiction|reflexivity]. }
  destruct (Z.eq_dec (coefficient (whole_part n)) 0) as [Z0|Z0].
  - rewrite (Gz (whole_part n) 0 u errno Wm zero_ends Z0). eexists. split; [reflexivity|]. cbn [at_value at_status at_str_end at_errno at_used_fallback fb_value fb_str_end fb_errno].
    split; [reflexivity|]. split; [reflexivity|]. split; [intros NE; split; [now apply CE|reflexivity]|]. left. auto.
  - destruct R as [R|R]; [contradiction|]. destruct (G (whole_part n) 0 u errno Wm zero_ends R) as (r & G1 & G2 & G3 & G4). rewrite G1.
    eexists. split; [reflexivity|]. cbn [at_value at_status at_str_end at_errno at_used_fallback]. rewrite G3.
    split; [reflexivity|]. split; [reflexivity|]. split; [|right; exact G4].
    assert (EE : fb_errno r = errno).
    { destruct G2 as [G2|[_ G2]]; [exact G2|exfalso]. unfold below_normal in G2. rewrite value_abs in G2 by exact Wm.
      assert (C1 : 1 <= coefficient (whole_part n)).
      { unfold coefficient in *. cbn [whole_part n_int frac_digits n_frac] in *. rewrite app_nil_r in *. destruct W as (W1 & _). pose proof (dval_bounds _ W1). lia. }
      unfold abs_value, scale, exponent_value in G2. cbn [whole_part n_exp frac_digits n_frac List.length] in G2. change (bpow radix10 (0 - Z.of_nat 0)) with 1%R in G2.
      apply IZR_le in C1. assert (B : (bpow radix2 (min_exp t + precision t - 1) <= bpow radix2 0)%R) by (apply bpow_le; destruct t; cbn; lia). change (bpow radix2 0) with 1%R in B.
      fold (whole_part n) in G2. lra. }
    intros NE. rewrite EE. auto.
Qed.

(** C115: a number that begins with its point: nothing is consumed when the fallback is asked *)
Theorem C115_leading_point : forall t p fb n f c rest errno, standard_fallback t fb -> point_char p -> p <> code "." ->
  well_formed n -> n_frac n = Some f -> n_int n = [] ->
  let s := written n ++ c :: rest in
  (forall fb', atof (fmt_of t) s true fb' errno = atof (fmt_of t) s true (with_point p fb) errno) \/
  atof (fmt_of t) s true (with_point p fb) errno =
    Ok {| at_value := 0; at_status := check_errno (fmt_of t) errno 0; at_str_end := Some 0; at_errno := errno; at_used_fallback := true |}.
Proof.
  intros t p fb n f c rest errno (_ & _ & G) P Np W F Ni s.
  destruct (either t s true (with_point p fb) errno) as [E|E]; [now left|right]. rewrite E.
  destruct (map_point p n f c rest P Np W F) as (u & M). fold s in M. rewrite Ni in M. cbn [dchars map app] in M.
  unfold fallback_answer, with_point. rewrite M, G. reflexivity.
Qed.

(** C115: an integer with the decimal point of the locale and digits behind it, as in a list of integers separated by commas: either
    the result is the same whatever the fallback does, or what stands behind is consumed, too, as a fraction. *)
Theorem C115_swallowed : forall t p fb n f c rest errno, standard_fallback t fb -> point_char p -> p <> code "." ->
  well_formed n -> n_frac n = None -> n_exp n = None -> Forall digit f -> ends_number c -> c <> p ->
  let m := {| n_sign := n_sign n; n_int := n_int n; n_frac := Some f; n_exp := None |} in in_range t (value m) ->
  let s := written n ++ p :: dchars f ++ c :: rest in
  (forall fb', atof (fmt_of t) s true fb' errno = atof (fmt_of t) s true (with_point p fb) errno) \/
  exists r, atof (fmt_of t) s true (with_point p fb) errno = Ok r /\ at_used_fallback r = true /\
    at_str_end r = Some (len (written n) + 1 + len f) /\ correctly_rounded t (is_minus (n_sign n)) (value m) (at_value r).
Proof.
  intros t p fb n f c rest errno (G & _) P Np W F X D Hc N m R s.
  destruct (either t s true (with_point p fb) errno) as [E|E]; [now left|right]. rewrite E.
  assert (Wm : well_formed m).
  { pose proof W as (W1 & _ & W3 & _). unfold well_formed, m, frac_digits in *. cbn [n_int frac_digits n_frac n_exp]. rewrite F, app_nil_r in W3.
    repeat split; try assumption. destruct (n_int n); [contradiction|discriminate]. }
  assert (Wr : written m = (written n ++ text "." ++ dchars f)%list).
  { unfold written, mantissa_text, exponent_text, m. cbn [n_sign n_int n_frac n_exp]. rewrite F, X, !app_nil_r. now rewrite <- app_assoc. }
  assert (M : map (as_point p) s = (written m ++ c :: map (as_point p) rest)%list).
  { unfold s. rewrite map_app, (map_no_point p n P W F). cbn [map]. rewrite map_app, (map_plain p (dchars f)) by now apply plain_dchars. cbn [map].
    rewrite (ends_as_point p c Hc N), Wr, <- !app_assoc. f_equal. cbn [text list_ascii_of_string map app]. f_equal. unfold as_point. now rewrite Z.eqb_refl. }
  unfold fallback_answer, with_point. rewrite M. destruct (G m c (map (as_point p) rest) errno Wm Hc R) as (r & G1 & G2 & G3 & G4). rewrite G1.
  eexists. split; [reflexivity|]. cbn [at_value at_str_end at_used_fallback]. rewrite G3. split; [reflexivity|]. split; [|exact G4].
  f_equal. rewrite Wr, !app_length. unfold len, dchars. rewrite map_length. cbn [text list_ascii_of_string map List.length]. lia.
Qed.

(** C115: what is printed, read back in a locale with another decimal point: the value itself, or -- if the fallback is asked and there is
    a point in the text -- what stands in front of the point. *)
Theorem C115_circle : forall t p fb v n c rest errno, standard_fallback t fb -> point_char p -> p <> code "." ->
  nonzero t v -> well_formed n -> prints t v (written n) -> ends_number c -> c <> p ->
  ~ normal_power t v \/ (Rabs (real_of t v) <= Rabs (value n))%R ->
  exists r, atof (fmt_of t) (written n ++ c :: rest) true (with_point p fb) errno = Ok r /\
    (at_value r = v /\ at_str_end r = Some (len (written n)) \/
     n_frac n <> None /\ at_used_fallback r = true /\ at_str_end r = Some (len (written (whole_part n))) /\
       (coefficient (whole_part n) = 0 /\ at_value r = zero_of t (is_minus (n_sign n)) \/
        correctly_rounded t (is_minus (n_sign n)) (value (whole_part n)) (at_value r))).
Proof.
  intros t p fb v n c rest errno G P Np H W Pr Hc N Q.
  destruct (printed_short t v n H W Pr) as (S1 & S2 & S3 & S4 & LL). destruct (printed_parseable t v n H W Pr Q) as [R1 R2].
  assert (U : forall w, correctly_rounded t (is_minus (n_sign n)) (value n) w -> w = v).
  { intros w V. destruct (C01_reads_back t v n H W Pr) as (_ & R & _). destruct V as [(_ & A & B & _)|[A _]]; [|exfalso; destruct R1 as [_ R1]; lra].
    apply (real_of_inj t); [|exact H|rewrite B; apply R].
    split; [exact A|]. intros (_ & Z1 & Z2).
    assert (M0 : magnitude t w = 0%R) by (unfold magnitude, significand; rewrite Z1, Z2; cbn; ring).
    pose proof (nonzero_above t v H) as NA. pose proof (bpow_gt_0 radix2 (min_exp t)). rewrite <- abs_real, B, (R (fun z => negb (Z.even z)) : rnd t (value n) = _), abs_real in M0. lra. }
  destruct (n_frac n) as [f|] eqn:F.
  - assert (Ni : n_int n <> []).
    { destruct (C04_grammar t v H) as (m & M1 & M2 & _ & M3 & _). replace n with m; [exact M3|]. apply written_inj; try assumption. now apply (prints_unique t v). }
    destruct (C115_point t p fb n f c rest errno G P Np W F Ni) as [E|(r & E & B & C & _ & D)].
    + destruct (Z.eq_dec (coefficient (whole_part n)) 0) as [Z0|Z0]; [now left|right].
      pose proof (whole_part_wf n W Ni) as Wm.
      assert (C1 : 1 <= coefficient (whole_part n) < 10 ^ 24).
      { unfold coefficient in *. cbn [whole_part n_int frac_digits n_frac] in *. rewrite app_nil_r in *. pose proof W as (W1 & _). pose proof (dval_bounds _ W1) as [D0 D1]. split; [lia|].
        apply Z.lt_le_trans with (1 := D1). apply Z.pow_le_mono_r; [lia|]. unfold written, mantissa_text in LL. rewrite !app_length in LL. unfold dchars at 1 in LL. rewrite map_length in LL. unfold zlen. lia. }
      assert (V : abs_value (whole_part n) = IZR (coefficient (whole_part n))).
      { unfold abs_value, scale, exponent_value. cbn [whole_part n_exp frac_digits n_frac List.length]. change (bpow radix10 (0 - Z.of_nat 0)) with 1%R. apply Rmult_1_r. }
      destruct C1 as [C1 C2]. apply IZR_le in C1. apply IZR_lt in C2.
      split; [rewrite value_abs by exact Wm|rewrite rnd_value_abs by exact Wm]; rewrite V.
      * apply Rle_trans with (2 := C1). change 1%R with (bpow radix2 0). apply bpow_le. destruct t; cbn; lia.
      * apply Rle_lt_trans with (rnd t (bpow radix2 80)).
        -- apply rnd_mono. apply Rlt_le, Rlt_le_trans with (1 := C2). rewrite (bpow_IZR radix2 80) by lia. apply IZR_le. vm_compute. discriminate.
        -- rewrite rnd_bpow by (destruct t; cbn; lia). apply bpow_lt. destruct t; cbn; lia.
    + destruct (C46_full_circle t v n c rest (strtod_reference t) errno H W Pr Hc Q (proj1 (standard_fallback_exists t))) as (r & E1 & E2 & E3 & _).
      exists r. rewrite <- (E (strtod_reference t)). auto.
    + exists r. split; [exact E|]. right. split; [discriminate|]. auto.
  - destruct (C115_no_point_read t p fb n c rest errno G P W F Hc N S2 S1 R1 R2) as (r & E & V & B).
    exists r. split; [exact E|]. left. split; [now apply U|exact B].
Qed.
