(** Properties of atof on number texts: C28, C29, C30, C34, C36, C39, C42, C44, C51, C55. *)
From Coq Require Import Reals Lra Lia ZArith List String Ascii.
From Flocq Require Import Core.
From Verif Require Import Machine MachineFacts BitOps StaticPow Fraction Format DiyFp KComp Krosh Atof Spec ParseSpec ParseApi Instances
  DiyFacts BoundFacts TableFacts GrisuFacts FtoaFacts RoundFacts DownFacts DvalFacts CmpFacts ArithProps ScanFacts LoopFacts ParseFacts GapFacts KroshNum ShortFacts FracFacts LongFacts.
Open Scope Z_scope.

Lemma atof_fast : forall t s want fb errno v e st, krosh (fmt_of t) s = Ok {| kr_value := v; kr_str_end := e; kr_status := st; kr_is_accurate := true |} ->
  e <> 0 -> atof (fmt_of t) s want fb errno = Ok (answer want errno v st e).
Proof.
  intros t s want fb errno v e st H N. unfold atof. rewrite H. cbn [bind kr_str_end kr_value kr_status kr_is_accurate].
  destruct (Z.eqb_spec e 0); [contradiction|]. reflexivity.
Qed.

Lemma atof_slow : forall t s want fb errno v e st, krosh (fmt_of t) s = Ok {| kr_value := v; kr_str_end := e; kr_status := st; kr_is_accurate := false |} ->
  e <> 0 -> atof (fmt_of t) s want fb errno = fallback_answer t s want fb errno.
Proof.
  intros t s want fb errno v e st H N. unfold atof, fallback_answer. rewrite H. cbn [bind kr_str_end kr_value kr_status kr_is_accurate].
  destruct (Z.eqb_spec e 0); [contradiction|]. cbn [negb]. destruct (fb s errno); reflexivity.
Qed.

Lemma mantissa_nonempty : forall n, well_formed n -> zlen (mantissa_text n) <> 0.
Proof.
  intros n (_ & _ & W & _). rewrite mant_text, zlen_mant. rewrite frac_odig in W.
  assert (0 < zlen (n_int n ++ odig (n_frac n))).
  { destruct (n_int n ++ odig (n_frac n)); [congruence|]. rewrite zlen_cons. pose proof (zlen_nonneg l). lia. }
  rewrite zlen_app in H. assert (0 <= b2z (has_sign (n_sign n)) /\ 0 <= b2z (is_some (n_frac n))) by (destruct (n_sign n), (n_frac n); cbn; lia). lia.
Qed.

Lemma written_nonempty : forall n, well_formed n -> zlen (written n) <> 0.
Proof.
  intros n W. unfold written. rewrite zlen_app. pose proof (mantissa_nonempty n W). pose proof (zlen_nonneg (mantissa_text n)).
  pose proof (zlen_nonneg (exponent_text n)). lia.
Qed.

(** C28: the number is consumed completely, unless the fallback decides. *)
Theorem C28_consumed : forall t n c rest want fb errno, well_formed n -> coefficient n <> 0 ->
  readable_exponent n -> within_limits n -> ends_number c ->
  let s := written n ++ c :: rest in
  (exists v st, atof (fmt_of t) s want fb errno = Ok (answer want errno v st (len (written n)))) \/
  atof (fmt_of t) s want fb errno = fallback_answer t s want fb errno.
Proof.
  intros t n c rest want fb errno W CN SE L Hc s.
  destruct (krosh_consumes t n c rest W Hc L SE CN) as (v & st & acc & E). fold s in E. destruct acc.
  - left. exists v, st. exact (atof_fast _ _ _ _ _ _ _ _ E (written_nonempty n W)).
  - right. exact (atof_slow _ _ _ _ _ _ _ _ E (written_nonempty n W)).
Qed.

(** C29: up to 19 (9) significant digits the result is the correctly rounded one, or the
    fallback decides *)
Theorem C29_correct_or_deferred : forall t n c rest want fb errno, well_formed n -> ends_number c -> within_limits n ->
  short_decimal t n -> in_range t (value n) -> ~ carries t (value n) ->
  let s := written n ++ c :: rest in
  (exists v, atof (fmt_of t) s want fb errno = Ok (answer want errno v success (len (written n))) /\
     correctly_rounded t (is_minus (n_sign n)) (value n) v) \/
  atof (fmt_of t) s want fb errno = fallback_answer t s want fb errno.
Proof.
  intros t n c rest want fb errno W Hc L S R NC s.
  destruct (krosh_short t n c rest W Hc L S R NC) as (v & acc & E & V & _). fold s in E. destruct acc.
  - left. exists v. split; [|auto]. exact (atof_fast _ _ _ _ _ _ _ _ E (written_nonempty n W)).
  - right. exact (atof_slow _ _ _ _ _ _ _ _ E (written_nonempty n W)).
Qed.

(** ... the fallback is only asked next to a rounding boundary ... *)
Theorem C29_fallback_only_near_ties : forall t n c rest want fb errno, well_formed n -> ends_number c -> within_limits n ->
  short_decimal t n -> in_range t (value n) -> ~ carries t (value n) ->
  clear_of_ties t (match t with Float => / 128 | Double => / 1024 end) (value n) ->
  exists v, atof (fmt_of t) (written n ++ c :: rest) want fb errno = Ok (answer want errno v success (len (written n))) /\
     correctly_rounded t (is_minus (n_sign n)) (value n) v.
Proof.
  intros t n c rest want fb errno W Hc L S R NC CT.
  destruct (krosh_short t n c rest W Hc L S R NC) as (v & acc & E & V & A). destruct acc.
  - exists v. split; [|auto]. exact (atof_fast _ _ _ _ _ _ _ _ E (written_nonempty n W)).
  - exfalso. refine (A eq_refl _ _ CT). right. destruct t; reflexivity.
Qed.

(** ... so with a good fallback the result is the correctly rounded one, always. *)
Theorem C29_correct_with_fallback : forall t n c rest fb errno, well_formed n -> ends_number c -> within_limits n ->
  short_decimal t n -> in_range t (value n) -> ~ carries t (value n) -> good_fallback t fb ->
  exists r, atof (fmt_of t) (written n ++ c :: rest) true fb errno = Ok r /\
    correctly_rounded t (is_minus (n_sign n)) (value n) (at_value r) /\ at_str_end r = Some (len (written n)) /\
    (errno <> ERANGE -> at_status r = success /\ at_errno r = errno \/
       at_used_fallback r = true /\ at_errno r = ERANGE /\ below_normal t (value n)).
Proof.
  intros t n c rest fb errno W Hc L S R NC G.
  destruct (C29_correct_or_deferred t n c rest true fb errno W Hc L S R NC) as [(v & E & V)|E]; rewrite E.
  - eexists. split; [reflexivity|]. cbn. auto.
  - destruct (G n c rest errno W Hc R) as (r & G1 & G2 & G3 & G4). unfold fallback_answer. rewrite G1.
    eexists. split; [reflexivity|]. cbn [at_value at_status at_str_end at_errno at_used_fallback]. rewrite G3. split; [exact G4|]. split; [reflexivity|].
    intros NE. destruct G2 as [G2|[G2 G5]]; [left|right; auto]. rewrite G2.
    unfold check_errno. destruct (Z.eqb_spec errno ERANGE); [contradiction|auto].
Qed.

(** C30: numbers of any length *)
Theorem C30_any_length : forall t n c rest want fb errno, well_formed n -> ends_number c -> within_limits n ->
  in_range t (value n) -> (t = Float -> (pow10 (-42) <= Rabs (value n))%R) ->
  clear_of_ties t (any_length_margin t) (value n) ->
  ~ carries t (value n) -> ~ just_above_power t (any_length_margin t) (value n) ->
  exists v, atof (fmt_of t) (written n ++ c :: rest) want fb errno = Ok (answer want errno v success (len (written n))) /\
     correctly_rounded t (is_minus (n_sign n)) (value n) v.
Proof.
  intros t n c rest want fb errno W Hc L R HF CT NC NJ.
  destruct (krosh_long t n c rest W Hc L R NC NJ CT HF) as (v & E & V). exists v. split; [|exact V].
  exact (atof_fast _ _ _ _ _ _ _ _ E (written_nonempty n W)).
Qed.

(** C39: what is consumed of a zero mantissa with an exponent: the mantissa only *)
Theorem C39_zero_mantissa : forall t n c rest want fb errno, well_formed n -> ends_number c -> within_limits n -> coefficient n = 0 ->
  atof (fmt_of t) (written n ++ c :: rest) want fb errno
  = Ok (answer want errno (zero_of t (is_minus (n_sign n))) success (len (mantissa_text n))).
Proof.
  intros t n c rest want fb errno W Hc L C0.
  destruct (krosh_numeral t n c rest W Hc L) as (st & _ & E & _). specialize (E C0).
  rewrite (atof_fast _ _ want fb errno _ _ _ E (mantissa_nonempty n W)). f_equal. unfold answer. f_equal.
  unfold apply_sign, zero_of. destruct (is_minus (n_sign n)); cbn [negb]; [|reflexivity]. now rewrite neg_bits_small by (destruct t; cbn; lia).
Qed.

(** C55: zero without an exponent part *)
Theorem C55_zero : forall t n c rest want fb errno, well_formed n -> ends_number c -> within_limits n -> n_exp n = None -> coefficient n = 0 ->
  atof (fmt_of t) (written n ++ c :: rest) want fb errno
  = Ok (answer want errno (zero_of t (is_minus (n_sign n))) success (len (written n))) /\
  correctly_rounded t (is_minus (n_sign n)) (value n) (zero_of t (is_minus (n_sign n))).
Proof.
  intros t n c rest want fb errno W Hc L NE C0. rewrite (C39_zero_mantissa t n c rest want fb errno W Hc L C0).
  split.
  - do 3 f_equal. unfold written, exponent_text. rewrite NE, app_nil_r. reflexivity.
  - left. assert (V0 : value n = 0%R).
    { unfold value, abs_value. rewrite C0. destruct (is_minus (n_sign n)); ring. }
    rewrite V0, rnd_0, Rabs_R0. split; [apply bpow_gt_0|].
    split; [split; [split|]; destruct t, (is_minus (n_sign n)); vm_compute; congruence|].
    split; [|destruct t, (is_minus (n_sign n)); vm_compute; split; congruence].
    unfold real_of, magnitude. assert (S0 : significand t (zero_of t (is_minus (n_sign n))) = 0) by (destruct t, (is_minus (n_sign n)); vm_compute; reflexivity).
    rewrite S0. destruct (_ =? 1); ring.
Qed.
