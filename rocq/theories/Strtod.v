(** C117: strtod as the fallback for floats -- atof<float>(s, &end, strtod) compiles, since the type of the fallback is a template
    parameter (atof.h:91, 108); what it returns is converted by the assignment in atof.h:110. *)
From Coq Require Import Reals Lra Lia ZArith List String Ascii.
From Flocq Require Import Core.
From Verif Require Import Machine MachineFacts BitOps StaticPow Fraction Format DiyFp KComp Chars Krosh Atof Spec ParseSpec Api ParseApi Instances
  DiyFacts BoundFacts TableFacts GrisuFacts ShownFacts RoundFacts ArithProps WrittenFacts PrintProps DvalFacts CmpFacts GapFacts KroshNum ShortFacts ParseProps GoodFallback RoundTrip CrossType Narrow.
Import ListNotations.
Open Scope Z_scope.

(** [f] is what IEEE 754 says the conversion of the finite double [d] to float gives: the nearest float, infinity if it is beyond the
    largest one (C++ leaves that case undefined); the sign is kept *)
Definition converts_to (d f : Z) : Prop :=
  exists neg, (neg = true <-> negative Double d) /\ correctly_rounded Float neg (real_of Double d) f.

(** atof.h:110, as far as it is not in Atof.v: [fb] called where a float is wanted *)
Definition as_float_fallback (fb fb_f : fallback) : Prop := forall s errno,
  match fb s errno with
  | Ok r => exists u, (finite Double (fb_value r) -> converts_to (fb_value r) u) /\
              fb_f s errno = Ok {| fb_value := u; fb_str_end := fb_str_end r; fb_errno := fb_errno r |}
  | Fault x => fb_f s errno = Fault x
  end.

(** Such fallbacks exist. *)
Definition to_float (d : Z) : Z :=
  let neg := sign_field Double d =? 1 in
  if Req_EM_T (real_of Double d) 0 then zero_of Float neg
  else if Rlt_dec (Rabs (rnd Float (real_of Double d))) (bpow radix2 128) then round_bits Float (real_of Double d) + zero_of Float neg
  else infinity_of Float neg.
Lemma to_float_converts : forall d, finite Double d -> converts_to d (to_float d).
Proof.
  intros d F. exists (sign_field Double d =? 1). split; [unfold negative; apply Z.eqb_eq|].
  unfold to_float. set (x := real_of Double d). set (neg := sign_field Double d =? 1).
  assert (M : (0 <= magnitude Double d)%R).
  { unfold magnitude. apply Rmult_le_pos; [apply IZR_le; apply significand_range|apply bpow_ge_0]. }
  assert (X : x = (if neg then - magnitude Double d else magnitude Double d)%R) by reflexivity.
  assert (ZF : forall b, finite Float (zero_of Float b) /\ real_of Float (zero_of Float b) = 0%R /\ (negative Float (zero_of Float b) <-> b = true)).
  { intros b. split; [destruct b; repeat split; vm_compute; congruence|]. split.
    - unfold real_of, magnitude. replace (significand Float (zero_of Float b)) with 0 by (destruct b; reflexivity). rewrite Rmult_0_l. destruct (sign_field Float _ =? 1); [apply Ropp_0|reflexivity].
    - destruct b; split; intros H; try reflexivity; vm_compute in H; discriminate. }
  destruct (Req_EM_T x 0) as [Z0|Z0].
  - left. rewrite Z0, rnd_0, Rabs_R0. split; [apply bpow_gt_0|]. destruct (ZF neg) as (A & B & C). auto.
  - assert (RA : Rabs (rnd Float x) = rnd Float (magnitude Double d)).
    { rewrite X. destruct neg; [rewrite rnd_opp, Rabs_Ropp|]; apply Rabs_pos_eq; now apply rnd_nonneg. }
    destruct (Rlt_dec _ _) as [L|L].
    + destruct (round_bits_ok Float x Z0 L) as (G & Mg & S). set (v := round_bits Float x) in *.
      assert (Lv : 0 <= v < 2 ^ (width Float - 1)).
      { destruct G as [[G1 G2] _]. split; [assumption|]. unfold sign_field in S. assert (0 < 2 ^ (width Float - 1)) by reflexivity. apply Z.div_small_iff in S; lia. }
      replace (v + zero_of Float neg) with (apply_sign (fmt_of Float) (negb neg) v).
      * rewrite X. apply signed_correct; [exact G|lia|exact M| |rewrite <- RA; exact L]. unfold real_of. rewrite S. cbn [Z.eqb]. now rewrite Mg.
      * unfold apply_sign, zero_of. rewrite negb_involutive. destruct neg; [now apply neg_bits_small|lia].
    + right. split; [cbn [max_exp]; lra|reflexivity].
Qed.
Definition float_of_fallback (fb : fallback) : fallback := fun s errno =>
  match fb s errno with
  | Ok r => Ok {| fb_value := to_float (fb_value r); fb_str_end := fb_str_end r; fb_errno := fb_errno r |}
  | Fault x => Fault x
  end.
Theorem as_float_exists : forall fb, as_float_fallback fb (float_of_fallback fb).
Proof.
  intros fb s errno. unfold float_of_fallback. destruct (fb s errno) as [r|x]; [|reflexivity].
  exists (to_float (fb_value r)). split; [apply to_float_converts|reflexivity].
Qed.

(** numbers in the range of float, read by strtod *)
Lemma called : forall n c rest fb fb_f errno, well_formed n -> ends_number c -> in_range Float (value n) -> in_range Double (value n) ->
  good_fallback Double fb -> as_float_fallback fb fb_f ->
  exists u, fb_f (written n ++ c :: rest) errno = Ok {| fb_value := u; fb_str_end := len (written n); fb_errno := errno |} /\
    correctly_rounded Float (is_minus (n_sign n)) (rnd Double (value n)) u.
Proof.
  intros n c rest fb ff errno W Hc R RD G A. destruct (G n c rest errno W Hc RD) as (r & G1 & G2 & G3 & G4).
  specialize (A (written n ++ c :: rest) errno). rewrite G1 in A. destruct A as (u & U1 & U2).
  destruct RD as [_ RD]. destruct G4 as [(_ & D1 & D2 & D3)|[G4 _]]; [|exfalso; lra].
  exists u. destruct G2 as [G2|[_ G2]].
  2:{ exfalso. unfold below_normal in G2. destruct R as [R _]. assert (bpow radix2 (min_exp Double + precision Double - 1) <= bpow radix2 (min_exp Float))%R by (apply bpow_le; cbn; lia). lra. }
  rewrite U2, G2, G3. split; [reflexivity|]. destruct (U1 D1) as (neg & N1 & N2). rewrite D2 in N2.
  replace (is_minus (n_sign n)) with neg; [exact N2|]. destruct neg, (is_minus (n_sign n)); try reflexivity; exfalso.
  - assert (false = true) by (apply D3, N1; reflexivity). discriminate.
  - assert (false = true) by (apply N1, D3; reflexivity). discriminate.
Qed.

(** C117: Read with strtod as the fallback, a number of at most nine digits gives the float it gives with strtof; or the double nearest
    to it lies exactly half way between two floats: then the one nearer to the number is missed if it is not the one ties go to.  The
    status is success and errno is left alone. *)
Theorem C117_strtod_for_float : forall n c rest want fb fb_f errno, well_formed n -> ends_number c -> within_limits n ->
  short_decimal Float n -> in_range Float (value n) -> ~ carries Float (value n) -> good_fallback Double fb -> as_float_fallback fb fb_f -> errno <> ERANGE ->
  exists v slow, atof (fmt_of Float) (written n ++ c :: rest) want fb_f errno =
      Ok {| at_value := v; at_status := success; at_str_end := if want then Some (len (written n)) else None; at_errno := errno; at_used_fallback := slow |} /\
    (correctly_rounded Float (is_minus (n_sign n)) (value n) v \/
     slow = true /\ correctly_rounded Float (is_minus (n_sign n)) (rnd Double (value n)) v /\
     exists f, finite Float f /\ Rabs (rnd Double (value n)) = midpoint_above Float f /\
       (Rabs (rnd Float (rnd Double (value n))) = magnitude Float f /\ Rabs (rnd Float (value n)) = (magnitude Float f + ulp_of Float f)%R \/
        Rabs (rnd Float (value n)) = magnitude Float f /\ Rabs (rnd Float (rnd Double (value n))) = (magnitude Float f + ulp_of Float f)%R)).
Proof.
  intros n c rest want fb ff errno W Hc L S R NC G A NE.
  destruct (C29_correct_or_deferred Float n c rest want ff errno W Hc L S R NC) as [(v & E & V)|E]; rewrite E.
  { exists v, false. split; [reflexivity|]. left. exact V. }
  destruct (as_double n W S R) as (_ & RD & _). destruct (called n c rest fb ff errno W Hc R RD G A) as (u & U1 & U2).
  exists u, true. split.
  { unfold fallback_answer. rewrite U1. cbn [fb_value fb_str_end fb_errno]. unfold check_errno. destruct (Z.eqb_spec errno ERANGE); [contradiction|reflexivity]. }
  destruct R as [_ R]. destruct (twice_signed (value n) R) as [Q|(f & F & Q1 & Q2)].
  - left. unfold correctly_rounded in *. now rewrite <- Q.
  - right. split; [reflexivity|]. split; [exact U2|]. exists f. tauto.
Qed.

(** C117: so nothing is lost for the numbers that are not within 1/128 of a unit of such a point: the fallback is not even asked. *)
Theorem C117_clear : forall n c rest want fb_f errno, well_formed n -> ends_number c -> within_limits n ->
  short_decimal Float n -> in_range Float (value n) -> ~ carries Float (value n) -> clear_of_ties Float (/ 128) (value n) ->
  exists v, atof (fmt_of Float) (written n ++ c :: rest) want fb_f errno = Ok (answer want errno v success (len (written n))) /\
    correctly_rounded Float (is_minus (n_sign n)) (value n) v.
Proof. intros. now apply C29_fallback_only_near_ties. Qed.
