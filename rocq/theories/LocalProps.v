(** What of its text atof looks at: C27, C49, C51 (the end is inside the text). *)
From Coq Require Import Reals Lra Lia ZArith List String Ascii.
From Flocq Require Import Core.
From Verif Require Import Machine MachineFacts BitOps StaticPow Fraction Format DiyFp KComp Chars Krosh Atof Spec ParseSpec ParseApi Instances
  DiyFacts BoundFacts TableFacts GrisuFacts FtoaFacts RoundFacts DownFacts DvalFacts CmpFacts ArithProps ScanFacts LoopFacts ParseFacts GapFacts KroshNum ShortFacts FracFacts LongFacts ParseProps Refuted LocalFacts.
Open Scope Z_scope.

Lemma separator_inert : forall c, separator c -> inert c.
Proof. intros c H. exact H. Qed.

Lemma begins_plain : forall a, begins_number a -> plain a.
Proof.
  intros a (sg & x & u & -> & H). assert (D : digit_or_dot x) by exact H. destruct sg; cbn [sign_text].
  - left. exists x, u. auto.
  - right. exists 43, x, u. split; [reflexivity|]. split; [now right|exact D].
  - right. exists 45, x, u. split; [reflexivity|]. split; [now left|exact D].
Qed.

Lemma self_contained_closed : forall a c1 c2, self_contained a -> closed a c1 c2.
Proof.
  intros a c1 c2 [H K]. right. split; [now apply begins_plain|]. intros x e y E He. apply begins_plain. apply (K x e y E). exact He.
Qed.

(** two texts that agree up to where the first one stops *)
Theorem C49_trichotomy : forall t a c1 c2 r1 r2, ends_number c1 -> ends_number c2 -> 
  separator c1 /\ separator c2 \/ self_contained a ->
  let s1 := a ++ c1 :: r1 in let s2 := a ++ c2 :: r2 in
  (exists f, (f = TableOverrun \/ f = SignedOverflow) /\ (exists e, e_letter e /\ In e a) /\
     forall want fb errno, atof (fmt_of t) s1 want fb errno = Fault f /\ atof (fmt_of t) s2 want fb errno = Fault f) \/
  (exists v st e, 0 <= e <= len a /\ forall want fb errno,
     atof (fmt_of t) s1 want fb errno = Ok (answer want errno v st e) /\ atof (fmt_of t) s2 want fb errno = Ok (answer want errno v st e)) \/
  (forall want fb errno, atof (fmt_of t) s1 want fb errno = fallback_answer t s1 want fb errno /\
     atof (fmt_of t) s2 want fb errno = fallback_answer t s2 want fb errno).
Proof.
  intros t a c1 c2 r1 r2 N1 N2 Cl s1 s2.
  assert (Cl' : closed a c1 c2) by (destruct Cl as [?|?]; [now left|now apply self_contained_closed]).
  destruct (krosh_local t a c1 c2 r1 r2 N1 N2 Cl') as [E H]. fold s1 s2 in E, H. symmetry in E.
  destruct (krosh (fmt_of t) s1) as [r|f] eqn:E1.
  - destruct r as [v e st acc]. cbn [kr_str_end] in H. right. destruct (Z.eq_dec e 0) as [-> |Ne].
    + left. exists 0, success, 0. split; [exact H|]. intros want fb errno. unfold atof. rewrite E1, E. split; reflexivity.
    + destruct acc.
      * left. exists v, st, e. split; [exact H|]. intros want fb errno. split; apply atof_fast; assumption.
      * right. intros want fb errno. split; apply (atof_slow _ _ _ _ _ v e st); assumption.
  - left. exists f. destruct H as [H1 H2]. split; [exact H1|]. split.
    + destruct H2; eexists; split; [now left|eassumption|now right|eassumption].
    + intros. unfold atof. rewrite E1, E. split; reflexivity.
Qed.

(** C27: nothing behind the first NUL is looked at -- not even that there is anything: the
    outcome is the same for every continuation, the empty one included, where any further
    read would be a fault.  There is no fault at all unless the fallback causes it or the
    text has an exponent part. *)
Theorem C27_terminator : forall t a,
  (exists f, (f = TableOverrun \/ f = SignedOverflow) /\ (exists e, e_letter e /\ In e a) /\
     forall rest want fb errno, atof (fmt_of t) (a ++ 0 :: rest) want fb errno = Fault f) \/
  (exists v st e, 0 <= e <= len a /\
     forall rest want fb errno, atof (fmt_of t) (a ++ 0 :: rest) want fb errno = Ok (answer want errno v st e)) \/
  (forall rest want fb errno, atof (fmt_of t) (a ++ 0 :: rest) want fb errno = fallback_answer t (a ++ 0 :: rest) want fb errno).
Proof.
  intros t a.
  assert (S0 : separator 0) by (unfold separator, between; repeat split; vm_compute; intuition congruence).
  assert (N0 : ends_number 0) by (repeat split; vm_compute; intuition congruence).
  pose proof (fun rest => C49_trichotomy t a 0 0 [] rest N0 N0 (or_introl (conj S0 S0))) as T. cbn zeta in T.
  destruct (T []) as [(f & F1 & F2 & F3)|[(v & st & e & E1 & E2)|F]].
  - left. exists f. split; [exact F1|]. split; [exact F2|]. intros rest want fb errno.
    destruct (T rest) as [(f' & _ & _ & F3')|[(v & st & e & _ & E2)|F']].
    + destruct (F3' want fb errno) as [A ->]. destruct (F3 want fb errno) as [B _]. congruence.
    + destruct (E2 want fb errno) as [A _]. destruct (F3 want fb errno) as [B _]. congruence.
    + exfalso. destruct (F' want (fun _ _ => Ok {| fb_value := 0; fb_str_end := 0; fb_errno := 0 |}) errno) as [A _].
      destruct (F3 want (fun _ _ => Ok {| fb_value := 0; fb_str_end := 0; fb_errno := 0 |}) errno) as [B _]. rewrite A in B. discriminate.
  - right. left. exists v, st, e. split; [exact E1|]. intros rest want fb errno.
    destruct (T rest) as [(f' & _ & _ & F3')|[(v' & st' & e' & _ & E2')|F']].
    + destruct (F3' want fb errno) as [A _]. destruct (E2 want fb errno) as [B _]. congruence.
    + destruct (E2' want fb errno) as [A ->]. destruct (E2 want fb errno) as [B _]. congruence.
    + exfalso. destruct (F' want (fun _ _ => Fault OutOfFuel) errno) as [A _].
      destruct (E2 want (fun _ _ => Fault OutOfFuel) errno) as [B _]. rewrite A in B. discriminate.
  - right. right. intros rest want fb errno.
    destruct (T rest) as [(f' & _ & _ & F3')|[(v' & st' & e' & _ & E2')|F']].
    + exfalso. destruct (F3' want (fun _ _ => Ok {| fb_value := 0; fb_str_end := 0; fb_errno := 0 |}) errno) as [A _].
      destruct (F want (fun _ _ => Ok {| fb_value := 0; fb_str_end := 0; fb_errno := 0 |}) errno) as [B _]. rewrite A in B. discriminate.
    + exfalso. destruct (E2' want (fun _ _ => Fault OutOfFuel) errno) as [A _].
      destruct (F want (fun _ _ => Fault OutOfFuel) errno) as [B _]. rewrite A in B. discriminate.
    + apply F'.
Qed.

(** ... so without an exponent part and with a fallback that does not fail atof always returns *)
Theorem C27_total_without_exponent : forall t a rest want fb errno, (forall e, e_letter e -> ~ In e a) ->
  (forall s n, exists r, fb s n = Ok r) -> exists r, atof (fmt_of t) (a ++ 0 :: rest) want fb errno = Ok r.
Proof.
  intros t a rest want fb errno NE HF. destruct (C27_terminator t a) as [(f & _ & (e & E1 & E2) & _)|[(v & st & e & _ & H)|H]].
  - exfalso. exact (NE e E1 E2).
  - eexists. apply H.
  - rewrite H. unfold fallback_answer. destruct (HF (a ++ 0 :: rest) errno) as (r & ->). eexists. reflexivity.
Qed.

(** C49: the result depends only on the text and not on what follows *)
Theorem C49_locality : forall t a c1 c2 r1 r2 want fb errno, ends_number c1 -> ends_number c2 ->
  separator c1 /\ separator c2 \/ self_contained a ->
  fb (a ++ c1 :: r1) errno = fb (a ++ c2 :: r2) errno ->
  atof (fmt_of t) (a ++ c1 :: r1) want fb errno = atof (fmt_of t) (a ++ c2 :: r2) want fb errno.
Proof.
  intros t a c1 c2 r1 r2 want fb errno N1 N2 Cl HF.
  destruct (C49_trichotomy t a c1 c2 r1 r2 N1 N2 Cl) as [(f & _ & _ & H)|[(v & st & e & _ & H)|H]]; destruct (H want fb errno) as [-> ->]; try reflexivity.
  unfold fallback_answer. now rewrite HF.
Qed.

(** number texts are self-contained *)
Lemma digits_no_e : forall ds e, Forall digit ds -> In e (dchars ds) -> ~ e_letter e.
Proof.
  intros ds e D H. unfold dchars in H. apply in_map_iff in H as (d & <- & Hd). rewrite Forall_forall in D. specialize (D d Hd).
  unfold e_letter, digit in *. change (code "e") with 101. change (code "E") with 69. change (code "0") with 48. lia.
Qed.

Lemma mantissa_no_e : forall n e, well_formed n -> In e (mantissa_text n) -> ~ e_letter e.
Proof.
  intros n e (W1 & W2 & _) H. unfold mantissa_text in H. apply in_app_or in H as [H|H]; [|apply in_app_or in H as [H|H]].
  - destruct (n_sign n); cbn in H; [contradiction| |]; (destruct H as [<-|[]]; unfold e_letter; vm_compute; intuition congruence).
  - exact (digits_no_e _ _ W1 H).
  - unfold frac_digits in W2. destruct (n_frac n); [|contradiction]. apply in_app_or in H as [H|H]; [|exact (digits_no_e _ _ W2 H)].
    destruct H as [<-|[]]. unfold e_letter. vm_compute. intuition congruence.
Qed.

Lemma between_digit : forall d, digit d -> between "0" "9" (code "0" + d).
Proof. intros d H. unfold between, digit in *. change (code "0") with 48. change (code "9") with 57. lia. Qed.

Lemma mantissa_begins : forall n, well_formed n -> forall r, begins_number (mantissa_text n ++ r).
Proof.
  intros n (W1 & W2 & W3 & _) r. unfold mantissa_text, frac_digits in *. exists (n_sign n).
  destruct (n_int n) as [|d i].
  - destruct (n_frac n) as [f|]; [|cbn in W3; congruence]. eexists. eexists. split; [rewrite <- !app_assoc; reflexivity|]. right. reflexivity.
  - inversion_clear W1. eexists. eexists. split; [rewrite <- !app_assoc; reflexivity|]. left. now apply between_digit.
Qed.

Lemma split_at_e : forall (A B x y : list Z) e, (forall z, In z A -> ~ e_letter z) -> A ++ B = x ++ e :: y -> e_letter e ->
  exists x', x = A ++ x' /\ B = x' ++ e :: y.
Proof.
  induction A as [|z A IH]; intros B x y e H E He; [exists x; auto|].
  destruct x as [|z' x]; cbn [app] in E.
  - injection E as -> _. exfalso. apply (H e); [now left|assumption].
  - injection E as <- E. destruct (IH B x y e) as (x' & -> & ->); auto. intros z0 Hz. apply H. now right. exists x'. auto.
Qed.

Theorem written_self_contained : forall n, well_formed n -> self_contained (written n).
Proof.
  intros n W. split; [unfold written; now apply mantissa_begins|].
  intros x e y E He. unfold written in E.
  apply split_at_e in E as (x' & _ & E); [|intros z Hz; exact (mantissa_no_e n z W Hz)|assumption].
  destruct W as (_ & _ & _ & W). unfold exponent_text in E. destruct (n_exp n) as [p|]; [|destruct x'; discriminate].
  destruct W as [Wd Wn].
  assert (NE : forall z, In z (sign_text (x_sign p) ++ dchars (x_digits p)) -> ~ e_letter z).
  { intros z Hz. apply in_app_or in Hz as [Hz|Hz]; [|exact (digits_no_e _ _ Wd Hz)].
    destruct (x_sign p); cbn in Hz; [contradiction| |]; (destruct Hz as [<-|[]]; unfold e_letter; vm_compute; intuition congruence). }
  destruct x' as [|z x'].
  - assert (y = sign_text (x_sign p) ++ dchars (x_digits p)) as ->.
    { destruct (x_upper p); cbn [text list_ascii_of_string map app] in E; congruence. }
    exists (x_sign p). destruct (x_digits p) as [|d ds]; [congruence|]. inversion_clear Wd. exists (code "0" + d), (dchars ds). split; [reflexivity|]. left. now apply between_digit.
  - exfalso. apply (NE e); [|assumption].
    assert (sign_text (x_sign p) ++ dchars (x_digits p) = x' ++ e :: y) as ->.
    { destruct (x_upper p); cbn [text list_ascii_of_string map app] in E; congruence. }
    apply in_or_app. right. now left.
Qed.

Theorem C49_number : forall t n c1 c2 r1 r2 want fb errno, well_formed n -> ends_number c1 -> ends_number c2 ->
  fb (written n ++ c1 :: r1) errno = fb (written n ++ c2 :: r2) errno ->
  atof (fmt_of t) (written n ++ c1 :: r1) want fb errno = atof (fmt_of t) (written n ++ c2 :: r2) want fb errno.
Proof. intros. apply C49_locality; auto. right. now apply written_self_contained. Qed.

(** C51, second half: what is stored without the fallback is a position inside the text *)
Theorem C51_end_inside : forall t a rest fb errno r, atof (fmt_of t) (a ++ 0 :: rest) true fb errno = Ok r -> at_used_fallback r = false ->
  exists e, at_str_end r = Some e /\ 0 <= e <= len a.
Proof.
  intros t a rest fb errno r E U. destruct (C27_terminator t a) as [(f & _ & _ & H)|[(v & st & e & B & H)|H]].
  - rewrite H in E. discriminate.
  - rewrite H in E. injection E as <-. exists e. auto.
  - rewrite H in E. unfold fallback_answer in E. destruct (fb _ errno); [|discriminate]. injection E as <-. discriminate.
Qed.

(** every outcome of C27 occurs *)
Example C27_returns : forall rest want fb errno, atof double (text "+1.25x" ++ 0 :: rest) want fb errno = Ok (answer want errno 4608308318706860032 success 5).
Proof.
  intros. destruct (C27_terminator Double (text "+1.25x")) as [(f & _ & _ & H)|[(v & st & e & _ & H)|H]].
  - specialize (H [] true (fun _ _ => Fault OutOfFuel) 0). vm_compute in H. discriminate.
  - pose proof (H [] true (fun _ _ => Fault OutOfFuel) 0) as G. vm_compute in G. injection G as <- <- <-. apply H.
  - specialize (H [] true (fun _ _ => Fault OutOfFuel) 0). vm_compute in H. discriminate.
Qed.
Example C49_applies : forall want fb errno r1 r2, fb (text "-12.5e3" ++ 32 :: r1) errno = fb (text "-12.5e3" ++ 43 :: r2) errno ->
  atof double (text "-12.5e3" ++ 32 :: r1) want fb errno = atof double (text "-12.5e3" ++ 43 :: r2) want fb errno.
Proof.
  intros. apply (C49_number Double (nume Minus [1;2] (Some [5]) NoSign [3]) 32 43 r1 r2 want fb errno); [wfn| | |assumption];
    repeat split; vm_compute; intuition congruence.
Qed.
