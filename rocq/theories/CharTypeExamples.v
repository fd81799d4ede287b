(** C107: what is printed is ASCII; concrete cases. *)
From Coq Require Import ZArith Bool List String Ascii Lia.
From Verif Require Import Machine MachineFacts Format DiyFp Ftoa Krosh Atof CharType CharTypeProps Spec ParseSpec Api Instances GrisuFacts ShownFacts FtoaFacts PrintProps PrintProps3.
Import ListNotations.
Open Scope Z_scope.

Definition printable (c : Z) : Prop := 32 < c < 127.
Lemma dchars_ascii : forall ds, Forall digit ds -> Forall printable (dchars ds).
Proof. intros ds H. apply Forall_forall. intros c I. apply in_map_iff in I as (d & E & I). rewrite Forall_forall in H. specialize (H d I). unfold digit, printable in *. change (code "0") with 48 in E. lia. Qed.
Lemma sign_ascii : forall s, Forall printable (sign_text s).
Proof. destruct s; repeat constructor. Qed.
Lemma written_ascii : forall m, well_formed m -> Forall printable (written m).
Proof.
  intros m (W1 & W2 & _ & W3). unfold written, mantissa_text, exponent_text, frac_digits in *. repeat (apply Forall_app; split).
  - apply sign_ascii.
  - now apply dchars_ascii.
  - destruct (n_frac m); [|constructor]. apply Forall_app. split; [repeat constructor|now apply dchars_ascii].
  - destruct (n_exp m) as [x|]; [|constructor]. destruct W3 as [W3 _]. repeat (apply Forall_app; split); [destruct (x_upper x); repeat constructor|apply sign_ascii|now apply dchars_ascii].
Qed.
(** C107: the characters printed are printable ASCII, hence values of every character type *)
Theorem C107_printed : forall t v, pattern t v -> exists s, to_basic_string (fmt_of t) v = Ok s /\ Forall (fun c => 32 < c < 127) s.
Proof.
  intros t v H. destruct (C15_to_string t v H) as (s & P & E). exists s. split; [exact E|].
  destruct (classify t v H) as [C|[C|[C|C]]].
  - rewrite (prints_unique _ _ _ _ P (ftoa_nan t v C)). repeat constructor.
  - rewrite (prints_unique _ _ _ _ P (ftoa_inf t v C)). destruct (_ =? 1); repeat constructor.
  - rewrite (prints_unique _ _ _ _ P (ftoa_zero t v C)). repeat constructor.
  - destruct (ftoa_finite t v C) as (ds & K & lo & hi & A1 & A2 & A3 & A4 & A5 & A6 & A7 & A8 & A9 & A10 & A11).
    assert (HK : -500 <= K <= 500) by (clear - A5; destruct t; cbn [kmin kmax] in A5; lia).
    assert (Hn : zlen ds <= 17) by (clear - A4; destruct t; cbn [max_sig] in A4; lia).
    rewrite (prints_unique _ _ _ _ P A10). apply written_ascii. now apply shown_wf.
Qed.

(** the text 1234567890123456789012<euro sign in UTF-8>, with signed characters; with unsigned ones it is the image under [byte] *)
Definition euro : list Z := text "1234567890123456789012" ++ [-30; -126; -84; 0].
Definition byte (c : Z) : Z := if c <? 0 then c + 256 else c.
Ltac values := match goal with |- Forall ?P ?l => let l' := eval vm_compute in l in change (Forall P l') end; repeat (apply Forall_cons; [repeat split; vm_compute; congruence|]); apply Forall_nil.
Example C107_applies :
  Forall (fun c => in_type ct_char c /\ - 2 ^ 31 + 48 <= c) euro /\ Forall (fun c => in_type ct_uchar c /\ - 2 ^ 31 + 48 <= c) (map byte euro) /\
  (forall c, 0 <= c < 128 -> byte c = c) /\ (forall c, -128 <= c < 0 -> 128 <= byte c < 256) /\
  exists r, atof (fmt_of Double) euro true (fun _ e => Fault OutOfFuel) 0 = Ok r /\ at_str_end r = Some 22.
Proof.
  split; [values|]. split; [values|]. split; [intros c C; unfold byte; destruct (Z.ltb_spec c 0); lia|].
  split; [intros c C; unfold byte; destruct (Z.ltb_spec c 0); lia|]. eexists. split; [vm_compute; reflexivity|reflexivity].
Qed.
(** C107: the 48 smallest values of a signed 32-bit character type, right behind a digit beyond the ones kept, are undefined behaviour *)
Theorem C107_refuted_extreme_characters : forall t, exists s, Forall (in_type ct_wchar) s /\
  (exists r, atof (fmt_of t) s true (fun _ e => Ok {| fb_value := 0; fb_str_end := 0; fb_errno := e |}) 0 = Ok r) /\
  (forall want_end fb errno, atof_ct ct_wchar (fmt_of t) s want_end fb errno = Fault SignedOverflow).
Proof.
  intros t. exists (repeat 49 (match t with Float => 10 | Double => 20 end) ++ [- 2 ^ 31; 0]). split; [destruct t; values|].
  destruct t; (split; [eexists; vm_compute; reflexivity|intros we fb errno; vm_compute; reflexivity]).
Qed.
