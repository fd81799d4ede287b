(** What the two directions of the conversion give, in terms of Flocq's IEEE 754. *)
From Coq Require Import Reals Lra String Ascii List.
From Flocq Require Import Core.
From Verif Require Import Machine DiyFp Krosh Atof Ftoa Spec ParseSpec Instances Api ParseApi CmpFacts RoundFacts
  FtoaFacts PrintProps PrintProps2 PrintProps3 DvalFacts GoodFallback ParseProps Refuted ParseExamples Ieee.
Import ListNotations.
Open Scope Z_scope.

Lemma value_sign : forall n m e, well_formed n -> value n = (IZR m * bpow radix2 e)%R ->
  (m < 0 -> is_minus (n_sign n) = true) /\ (0 < m -> is_minus (n_sign n) = false).
Proof.
  intros n m e W V. assert (A : (0 <= abs_value n)%R).
  { unfold abs_value. apply Rmult_le_pos; [apply IZR_le|apply bpow_ge_0].
    unfold coefficient. destruct W as (W1 & W2 & _). apply dval_bounds. apply Forall_app. auto. }
  unfold value in V. pose proof (bpow_gt_0 radix2 e) as B. split; intros M.
  - apply IZR_lt in M. destruct (is_minus (n_sign n)); [reflexivity|nra].
  - apply IZR_lt in M. destruct (is_minus (n_sign n)); [nra|reflexivity].
Qed.

(** C82: if the number in the text is [m * 2^e], the pattern atof returns is the one IEEE 754 rounding
    of [m * 2^e] gives. *)
Theorem C82_parsed : forall t n m e c rest fb errno, well_formed n -> ends_number c -> within_limits n ->
  short_decimal t n -> in_range t (value n) -> ~ carries t (value n) -> good_fallback t fb ->
  value n = (IZR m * bpow radix2 e)%R ->
  exists r, atof (fmt_of t) (written n ++ c :: rest) true fb errno = Ok r /\
    at_value r = ieee_round t m e (is_minus (n_sign n)).
Proof.
  intros t n m e c rest fb errno W Hc L S R NC G V.
  destruct (C29_correct_with_fallback t n c rest fb errno W Hc L S R NC G) as (r & E & C & _).
  exists r. split; [exact E|]. rewrite V in C. destruct (value_sign n m e W V) as [V1 V2].
  now apply C81_rounding.
Qed.

(** Whatever reads the text ftoa wrote and rounds it correctly gets the same bits back. *)
Theorem C82_any_reader : forall t v m w, nonzero t v -> well_formed m -> prints t v (written m) ->
  correctly_rounded t (is_minus (n_sign m)) (value m) w -> w = v.
Proof.
  intros t v m w N W P C. destruct (C01_reads_back t v m N W P) as (_ & _ & E).
  exact (C81_unique _ _ _ _ _ C E).
Qed.

(** 2^60 + 2^59 + 1 has nineteen digits *)
Definition b1 : numeral := num NoSign [1;7;2;9;3;8;2;2;5;6;9;1;0;2;7;0;4;6;5] None.
Example C82_at_work : exists r, atof (fmt_of Double) (cstr "1729382256910270465") true (reference_fallback Double) 0 = Ok r /\
  at_value r = ieee_round Double 1729382256910270465 0 false /\
  ieee_round Double 1729382256910270465 0 false = 4879650196255932416.
Proof.
  assert (W : well_formed b1) by wfn. assert (F : finite Double 4879650196255932416) by fin.
  destruct (meets_range Double b1 4879650196255932416 W F) as [A B]; [vm_compute; reflexivity|vm_compute; congruence|vm_compute; congruence|].
  destruct (C82_parsed Double b1 1729382256910270465 0 0 [] (reference_fallback Double) 0 W nul_ends) as (r & E & V); [lim| |exact A|exact B|apply good_fallback_exists| |].
  - exists 1729382256910270465, 0. split; [vm_compute; split; congruence|]. split; [lia|]. split; [reflexivity|discriminate].
  - unfold value, abs_value. change (is_minus (n_sign b1)) with false. change (coefficient b1) with 1729382256910270465.
    change (scale b1) with 0. cbn [bpow]. reflexivity.
  - exists r. split; [exact E|]. split; [exact V|]. vm_compute. reflexivity.
Qed.
