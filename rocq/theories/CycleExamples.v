(** Concrete cases for C100. *)
From Coq Require Import ZArith List String Ascii Lia.
From Verif Require Import Machine Format DiyFp Ftoa Krosh Atof Spec ParseSpec ParseApi Instances GoodFallback WholeSpec ShowSpec Whole ShownText CycleSpec Cycle PowerTrip.
Import ListNotations.
Open Scope Z_scope.

(** 2^-997 is printed as 7.466108948025751e-301, which is read as 2^-998; that one stays *)
Example C100_once : shown_text Double (26 * 2 ^ 52) = text "7.466108948025751e-301" /\ read_text Double (shown_text Double (26 * 2 ^ 52)) = Returns (25 * 2 ^ 52) success 22 /\
  read_text Double (shown_text Double (25 * 2 ^ 52)) = Returns (25 * 2 ^ 52) success 23.
Proof. split; [|split]; vm_compute; reflexivity. Qed.
(** the theorem applies: such fallbacks exist (C65), and 1.5 is a value that never changes *)
Lemma comes_back : forall v w k, pattern Double v -> read_text Double (shown_text Double v) = Returns w success k -> becomes Double v w.
Proof. intros v w k P R. exact (special_becomes Double v _ w success k P eq_refl R). Qed.
Lemma one_and_half : read_text Double (shown_text Double 4609434218613702656) = Returns 4609434218613702656 success 3.
Proof. vm_compute. reflexivity. Qed.
Example C100_applies : exists fb, good_fallback Double fb /\ (forall errno n, passes Double fb n 4609434218613702656 errno = Ok 4609434218613702656) /\
  (forall errno, passes Double fb 7 (26 * 2 ^ 52) errno = Ok (25 * 2 ^ 52)).
Proof.
  exists (reference_fallback Double). pose proof (good_fallback_exists Double) as G. set (fb := reference_fallback Double) in *. split; [exact G|]. destruct C100_once as (_ & O1 & O2).
  assert (P1 : pattern Double (26 * 2 ^ 52)) by (split; vm_compute; congruence). assert (P2 : pattern Double (25 * 2 ^ 52)) by (split; vm_compute; congruence).
  split; intros errno.
  - intros n. apply passes_kept; [|exact G]. apply (comes_back _ _ 3); [split; vm_compute; congruence|exact one_and_half].
  - destruct (passes_step Double (26 * 2 ^ 52) (25 * 2 ^ 52) fb 6 errno (comes_back _ _ _ P1 O1) G) as (errno' & ->).
    exact (passes_kept _ _ (comes_back _ _ _ P2 O2) fb _ _ G).
Qed.
