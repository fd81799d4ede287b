(** Concrete texts that meet the hypotheses of C73 and C74. *)
From Coq Require Import Lia ZArith List String Ascii.
From Verif Require Import Machine Format DiyFp Krosh Atof Ftoa Print Spec ParseSpec TextSpec Api ParseApi Instances
  Refuted ParseExamples MarkerExamples TruncateExamples Defined.
Import ListNotations.
Open Scope Z_scope.

Ltac bare_tac := split; [reflexivity|]; split; repeat constructor; unfold digit; lia.
Ltac cannot_tac := split; [unfold between; vm_compute; intuition congruence|]; split; [intros; discriminate|]; split; intros; discriminate.

Lemma all_taken : forall x, bare x -> (List.length (mantissa_text x) <= parser_limit)%nat -> part_taken x x.
Proof. intros x B L. split; [exact B|]. split; [reflexivity|]. left. auto. Qed.

(** 12.5E-20.0. : the exponent is -20, the second point ends it *)
Definition d1 : numeral := num Minus [2;0] (Some [0]).
Definition k1' : numeral := nume NoSign [1;2] (Some [5]) Minus [2;0].
Example C73_applied_meets :
  mantissa_text k1 ++ code "E" :: mantissa_text d1 ++ code "." :: [0] = text "12.5E-20.0." ++ [0] /\
  bare k1 /\ coefficient k1 <> 0 /\ (List.length (mantissa_text k1) <= parser_limit)%nat /\ e_letter (code "E") /\
  bare d1 /\ cannot_continue d1 (code ".") /\ part_taken d1 d1 /\ exponent_read d1 (-20) /\
  well_formed k1' /\ n_sign k1' = n_sign k1 /\ n_int k1' = n_int k1 /\ n_frac k1' = n_frac k1 /\
  exponent_value k1' = -20 /\ small_exponent k1' /\ within_limits k1'.
Proof.
  split; [reflexivity|]. split; [bare_tac|]. split; [vm_compute; congruence|]. split; [apply Nat.leb_le; vm_compute; reflexivity|].
  split; [right; reflexivity|]. split; [bare_tac|]. split; [cannot_tac|].
  split; [apply all_taken; [bare_tac|apply Nat.leb_le; vm_compute; reflexivity]|].
  split. { right. exists 2, 1, 20. split.
    { split; [vm_compute; intuition congruence|]. exists 2, 0. split; [lia|]. split; [reflexivity|]. split; [reflexivity|]. left. split; [reflexivity|discriminate]. }
    split; [lia|]. split; [split; [exists 0; reflexivity|lia]|]. split; [reflexivity|lia]. }
  split; [wfn|]. do 4 (split; [reflexivity|]). split; [vm_compute; reflexivity|lim].
Qed.
Example C73_at_work : forall want fb errno,
  atof double (cstr "12.5E-20.0.") want fb errno = Ok (answer want errno 4324144339506840492 success 10) /\
  atof double (cstr "12.5E-20") want fb errno = Ok (answer want errno 4324144339506840492 success 8).
Proof. intros. split; run. Qed.

(** 12.5E and 2060 zeros and 99: the nines are not seen, the exponent is 0, 2049 zeros are consumed *)
Definition d2 : numeral := num NoSign (repeat 0 2060 ++ [9;9]) None.
Definition d2' : numeral := num NoSign (repeat 0 2050) None.
Example C73_cut_meets : bare d2 /\ part_taken d2 d2' /\ exponent_read d2' 0 /\ cannot_continue d2 0.
Proof.
  assert (B : bare d2).
  { split; [reflexivity|]. split; [|constructor]. cbn [d2 num n_int]. apply Forall_app. split; [apply digits_repeat; unfold digit; lia|repeat constructor; unfold digit; lia]. }
  split; [exact B|]. split.
  { split. { split; [reflexivity|]. split; [|constructor]. cbn [d2' num n_int]. apply digits_repeat. unfold digit. lia. }
    split; [reflexivity|]. right. split; [apply Nat.ltb_lt; vm_compute; reflexivity|]. split; [vm_compute; reflexivity|].
    exists (skipn 2050 (mantissa_text d2)). vm_compute. reflexivity. }
  split; [left; split; [vm_compute; reflexivity|reflexivity]|]. cannot_tac.
Qed.

(** 12.5E99999 *)
Definition d3 : numeral := num NoSign [9;9;9;9;9] None.
Example C73_far_meets : bare d3 /\ cannot_continue d3 0 /\ part_taken d3 d3 /\ exponent_read d3 99999 /\ exponent_fits Double k1 d3.
Proof.
  assert (R : exponent_read d3 99999).
  { right. exists 99999, 0, 99999. split.
    { split; [vm_compute; intuition congruence|]. exists 0, 0. split; [lia|]. split; [reflexivity|]. split; [reflexivity|]. left. split; [reflexivity|discriminate]. }
    split; [lia|]. split; [split; [exists 0; reflexivity|lia]|]. split; [reflexivity|lia]. }
  split; [bare_tac|]. split; [cannot_tac|].
  split; [apply all_taken; [bare_tac|apply Nat.leb_le; vm_compute; reflexivity]|]. split; [exact R|].
  exists 125, (-1), 99999. split; [|split; [exact R|lia]].
  split; [vm_compute; intuition congruence|]. exists 0, 0. split; [lia|]. split; [reflexivity|]. split; [reflexivity|]. left. split; [reflexivity|discriminate].
Qed.

(** 12.5E5.5: undefined *)
Definition d4 : numeral := num NoSign [5] (Some [5]).
Example C74_unfit_meets : forall t, has_unfit_exponent t (text "12.5E5.5").
Proof.
  intros t. exists k1, (code "E"), d4, d4, []. split; [reflexivity|]. split; [bare_tac|]. split; [vm_compute; congruence|].
  split; [apply Nat.leb_le; vm_compute; reflexivity|]. split; [right; reflexivity|]. split; [bare_tac|]. split; [cannot_tac|].
  split; [apply all_taken; [bare_tac|apply Nat.leb_le; vm_compute; reflexivity]|].
  intros (d & K & E & _ & [[C _]|(d' & k & m & P & B & _)] & _); [discriminate C|].
  assert (P' : point_moved Float d4 55 (-1)).
  { split; [vm_compute; intuition congruence|]. exists 0, 0. split; [lia|]. split; [reflexivity|]. split; [reflexivity|]. left. split; [reflexivity|discriminate]. }
  destruct (moved_unique _ _ _ _ _ _ P P') as [_ ->]. lia.
Qed.
Example C74_at_work : forall t, exists f, forall rest want fb errno, atof (fmt_of t) (text "12.5E5.5" ++ 0 :: rest) want fb errno = Fault f.
Proof. intros t. apply C74_undefined_exactly, C74_unfit_meets. Qed.

(** 1e5 is tame; so is every text without the letter e *)
Example C74_tame_meets : forall u mk w, text "-12.5e-007;1E99" = u ++ mk :: w -> e_letter mk -> tame_exponent w.
Proof.
  intros u mk w E H.
  assert (S : w = text "-007;1E99" \/ w = text "99").
  { change (text "-12.5e-007;1E99") with [45;49;50;46;53;101;45;48;48;55;59;49;69;57;57] in E.
    change (text "-007;1E99") with [45;48;48;55;59;49;69;57;57]. change (text "99") with [57;57].
    assert (H' : mk = 101 \/ mk = 69) by exact H.
    repeat (destruct u as [|? u]; [injection E as <- E; destruct H' as [H'|H']; try discriminate H'; auto|injection E as _ E]).
    destruct u; discriminate E. }
  destruct S as [-> | ->].
  - exists Minus, [0;0;7], (text ";1E99"). split; [reflexivity|]. split; [repeat constructor; unfold digit; lia|]. split; [cbn; lia|].
    split; [right; discriminate|]. unfold between. vm_compute. intuition congruence.
  - exists NoSign, [9;9], []. split; [reflexivity|]. split; [repeat constructor; unfold digit; lia|]. split; [cbn; lia|].
    split; [right; discriminate|]. unfold between. vm_compute. intuition congruence.
Qed.
