(** Concrete cases for C94. *)
From Coq Require Import ZArith List Lia String Ascii.
From Verif Require Import Machine Krosh Atof Spec ParseSpec SameSpec ParseApi Instances ParseFacts GapFacts ShortFacts LocalFacts DiyFp CmpFacts TableFacts Refuted ParseExamples SameExamples ExactSpec Exact.
Open Scope Z_scope.

Ltac parts_of := split; [|split]; [wfn|lim|split; [apply small_readable; vm_compute; reflexivity|]].
Definition meets (t : ftype) (n : numeral) (d K T : Z) : Prop :=
  well_formed n /\ within_limits n /\ readable_exponent n /\ point_moved t n d K /\ looked_at t n d K T.

(** pi: 19 digits, and 4626 behind them *)
Example C94_meets_pi : meets Double s1 3141592653589793238 (-18) 4626.
Proof.
  parts_of. split.
  - split; [vm_compute; split; reflexivity|]. exists 7, 4626433. repeat split; try (vm_compute; congruence). right. vm_compute. repeat split; congruence.
  - exists 7, 4626433. vm_compute. repeat split; congruence.
Qed.
(** as a float: 9 digits, and 3589 behind them *)
Example C94_meets_pi_float : meets Float s1 314159265 (-8) 3589.
Proof.
  parts_of. split.
  - split; [vm_compute; split; reflexivity|]. exists 17, 35897932384626433. repeat split; try (vm_compute; congruence). right. vm_compute. repeat split; congruence.
  - exists 17, 35897932384626433. vm_compute. repeat split; congruence.
Qed.
(** -12345678901234567898.5e-3: 20 digits before the point, so that the 5 behind it is not seen *)
Definition x1 : numeral := nume Minus [1;2;3;4;5;6;7;8;9;0;1;2;3;4;5;6;7;8;9;8] (Some [5]) Minus [3].
Example C94_meets_point : meets Double x1 1234567890123456789 (-2) 8000.
Proof.
  parts_of. split.
  - split; [vm_compute; split; reflexivity|]. exists 2, 85. repeat split; try (vm_compute; congruence). right. vm_compute. repeat split; congruence.
  - exists 1, 8. vm_compute. repeat split; congruence.
Qed.
(** 2^53 + 1 lies half way between two values *)
Definition x2 : numeral := num NoSign [9;0;0;7;1;9;9;2;5;4;7;4;0;9;9;3] None.
Example C94_meets_tie : meets Double x2 9007199254740993 0 0.
Proof.
  parts_of. split.
  - split; [vm_compute; split; reflexivity|]. exists 0, 0. repeat split; try (vm_compute; congruence). left. vm_compute. repeat split; congruence.
  - exists 0, 0. vm_compute. repeat split; congruence.
Qed.
(** beyond the table *)
Definition x3 : numeral := nume Minus [7] None NoSign [3;5;0].
Example C94_meets_beyond : meets Double x3 7 350 0.
Proof.
  parts_of. split.
  - split; [vm_compute; split; reflexivity|]. exists 0, 0. repeat split; try (vm_compute; congruence). left. vm_compute. repeat split; congruence.
  - exists 0, 0. vm_compute. repeat split; congruence.
Qed.

(** what comes of them *)
Example C94_readings :
  read_exactly Double false 3141592653589793238 (-18) 4626 = Sure 0x400921fb54442d18 success /\
  read_exactly Float false 314159265 (-8) 3589 = Sure 0x40490fdb success /\
  read_exactly Double true 1234567890123456789 (-2) 8000 = Sure 0xc345ee2a2eb5a5c4 success /\
  read_exactly Double false 9007199254740993 0 0 = Unsure /\
  read_exactly Double true 7 350 0 = Sure 0x7ff0000000000000 overflow.
Proof. vm_compute. repeat split. Qed.

(** ... and the model does the same *)
Example C94_runs : forall want fb errno,
  atof (fmt_of Double) (cstr "3.1415926535897932384626433") want fb errno = Ok (answer want errno 0x400921fb54442d18 success 27) /\
  atof (fmt_of Double) (cstr "-12345678901234567898.5e-3") want fb errno = Ok (answer want errno 0xc345ee2a2eb5a5c4 success 26) /\
  atof (fmt_of Double) (cstr "-7e350") want fb errno = Ok (answer want errno 0x7ff0000000000000 overflow 6).
Proof. intros. split; [|split]; vm_compute; reflexivity. Qed.
