(** Concrete cases for C95. *)
From Coq Require Import ZArith List Lia String Ascii Bool.
From Verif Require Import Machine Ftoa Spec ParseSpec Instances Api DvalFacts TableFacts PrintExamples ExactSpec PrintSpec PrintFacts PrintExact.
Import ListNotations.
Open Scope Z_scope.

Lemma power_by : forall t v k, ten_above_b (- (width t / 2 + 3) - snd (top t v) - 1) k = true -> power_for t v k.
Proof. intros. now apply ten_above_ok. Qed.

Definition enough_b (u l o i : Z) : bool := (10 ^ i * u) mod o <=? 10 ^ i * (u - l).
Lemma places_by : forall t v k i, (0 <=? i) && enough_b (upper t v k) (lower t v k) (one t v k) i &&
  forallb (fun j => negb (enough_b (upper t v k) (lower t v k) (one t v k) j)) (zrange 0 (i - 1)) = true -> places t v k i.
Proof.
  intros t v k i H. apply andb_true_iff in H as [H H3]. apply andb_true_iff in H as [H1 H2]. apply Z.leb_le in H1, H2.
  split; [exact H1|]. split; [exact H2|]. intros j Hj C. pose proof (zrange_forall _ _ _ H3 j ltac:(lia)) as N.
  apply negb_true_iff in N. apply Z.leb_gt in N. unfold enough in C. lia.
Qed.

Ltac meets := split; [repeat split; try (vm_compute; congruence); intros (_ & C & D); revert C D; vm_compute; congruence|];
  split; [apply power_by; vm_compute; reflexivity|]; split; [apply places_by; vm_compute; reflexivity|];
  repeat split; try (repeat constructor; unfold digit; lia); vm_compute; congruence.
Definition met (t : ftype) (v k i : Z) (ds : list Z) (z : Z) : Prop :=
  nonzero t v /\ power_for t v k /\ places t v k i /\ decimal (digits_of t v k i) ds z.

(** 0.1, as double and (with a sign) as float: cut off at the point, and zeros left out *)
Example C95_meets_tenth : met Double 0x3FB999999999999A 10 0 [1] 9 /\ met Float 0xBDCCCCCD 5 0 [1] 4.
Proof. split; meets. Qed.
(** 2^-26: eight more digits *)
Example C95_meets_power : met Double 4490088828488384512 16 8 [1;4;9;0;1;1;6;1;1;9;3;8;4;7;6;5;7] 0.
Proof. meets. Qed.
(** the smallest denormal *)
Example C95_meets_smallest : met Double 1 332 0 [7;4;1;0;9;8;4;6;8] 0.
Proof. meets. Qed.
(** 10^16 and the float next to pi *)
Example C95_meets_large : met Double 0x4341C37937E08000 (-7) 0 [1] 9 /\ met Float 0x40490fdb 4 3 [3;1;4;1;5;9;2;8] 0.
Proof. split; meets. Qed.

Example C95_runs :
  written (layout (sign_of_value Float 0xBDCCCCCD) [1] (4 - 5 - 0)) = text "-0.1" /\
  written (layout (sign_of_value Double 4490088828488384512) [1;4;9;0;1;1;6;1;1;9;3;8;4;7;6;5;7] (0 - 16 - 8)) = text "1.4901161193847657e-08" /\
  written (layout (sign_of_value Double 1) [7;4;1;0;9;8;4;6;8] (0 - 332 - 0)) = text "7.41098468e-324" /\
  written (layout (sign_of_value Double 0x4341C37937E08000) [1] (9 - -7 - 0)) = text "1e16" /\
  written (layout (sign_of_value Float 0x40490fdb) [3;1;4;1;5;9;2;8] (0 - 4 - 3)) = text "3.1415928".
Proof. vm_compute. repeat split. Qed.
