(** C80 with concrete values: the longest texts. *)
From Coq Require Import String Ascii Reals List.
From Flocq Require Import Core.
From Verif Require Import Machine Format Ftoa Spec Instances Api PrintProps PrintProps3 PrintExamples Tight.
Open Scope Z_scope.

Definition longest (t : ftype) : Z := match t with Float => 2962764523 | Double => 9225522844292335218 end.
Definition longest_text (t : ftype) : list Z :=
  text (match t with Float => "-0.0000000011073927" | Double => "-1.0626400657179466e-308" end)%string.

Lemma longest_printed : forall t, pattern t (longest t) /\ prints t (longest t) (longest_text t).
Proof.
  intros t. split; [destruct t; split; [discriminate|reflexivity|discriminate|reflexivity]|].
  destruct t; pr.
Qed.

(** ... and no smaller number of characters is always enough. *)
Theorem C80_no_less : forall t buf, Z.of_nat (length buf) < enough_room t ->
  exists f, ftoa (fmt_of t) (longest t) buf = Fault f.
Proof.
  intros t buf L. destruct (longest_printed t) as [P S].
  apply (C80_room t _ _ buf P S). destruct t; cbn in L |- *; lia.
Qed.

Example C80_at_work : ftoa double 4609434218613702656 [9;9;9;9;9] = Ok ([49;46;53;0;9], 3) /\
  exists f, ftoa double 4609434218613702656 [9;9;9] = Fault f.
Proof.
  assert (P : pattern Double 4609434218613702656) by (split; [discriminate|reflexivity]).
  assert (S : prints Double 4609434218613702656 (text "1.5")) by pr.
  split; [refine (proj1 (C80_room Double _ _ [9;9;9;9;9] P S) _); cbn; lia|].
  refine (proj2 (C80_room Double _ _ [9;9;9] P S) _). cbn. lia.
Qed.
