(** Concrete cases for C102. *)
From Coq Require Import Reals Lra ZArith List String Ascii Lia.
From Flocq Require Import Core.
From Verif Require Import Machine Format DiyFp KComp Ftoa Evaluation Spec EvalSpec Api Instances EvalProps.
Import ListNotations.
Open Scope Z_scope.

(** the evaluations meant: binary64 towards zero, upwards, downwards; x87 extended precision to nearest; a fused multiply-add *)
Definition binary64 (rnd : R -> Z) : R -> R := round radix2 (FLT_exp (-1074) 53) rnd.
Definition extended : R -> R := round radix2 (FLT_exp (-16445) 64) ZnearestE.
Definition lg_2 : R := (30102999566398114 / 100000000000000000)%R.

Example C102_applies :
  converted (binary64 Ztrunc lg_2) /\ converted (binary64 Zceil lg_2) /\ converted (binary64 ZnearestE lg_2) /\ converted (extended lg_2) /\
  rounding (binary64 Ztrunc) /\ rounding (binary64 Zceil) /\ rounding (binary64 Zfloor) /\ rounding (binary64 ZnearestE) /\ rounding extended /\ rounding (fun y => y).
Proof.
  destruct C102_roundings as [R1 R2].
  unfold binary64, extended, lg_2. repeat match goal with |- _ /\ _ => split end; try exact R2; (apply C102_constants || apply R1); try lia; typeclasses eauto.
Qed.

(** 0.1 rounded upwards in extended precision, and 2^-1074 with a fused multiply-add rounded towards zero *)
Example C102_a_tenth : to_basic_string_with (k_comp_as (extended lg_2) (binary64 Zceil) (binary64 Zceil)) (fmt_of Double) 4591870180066957722 = Ok (text "0.1").
Proof.
  destruct C102_applies as (_ & _ & _ & E & _ & U & _).
  rewrite (C102_same_string Double 4591870180066957722 _ _ _ ltac:(split; vm_compute; congruence) E U U). vm_compute. reflexivity.
Qed.
Example C102_smallest : to_basic_string_with (k_comp_as (binary64 Ztrunc lg_2) (fun y => y) (binary64 Ztrunc)) (fmt_of Double) 1 = Ok (text "7.41098468e-324").
Proof.
  destruct C102_applies as (E & _ & _ & _ & Z0 & _ & _ & _ & _ & F).
  rewrite (C102_same_string Double 1 _ _ _ ltac:(split; vm_compute; congruence) E F Z0). vm_compute. reflexivity.
Qed.

(** the precision matters: with the constant 0.3 another power is taken *)
Example C102_needed : k_comp_as (3 / 10) (fun y => y) (fun y => y) (-35) (-1137) <> k_comp_exp (-35) (-1137).
Proof.
  replace (k_comp_exp (-35) (-1137)) with (@Ok Z 332) by (vm_compute; reflexivity).
  unfold k_comp_as. change (sint (-35 - -1137 - 1)) with (@Ok Z 1101). cbn [bind]. change (IZR (b2z (-1137 + 1 <? -35))) with 1%R.
  replace (Ztrunc _) with 331; [discriminate|]. symmetry. rewrite Ztrunc_floor by lra. apply Zfloor_imp. rewrite plus_IZR. lra.
Qed.
