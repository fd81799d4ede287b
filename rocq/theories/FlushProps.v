(** C112: processors that treat denormal operands as zeros. *)
From Coq Require Import Reals Lra Lia ZArith Bool List String.
From Flocq Require Import Core.
From Verif Require Import Machine MachineFacts Format DiyFp KComp Chars Grisu Ftoa Krosh Atof Evaluation Flushed Spec EvalSpec ParseSpec Api ParseApi Instances DiyFacts FtoaFacts BoundFacts DiyProps PrintProps EvalProps.
Open Scope Z_scope.
 
(** below the normal numbers, but not zero *)
Definition denormal (t : ftype) (v : Z) : Prop := nonzero t v /\ exp_field t v = 0.

Lemma fmb_precision : forall t, fmb (fmt_of t) = precision t - 1.
Proof. destruct t; reflexivity. Qed.
Lemma operand_eq : forall t v, pattern t v -> operand (fmt_of t) v = if exp_field t v =? 0 then v - frac_field t v else v.
Proof.
  intros t v H. unfold operand. rewrite abs_bits_eq by exact H. rewrite fmb_precision, Z.shiftr_div_pow2 by (destruct t; cbn; lia).
  pose proof (frac_field_range t v) as F. pose proof (exp_field_range t v) as E.
  rewrite Z.div_add_l, (Z.div_small (frac_field t v)), Z.add_0_r by lia.
  destruct (Z.eqb_spec (exp_field t v) 0) as [E0|]; [|reflexivity]. rewrite E0. lia.
Qed.
Lemma operand_other : forall t v, pattern t v -> ~ denormal t v -> operand (fmt_of t) v = v.
Proof.
  intros t v H N. rewrite operand_eq by exact H. destruct (Z.eqb_spec (exp_field t v) 0) as [E|]; [|reflexivity].
  destruct (Z.eq_dec (frac_field t v) 0) as [F|F]; [lia|]. destruct N. split; [|exact E]. split; [split; [exact H|rewrite E; destruct t; discriminate]|].
  intros (_ & _ & C). contradiction.
Qed.
Lemma operand_denormal : forall t v, denormal t v -> zero t (operand (fmt_of t) v).
Proof.
  intros t v [[[H _] _] E]. rewrite operand_eq, E by exact H. cbn [Z.eqb].
  pose proof (frac_field_range t v) as F. destruct (pattern_split t v H) as [_ S]. 
  assert (D : v - frac_field t v = v / 2 ^ (precision t - 1) * 2 ^ (precision t - 1)).
  { unfold frac_field. rewrite (Z.div_mod v (2 ^ (precision t - 1))) at 1 by lia. ring. }
  assert (P : 0 < 2 ^ (precision t - 1)) by lia.
  split; [unfold pattern in *; rewrite D in *; split; [apply Z.mul_nonneg_nonneg; [apply Z.div_pos|]; lia|lia]|].
  rewrite D. split; [unfold exp_field in *; rewrite Z.div_mul by lia; exact E|]. unfold frac_field. now rewrite Z.mod_mul by lia.
Qed.

(** C112: A denormal value is printed "0", as zero is; the minus sign is lost. *)
Theorem C112_denormals : forall t v buf k_comp, denormal t v -> ftoa_flushed k_comp (fmt_of t) v buf = ftoa (fmt_of t) 0 buf.
Proof.
  intros t v buf k D. pose proof (operand_denormal t v D) as Z. pose proof (proj1 Z) as P. unfold ftoa_flushed.
  destruct (is_nan (fmt_of t) (operand (fmt_of t) v)) eqn:E1; [apply is_nan_spec in E1 as (_ & E1 & _); [|exact P]; destruct Z as (_ & Z & _); rewrite Z in E1; destruct t; discriminate|].
  destruct (is_inf (fmt_of t) (operand (fmt_of t) v)) eqn:E2; [apply is_inf_spec in E2 as (_ & E2 & _); [|exact P]; destruct Z as (_ & Z & _); rewrite Z in E2; destruct t; discriminate|].
  apply is_zero_spec in Z; [|exact P]. rewrite Z. destruct t; reflexivity.
Qed.
(** C112: Every other value is printed as always, whatever the rounding mode is. *)
Theorem C112_others : forall t v buf c mul add, pattern t v -> ~ denormal t v -> converted c -> rounding mul -> rounding add ->
  ftoa_flushed (k_comp_as c mul add) (fmt_of t) v buf = ftoa (fmt_of t) v buf.
Proof.
  intros t v buf c mul add P N HC HM HA. rewrite <- (C102_same_text t v buf c mul add P HC HM HA). unfold ftoa_flushed. rewrite operand_other by assumption. reflexivity.
Qed.

(** C112: Reading gives the same value (a denormal one, too), end and errno, and calls the fallback in the same cases; the same texts
    are undefined behaviour.  The status is the same, too, except for a denormal result of a fallback that sets errno to ERANGE: it
    counts as underflow then, and as overflow otherwise. *)
Theorem C112_reading : forall t s want fb errno, (forall x e r, fb x e = Ok r -> pattern t (fb_value r)) ->
  match atof (fmt_of t) s want fb errno, atof_flushed (fmt_of t) s want fb errno with
  | Ok r, Ok r' =>
      at_value r' = at_value r /\ at_str_end r' = at_str_end r /\ at_errno r' = at_errno r /\ at_used_fallback r' = at_used_fallback r /\
      (at_status r' = at_status r /\ ~ (at_used_fallback r = true /\ at_errno r = ERANGE /\ denormal t (at_value r)) \/
       (at_used_fallback r = true /\ at_errno r = ERANGE /\ denormal t (at_value r)) /\ at_status r = overflow /\ at_status r' = underflow)
  | Fault f, Fault f' => f = f'
  | _, _ => False
  end.
Proof.
  intros t s want fb errno FB. unfold atof, atof_flushed. destruct (krosh (fmt_of t) s) as [cr|]; [|reflexivity]. cbn [bind].
  destruct (negb (kr_str_end cr =? 0)); [destruct (kr_is_accurate cr)|].
  1,3: cbn; repeat split; left; split; [reflexivity|]; intros [C _]; discriminate.
  destruct (fb s errno) as [r|] eqn:EF; [|reflexivity]. apply FB in EF. cbn [bind at_value at_str_end at_errno at_used_fallback at_status]. repeat split.
  unfold check_errno, check_errno_flushed. destruct (Z.eqb_spec (fb_errno r) ERANGE) as [E|E]; cbn [negb]; [|left; split; [reflexivity|tauto]].
  destruct (Z.eqb_spec (exp_field t (fb_value r)) 0) as [X|X].
  - destruct (Z.eq_dec (frac_field t (fb_value r)) 0) as [Y|Y].
    + left. assert (N : ~ denormal t (fb_value r)) by (intros [[_ C] _]; apply C; split; [exact EF|split; assumption]).
      rewrite operand_other by assumption. split; [reflexivity|tauto].
    + right. assert (D : denormal t (fb_value r)).
      { split; [|exact X]. split; [split; [exact EF|rewrite X; destruct t; discriminate]|]. intros (_ & _ & C). contradiction. }
      split; [tauto|]. pose proof (operand_denormal _ _ D) as Z. apply is_zero_spec in Z; [|apply Z]. rewrite Z.
      destruct (is_zero (fmt_of t) (fb_value r)) eqn:Q; [apply is_zero_spec in Q as (_ & _ & Q); [contradiction|exact EF]|]. split; reflexivity.
  - left. assert (N : ~ denormal t (fb_value r)) by (intros [_ C]; contradiction). rewrite operand_other by assumption. split; [reflexivity|tauto].
Qed.

(** C112: Saving and loading turns every denormal value into zero, although the text of every denormal value is still read as it was. *)
Theorem C112_lost : forall t v k_comp fb errno, denormal t v ->
  exists buf n, ftoa_flushed k_comp (fmt_of t) v (List.repeat 0 (Z.to_nat (max_buffer_size (fmt_of t)))) = Ok (buf, n) /\
    atof_flushed (fmt_of t) buf true fb errno = Ok (answer true errno 0 success 1).
Proof.
  intros t v k fb errno D. rewrite C112_denormals by exact D.
  destruct t; (eexists; eexists; split; [vm_compute; reflexivity|]); unfold atof_flushed;
  match goal with |- context [krosh ?T ?s] => let r := eval vm_compute in (krosh T s) in replace (krosh T s) with r by (vm_compute; reflexivity) end; reflexivity.
Qed.

(** Cases: the smallest negative double is printed 0, the smallest normal double is printed as always *)
Example C112_denormal : denormal Double (2 ^ 63 + 1).
Proof. split; [|reflexivity]. repeat split; try (vm_compute; congruence). intros (_ & _ & C). vm_compute in C. discriminate. Qed.
Example C112_no_denormal : pattern Double (2 ^ 52) /\ ~ denormal Double (2 ^ 52) /\ exists b n, ftoa_flushed k_comp_exp double (2 ^ 52) (List.repeat 0 25) = Ok (b, n) /\ List.firstn (Z.to_nat n) b = text "2.2250738585072016e-308".
Proof.
  split; [split; vm_compute; congruence|]. split; [intros [_ C]; vm_compute in C; discriminate|].
  eexists. eexists. split; vm_compute; reflexivity.
Qed.
(** a fallback that answers the smallest double and sets errno *)
Definition tiny : fallback := fun s e => Ok {| fb_value := 1; fb_str_end := 7; fb_errno := ERANGE |}.
Example C112_status_changes : forall errno,
  exists r r', atof double (text "0.3932922657273" ++ [0])%list true tiny errno = Ok r /\ atof_flushed double (text "0.3932922657273" ++ [0])%list true tiny errno = Ok r' /\ at_status r = overflow /\ at_status r' = underflow.
Proof.
  intros errno. unfold atof, atof_flushed.
  match goal with |- context [krosh ?T ?s] => let r := eval vm_compute in (krosh T s) in replace (krosh T s) with r by (vm_compute; reflexivity) end.
  eexists. eexists. split; [reflexivity|]. split; [reflexivity|]. split; reflexivity.
Qed.
