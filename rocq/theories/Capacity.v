(** C105: the vector of digits never outgrows what is reserved for it. *)
From Coq Require Import ZArith Bool List Lia.
From Verif Require Import Machine MachineFacts Format DiyFp Chars Krosh Atof Spec ParseSpec Instances ReadStepsFacts Platform PlatformProps.
Import ListNotations.
Open Scope Z_scope.

(** krosh.h:238-362: the sizes [parsed_digits] has during the loop of [parse_digits], after every
    insert or push_back *)
Fixpoint sizes (kappa : nat) (s : list Z) (fuel : nat) (st : pstate) : list nat :=
  match fuel with
  | O => []
  | S n =>
      match read s (pd_pos st) with
      | Fault _ => []
      | Ok c =>
          (if (49 <=? c) && (c <=? 57) then [length (pd_digits (flush_zeros kappa st))] else []) ++
          match step_char kappa s st c with
          | Fault _ => []
          | Ok (st1, go) => length (pd_digits st1) :: (if go || (maximum_offset <? pd_pos st1) then [] else sizes kappa s n (set_pos (pd_pos st1 + 1) st1))
          end
      end
  end.
(** krosh.h:238-362 for a text of type [t] (a mantissa; for the exponent, krosh.h:487, [t] is Float) *)
Definition vector_sizes (t : ftype) (s : list Z) : list nat := sizes (decimal_q (fmt_of t)) s parse_fuel pstate_init.
(** krosh.h:239 [parsed_digits.reserve(kappa)] *)
Definition reserved (t : ftype) : nat := match t with Float => 9 | Double => 19 end.

Lemma sizes_bound : forall k s fuel st, Z.of_nat k < 1000 -> modest k st -> 0 <= pd_pos st <= 2049 -> Forall (fun n => (n <= k)%nat) (sizes k s fuel st).
Proof.
  intros k s. induction fuel as [|n IH]; intros st K M P; cbn [sizes]; [constructor|]. destruct (read s (pd_pos st)) as [c|]; [|constructor]. apply Forall_app. split.
  - destruct (_ && _); constructor; [|constructor]. destruct (flush_same 64 ltac:(lia) k st M ltac:(lia)) as [_ (_ & _ & F)]. exact F.
  - pose proof (step_char_same 64 ltac:(lia) k s st c K M ltac:(lia)) as S. destruct (step_char k s st c) as [[st1 go]|]; [|constructor]. destruct S as (_ & S2 & S3). constructor; [exact S3|].
    destruct go; cbn [orb]; [constructor|]. destruct (S2 eq_refl) as [M' E]. destruct (Z.ltb_spec maximum_offset (pd_pos st1)) as [G|G]; [constructor|]. rewrite E in *. unfold maximum_offset in G.
    apply IH; [exact K|exact M'|cbn [set_pos pd_pos]; lia].
Qed.
(** C105 *)
Theorem C105_no_reallocation : forall t s, Forall (fun n => (n <= reserved t)%nat) (vector_sizes t s).
Proof.
  intros t s. replace (reserved t) with (decimal_q (fmt_of t)) by (destruct t; reflexivity). unfold vector_sizes.
  apply sizes_bound; [destruct t; cbn; lia|unfold modest, pstate_init; cbn; lia|cbn; lia].
Qed.
(** C105: nothing of it is reserved in vain *)
Theorem C105_used : forall t, In (reserved t) (vector_sizes t (repeat 49 (reserved t) ++ [0])).
Proof. intros t. assert (existsb (Nat.eqb (reserved t)) (vector_sizes t (repeat 49 (reserved t) ++ [0])) = true) as E by (destruct t; vm_compute; reflexivity).
  apply existsb_exists in E as (x & I & E). apply Nat.eqb_eq in E. subst x. exact I. Qed.
