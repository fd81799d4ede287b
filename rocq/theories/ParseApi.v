(** The parsing entry point as the theorems talk about it. *)
From Coq Require Import Reals.
From Flocq Require Import Core.
From Verif Require Import Machine DiyFp Krosh Atof Spec ParseSpec Instances.
Open Scope Z_scope.

(** What atof hands to its caller when it does not call the fallback: value, status, and
    the number of characters consumed (stored through a non-null [str_end] only);
    errno is left alone. *)
Definition answer (want_end : bool) (errno : Z) (v : Z) (st : conversion_status) (len : Z) : atof_result :=
  {| at_value := v; at_status := st; at_str_end := if want_end then Some len else None;
     at_errno := errno; at_used_fallback := false |}.

(** What atof hands to its caller when the fallback decides: its value, the end it found,
    the errno it left, and a status read off errno. *)
Definition fallback_answer (t : ftype) (s : list Z) (want_end : bool) (fb : fallback) (errno : Z) : res atof_result :=
  match fb s errno with
  | Fault f => Fault f
  | Ok r => Ok {| at_value := fb_value r; at_status := check_errno (fmt_of t) (fb_errno r) (fb_value r);
                  at_str_end := if want_end then Some (fb_str_end r) else None;
                  at_errno := fb_errno r; at_used_fallback := true |}
  end.

(** below the normal numbers of the type *)
Definition below_normal (t : ftype) (x : R) : Prop := (Rabs x < bpow radix2 (min_exp t + precision t - 1))%R.

(** A fallback that does for every number text what strtod is specified to do for results
    in the range of the type: consumes the number, rounds it correctly, and leaves errno
    alone -- but, as the C standard allows and glibc does, it may set errno to ERANGE when the
    value is below the normal numbers. *)
Definition good_fallback (t : ftype) (fb : fallback) : Prop :=
  forall n c rest errno, well_formed n -> ends_number c -> in_range t (value n) ->
    exists r, fb (written n ++ c :: rest)%list errno = Ok r /\
      (fb_errno r = errno \/ fb_errno r = ERANGE /\ below_normal t (value n)) /\
      fb_str_end r = Z.of_nat (length (written n)) /\
      correctly_rounded t (is_minus (n_sign n)) (value n) (fb_value r).

(** lengths as offsets *)
Definition len (s : list Z) : Z := Z.of_nat (length s).
