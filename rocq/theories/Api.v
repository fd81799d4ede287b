(** The entry points of the library as the theorems talk about them. *)
From Verif Require Import Machine Format Ftoa Spec Instances.
Open Scope Z_scope.

(** ftoa writes the text [s] for the value [v]: given any buffer of at least
    max_buffer_size characters, whatever it contains, the call ends without a fault,
    the buffer then holds [s], a NUL, and after that what it held before, and the
    length of [s] is returned. *)
Definition prints (t : ftype) (v : Z) (s : list Z) : Prop :=
  forall buf, max_buffer_size (fmt_of t) <= Z.of_nat (length buf) ->
    ftoa (fmt_of t) v buf = Ok (s ++ 0 :: skipn (S (length s)) buf, Z.of_nat (length s)).

(** ... and it needs no more room than the text and the NUL take. *)
Definition prints_tightly (t : ftype) (v : Z) (s : list Z) : Prop :=
  forall buf, (length s < length buf)%nat ->
    ftoa (fmt_of t) v buf = Ok (s ++ 0 :: skipn (S (length s)) buf, Z.of_nat (length s)).
