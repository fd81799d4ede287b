(** Model of /repo/include/floaxie/static_pow.h *)
From Verif Require Import Machine.

(** static_pow.h:34-48 [static_pow_helper<base, pow>::value]: recursion in
    [unsigned int] (32 bit, wrapping). *)
Fixpoint static_pow_helper (base : Z) (pow : nat) : Z :=
  match pow with
  | O => 1
  | S p => wrap 32 (base * static_pow_helper base p)
  end.

(** static_pow.h:58-62 [static_pow<base, pow>()] : unsigned long (the
    [static_assert(base > 0)] is a compile-time condition). *)
Definition static_pow (base : Z) (pow : nat) : Z := static_pow_helper base pow.

(** static_pow.h:123-141 [pow_sequencer<T, base, current_pow>]: the value and the
    sequence [1, base, base^2, ..., base^current_pow].  Overflow of a signed or
    unsigned constant would be rejected or wrapped by the compiler; all uses in
    the library stay in range (theorem [seq_pow_correct]).  *)
Fixpoint pow_sequencer_value (base : Z) (n : nat) : Z :=
  match n with
  | O => 1
  | S m => pow_sequencer_value base m * base
  end.

Fixpoint pow_sequencer_sequence (base : Z) (n : nat) : list Z :=
  match n with
  | O => [1]
  | S m => pow_sequencer_sequence base m ++ [pow_sequencer_value base n]
  end.

(** static_pow.h:155-161 [seq_pow<T, base, max_pow>(pow)]: [arr[pow]] of a
    [std::array] of [max_pow + 1] elements, no bounds check in C++ - reading
    outside of it is undefined behaviour.  [pow] is a std::size_t: a negative
    [int] argument becomes a huge index. *)
Definition seq_pow (base : Z) (max_pow : nat) (pow : Z) : res Z :=
  read_tab (pow_sequencer_sequence base max_pow) (wrap 64 pow).
