(** Model of /repo/include/floaxie/print.h *)
From Verif Require Import Machine Chars.

(** [std::bitset<n>(x).to_string()]: most significant bit first *)
Definition bitset_to_string (n : nat) (x : Z) : list Z :=
  map (fun i => ch_0 + b2z (Z.testbit x (Z.of_nat (n - 1 - i)))) (seq 0 n).

(** [s.insert(pos, 1, c)] *)
Definition insert_char (s : list Z) (pos : nat) (c : Z) : list Z :=
  firstn pos s ++ c :: skipn pos s.

Definition ch_space : Z := 32.

(** print.h:38-44 [print_binary(double f)]; [f] by its bits *)
Definition print_binary_double (f : Z) : list Z :=
  insert_char (insert_char (bitset_to_string 64 f) 1 ch_space) 13 ch_space.

(** print.h:47-50 [print_binary(NumericType v)] for an unsigned integer of [n] bits *)
Definition print_binary (n : nat) (v : Z) : list Z := bitset_to_string n v.

(** print.h:53-60 [print_double_presentation(NumericType v)] for an integer [v] *)
Definition print_double_presentation (v : Z) : list Z :=
  insert_char (insert_char (insert_char (bitset_to_string 64 v) 1 ch_space) 54 ch_space) 56 ch_space.
