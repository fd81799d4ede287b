(** The program of C100: a value is saved as text and loaded again, over and over. *)
From Coq Require Import ZArith List.
From Verif Require Import Machine Format Ftoa Krosh Atof Spec Instances.
Open Scope Z_scope.

(** save and load once *)
Definition reload (t : ftype) (fb : fallback) (v errno : Z) : res atof_result :=
  s <- to_basic_string (fmt_of t) v ;; from_string (fmt_of t) s fb errno.
(** [n] times, errno is carried on *)
Fixpoint passes (t : ftype) (fb : fallback) (n : nat) (v errno : Z) : res Z :=
  match n with
  | O => Ok v
  | S n => r <- reload t fb v errno ;; passes t fb n (at_value r) (at_errno r)
  end.
(** the number of times after which nothing changes any more *)
Definition settled (t : ftype) : nat := match t with Float => 5 | Double => 9 end.
