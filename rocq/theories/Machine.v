(** Machine layer of the model: outcomes, fixed-width integers, bounds-checked
    memory.  It models the C++ language rules the library relies on, not a
    particular file of /repo. *)
From Coq Require Export ZArith List Bool Lia.
Export ListNotations.
Open Scope Z_scope.

(** Everything that makes the behaviour of the C++ program undefined, aborts
    it, or keeps it from terminating.  *)
Inductive fault : Type :=
| OutOfBoundsRead      (* reading outside the text or the output buffer *)
| TableOverrun         (* indexing a constant table of the library out of range *)
| OutOfBoundsWrite     (* writing outside the output buffer *)
| IllegalShift         (* shift amount negative or >= width *)
| SignedOverflow       (* int arithmetic outside of [-2^31, 2^31) *)
| DivideByZero
| AssertFailed         (* assert(...) of the library *)
| OutOfFuel.           (* the loop did not finish within the model's fuel *)

Inductive res (A : Type) : Type :=
| Ok (a : A)
| Fault (f : fault).
Arguments Ok {A} a.
Arguments Fault {A} f.

Definition bind {A B} (m : res A) (k : A -> res B) : res B :=
  match m with Ok a => k a | Fault f => Fault f end.

Notation "x <- m ;; k" := (bind m (fun x => k))
  (at level 61, m at next level, right associativity).
Notation "' p <- m ;; k" := (bind m (fun x => match x with p => k end))
  (at level 61, p pattern, m at next level, right associativity).
Notation "m ;;; k" := (bind m (fun _ => k))
  (at level 61, right associativity).

Definition assert_ (b : bool) : res unit :=
  if b then Ok tt else Fault AssertFailed.

(** Unsigned arithmetic of width [w] wraps. *)
Definition wrap (w x : Z) : Z := x mod 2 ^ w.

(** Signed [int] (32 bit) arithmetic: the mathematical result [x] is either
    representable or the behaviour is undefined. *)
Definition sint (x : Z) : res Z :=
  if (- 2 ^ 31 <=? x) && (x <? 2 ^ 31) then Ok x else Fault SignedOverflow.

(** Conversion of an out-of-range value to [int]: modulo 2^32 (what every
    supported compiler does, and what C++20 requires). *)
Definition narrow_int (x : Z) : Z := (x + 2 ^ 31) mod 2 ^ 32 - 2 ^ 31.

(** Shifts of a [w]-bit unsigned word. *)
Definition shl (w x n : Z) : res Z :=
  if (0 <=? n) && (n <? w) then Ok (wrap w (Z.shiftl x n)) else Fault IllegalShift.
Definition shr (w x n : Z) : res Z :=
  if (0 <=? n) && (n <? w) then Ok (Z.shiftr x n) else Fault IllegalShift.

(** C++ [bool] converted to an integer. *)
Definition b2z (b : bool) : Z := if b then 1 else 0.

(** ** Arrays *)

Definition read (a : list Z) (i : Z) : res Z :=
  if i <? 0 then Fault OutOfBoundsRead else
  match nth_error a (Z.to_nat i) with
  | Some x => Ok x
  | None => Fault OutOfBoundsRead
  end.

(** The same for a constant table of the library (no bounds check in C++). *)
Definition read_tab (a : list Z) (i : Z) : res Z :=
  match read a i with Ok x => Ok x | Fault _ => Fault TableOverrun end.

Fixpoint update (a : list Z) (i : nat) (x : Z) : list Z :=
  match a, i with
  | [], _ => []
  | _ :: t, O => x :: t
  | h :: t, S j => h :: update t j x
  end.

Definition write (a : list Z) (i x : Z) : res (list Z) :=
  if (0 <=? i) && (i <? Z.of_nat (length a))
  then Ok (update a (Z.to_nat i) x)
  else Fault OutOfBoundsWrite.

(** [n] consecutive writes starting at [i]. *)
Fixpoint write_list (a : list Z) (i : Z) (xs : list Z) : res (list Z) :=
  match xs with
  | [] => Ok a
  | x :: t => a' <- write a i x ;; write_list a' (i + 1) t
  end.

(** [n] consecutive reads starting at [i]. *)
Fixpoint read_list (a : list Z) (i : Z) (n : nat) : res (list Z) :=
  match n with
  | O => Ok []
  | S m => x <- read a i ;; t <- read_list a (i + 1) m ;; Ok (x :: t)
  end.
