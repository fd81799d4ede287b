(** Specification for C103: threads that print and parse in one memory, in any interleaving of
    their accesses. *)
From Coq Require Import ZArith Bool List.
From Verif Require Import Machine Format Ftoa Krosh Atof Steps ReadSteps Spec ShowSpec Instances.
Import ListNotations.
Open Scope Z_scope.

Definition memory := Z -> Z.
Definition put (m : memory) (i c : Z) : memory := fun a => if a =? i then c else m a.
(** the characters [s] stand at [at_] *)
Definition holds (m : memory) (at_ : Z) (s : list Z) : Prop := forall n, (n < length s)%nat -> m (at_ + Z.of_nat n) = nth n s 0.

(** one access of a program *)
Inductive step {A} : prog A -> memory -> prog A -> memory -> Prop :=
| step_load : forall i k m, step (Load i k) m (k (m i)) m
| step_store : forall i c k m, step (Store i c k) m k (put m i c).
Definition next {A} (p : prog A) : option Z := match p with Load i _ | Store i _ _ => Some i | _ => None end.

(** [n] accesses, each of any thread *)
Inductive schedule {A} : nat -> list (prog A) -> memory -> list (prog A) -> memory -> Prop :=
| schedule_start : forall ps m, schedule 0 ps m ps m
| schedule_step : forall n ps m before p after m1 q m2,
    schedule n ps m (before ++ p :: after) m1 -> step p m1 q m2 ->
    schedule (S n) ps m (before ++ q :: after) m2.

(** running alone, on a buffer at the address [at_] *)
Fixpoint exec {A} (at_ : Z) (p : prog A) (buf : list Z) : res (list Z * A) :=
  match p with
  | Done a => Ok (buf, a)
  | Broken f => Fault f
  | Load i k => x <- read buf (i - at_) ;; exec at_ (k x) buf
  | Store i c k => b <- write buf (i - at_) c ;; exec at_ k b
  end.

(** a program that only loads *)
Inductive reader {A} : prog A -> Prop :=
| reader_done : forall a, reader (Done a)
| reader_broken : forall f, reader (Broken f)
| reader_load : forall i k, (forall c, reader (k c)) -> reader (Load i k).
(** what a reader gives on the text [s] at the address [at_] *)
Definition gives {A} (at_ : Z) (p : prog A) (s : list Z) (r : A) : Prop := exec at_ p s = Ok (s, r).
(** What the threads do: print a value at an address, or parse the text [s] (its NUL included) at an
    address, with a fallback [fb] the program of which is [fbp]. errno belongs to the thread. *)
Inductive job :=
| Print (t : ftype) (v at_ : Z)
| Parse (t : ftype) (s : list Z) (at_ : Z) (want_end : bool) (fb : fallback) (fbp : Z -> Z -> prog fallback_result) (errno : Z).
Inductive outcome := Printed (n : Z) | Parsed (r : atof_result).
Definition program (j : job) : prog outcome :=
  match j with
  | Print t v at_ => n <~ ftoa_steps (fmt_of t) v at_ ;; Done (Printed n)
  | Parse t s at_ we fb fbp errno => r <~ atof_steps (S (length s)) (fmt_of t) at_ we fbp errno ;; Done (Parsed r)
  end.

(** the characters a job is about: the text and its NUL *)
Definition cell (j : job) (a : Z) : Prop :=
  match j with
  | Print t v at_ => at_ <= a <= at_ + Z.of_nat (length (shown_text t v))
  | Parse t s at_ _ _ _ _ => at_ <= a < at_ + Z.of_nat (length s)
  end.
Definition printed_cell (j : job) (a : Z) : Prop := match j with Print _ _ _ => cell j a | Parse _ _ _ _ _ _ _ => False end.
(** nobody prints where the other one prints or parses *)
Definition compatible (j k : job) : Prop := forall a, ~ (printed_cell j a /\ cell k a) /\ ~ (cell j a /\ printed_cell k a).

(** The value is a value of its type; the text is there, is no text that leads to undefined
    behaviour (C74), and the fallback only reads it. *)
Definition ready (m : memory) (j : job) : Prop :=
  match j with
  | Print t v at_ => pattern t v
  | Parse t s at_ we fb fbp errno => holds m at_ s /\ (exists r, atof (fmt_of t) s we fb errno = Ok r) /\
      (forall a e, reader (fbp a e)) /\ forall e f, fb s e = Ok f -> gives at_ (fbp at_ e) s f
  end.

(** what it is to end with: what the call gives when it is the only one *)
Definition finished (m : memory) (j : job) (o : outcome) : Prop :=
  match j with
  | Print t v at_ => o = Printed (Z.of_nat (length (shown_text t v))) /\ holds m at_ (shown_text t v ++ [0])
  | Parse t s at_ we fb fbp errno => exists r, o = Parsed r /\ atof (fmt_of t) s we fb errno = Ok r
  end.
