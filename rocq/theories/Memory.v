(** Running out of memory (C116): the requests for memory the library makes, each of which may be denied.

    Printing into a buffer (ftoa.h:88-157 and what it calls) keeps everything in arrays and variables of fixed size and makes no
    request; there is nothing to model.  The requests are those of the std::vector in [parse_digits] (krosh.h:238-239) and of the
    std::basic_string in [to_basic_string] (ftoa.h:165-175).  Simplified: a vector that outgrows its capacity asks for the larger of
    twice its capacity and its new size, as libstdc++ does (C105 shows that it never happens); memory is given back at once when an
    object goes out of scope and giving back never fails.  What a fallback does for memory is outside. *)
From Coq Require Import ZArith Bool List Lia.
From Verif Require Import Machine Format DiyFp Chars Krosh Atof Ftoa Spec Instances Capacity.
Import ListNotations.
Open Scope Z_scope.

(** whether the i-th request (counted from 0), for so many bytes, is granted *)
Definition supply := nat -> Z -> bool.

(** How a call ends: it returns, or it throws std::bad_alloc, or std::terminate is called; [requests] are the sizes asked for. *)
Inductive outcome (A : Type) := Returns (result : A) (requests : list Z) | Throws (requests : list Z) | Terminates (requests : list Z).
Arguments Returns {A}. Arguments Throws {A}. Arguments Terminates {A}.

(** [inl]: a request was denied *)
Definition ask (mem : supply) (log : list Z) (n : Z) : list Z + list Z :=
  if mem (length log) n then inr (log ++ [n]) else inl (log ++ [n]).
Definition andthen (x : list Z + list Z) (f : list Z -> list Z + list Z) : list Z + list Z :=
  match x with inl l => inl l | inr l => f l end.

(** a vector of bytes with room for [cap] that takes these sizes one after the other *)
Fixpoint grow (mem : supply) (cap : nat) (sizes : list nat) (log : list Z) : list Z + list Z :=
  match sizes with
  | [] => inr log
  | n :: r => if (cap <? n)%nat then andthen (ask mem log (Z.of_nat (Nat.max n (2 * cap)))) (grow mem (Nat.max n (2 * cap)) r)
              else grow mem cap r log
  end.

(** krosh.h:231-372 [parse_digits]: [reserve], and then every [insert] and [push_back] *)
Definition digits_memory (mem : supply) (t : ftype) (s : list Z) (log : list Z) : list Z + list Z :=
  andthen (ask mem log (Z.of_nat (decimal_q (fmt_of t)))) (grow mem (decimal_q (fmt_of t)) (vector_sizes t s)).

(** krosh.h:478-501 [parse_exponent] *)
Definition exponent_memory (mem : supply) (s : list Z) (log : list Z) : list Z + list Z :=
  match read s 0 with
  | Ok c => if negb (c =? ch_e) && negb (c =? ch_E) then inr log else digits_memory mem Float (skipn 1 s) log
  | Fault _ => inr log
  end.

(** krosh.h:540-618 [krosh] *)
Definition krosh_memory (mem : supply) (t : ftype) (s : list Z) : list Z + list Z :=
  andthen (digits_memory mem t s []) (fun log =>
    match parse_mantissa (fmt_of t) s with
    | Ok mp => match mp_special mp with
               | sp_no => if negb (m_f (mp_value mp) =? 0) then exponent_memory mem (skipn (Z.to_nat (mp_str_end mp)) s) log else inr log
               | _ => inr log
               end
    | Fault _ => inr log
    end).

(** atof.h:94-126 [atof].  [parse_digits] is declared noexcept (krosh.h:232), so the std::bad_alloc of its vector does not leave it:
    std::terminate is called. *)
Definition atof_memory (mem : supply) (t : ftype) (s : list Z) (want : bool) (fb : fallback) (errno : Z) : outcome (res atof_result) :=
  match krosh_memory mem t s with
  | inl log => Terminates log
  | inr log => Returns (atof (fmt_of t) s want fb errno) log
  end.

(** ftoa.h:165-175 [to_basic_string] with strings that keep up to [sso] characters, of [cs] bytes each, without a request (15 for
    std::string, 3 for std::wstring with libstdc++).  [shrink_to_fit] is allowed to do nothing: in libstdc++ it asks for memory if
    the text is shorter than the capacity and too long to be kept inside, and does nothing if that is denied. *)
Definition to_string_memory (mem : supply) (sso cs : Z) (t : ftype) (v : Z) : outcome (res (list Z)) :=
  let cap := max_buffer_size (fmt_of t) in
  if cap <=? sso then Returns (to_basic_string (fmt_of t) v) []
  else match ask mem [] ((cap + 1) * cs) with
       | inl log => Throws log
       | inr log =>
           match to_basic_string (fmt_of t) v with
           | Ok text => let n := Z.of_nat (length text) in
                        if (sso <? n) && (n <? cap) then match ask mem log ((n + 1) * cs) with inl l | inr l => Returns (Ok text) l end
                        else Returns (Ok text) log
           | Fault f => Returns (Fault f) log
           end
       end.
