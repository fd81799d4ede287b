(** Specification for C99: what strtod of the C standard takes of a text in the "C" locale
    (7.22.1.3: the longest initial part of the text that is of the expected form), but for leading
    white space and hexadecimal numbers, and where atof stops elsewhere. *)
From Coq Require Import ZArith Bool List String Ascii.
From Verif Require Import Spec ParseSpec TextSpec ReadSpec.
Import ListNotations.
Open Scope Z_scope.

(** inf, infinity, nan or nan(chars), ignoring case *)
Definition word_form (u : list Z) : Prop :=
  map lower u = text "inf" \/ map lower u = text "infinity" \/ map lower u = text "nan" \/
  exists v p, u = (v ++ text "(" ++ p ++ text ")")%list /\ map lower v = text "nan" /\ Forall (fun c => is_payload c = true) p.

(** a number, or a sign (or none) and such a word *)
Definition std_form (w : list Z) : Prop :=
  (exists m, well_formed m /\ w = written m) \/ (exists sg u, word_form u /\ w = (sign_text sg ++ u)%list).

(** [w] is the longest initial part of [a] that has this form *)
Definition subject (a w : list Z) : Prop :=
  std_form w /\ (exists b, a = (w ++ b)%list) /\
  forall w' b', std_form w' -> a = (w' ++ b')%list -> (List.length w' <= List.length w)%nat.
Definition no_subject (a : list Z) : Prop := forall w b, a = (w ++ b)%list -> ~ std_form w.

(** [k] characters are what strtod takes *)
Definition as_strtod (a : list Z) (k : Z) : Prop :=
  (exists w, subject a w /\ k = Z.of_nat (List.length w)) \/ (no_subject a /\ k = 0).

(** the exponent part behind its letter *)
Definition behind_letter (x : exponent_part) : list Z := (sign_text (x_sign x) ++ dchars (x_digits x))%list.

(** where atof stops elsewhere *)
Inductive elsewhere (a : list Z) : Prop :=
| lone : no_subject a -> In (hd 0 a) (text "+-.nNiI") -> elsewhere a
    (* it begins like a number or a word but is none *)
| long_mantissa m : well_formed m -> subject a (written m) -> (parser_limit < List.length (mantissa_text m))%nat -> elsewhere a
| zero_with_exponent m : well_formed m -> subject a (written m) -> coefficient m = 0 -> n_exp m <> None -> elsewhere a
| dangling m e r : well_formed m -> subject a (written m) -> coefficient m <> 0 -> n_exp m = None ->
    a = (written m ++ e :: r)%list -> e_letter e -> elsewhere a
    (* a letter e without an exponent behind it *)
| point_behind m x r : well_formed m -> subject a (written m) -> coefficient m <> 0 -> n_exp m = Some x ->
    a = (written m ++ code "." :: r)%list -> (List.length (behind_letter x) < parser_limit)%nat -> elsewhere a
    (* a point behind the exponent *)
| long_exponent m x : well_formed m -> subject a (written m) -> coefficient m <> 0 -> n_exp m = Some x ->
    (parser_limit < List.length (behind_letter x))%nat -> elsewhere a.
