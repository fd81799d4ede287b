(** Specification vocabulary for arbitrary texts: how a text falls into a mantissa and an
    exponent, and what number the parser takes for the exponent.  Independent of the model. *)
From Coq Require Import ZArith Bool Reals List String Ascii.
From Verif Require Import Spec ParseSpec.
Import ListNotations.
Open Scope Z_scope.

(** [sign] [digits] [.digits], nothing else; every part may be missing *)
Definition bare (n : numeral) : Prop :=
  n_exp n = None /\ Forall digit (n_int n) /\ Forall digit (frac_digits n).

(** [c] cannot continue the text of the bare number [n]: it is no digit, no point unless there
    already is one, no sign unless something stands before it, and not the first letter of
    nan or inf unless more than a sign stands before it. *)
Definition cannot_continue (n : numeral) (c : Z) : Prop :=
  ~ between "0" "9" c /\
  (c = code "." -> n_frac n <> None) /\
  (c = code "+" \/ c = code "-" -> mantissa_text n <> []) /\
  (In c (text "nNiI") -> mantissa_text n <> sign_text (n_sign n)).

(** What is taken of a bare number: all of it if it has at most 2049 characters, else the
    first 2050. *)
Definition part_taken (x y : numeral) : Prop :=
  bare y /\ n_sign y = n_sign x /\
  ((List.length (mantissa_text x) <= parser_limit)%nat /\ mantissa_text y = mantissa_text x \/
   (parser_limit < List.length (mantissa_text x))%nat /\ List.length (mantissa_text y) = S parser_limit /\
   exists b, mantissa_text x = (mantissa_text y ++ b)%list).

(** the int that [a] becomes when it is reduced modulo 2^32 *)
Definition as_int (a m : Z) : Prop := (exists k, m = a + k * 2 ^ 32) /\ - 2 ^ 31 <= m < 2 ^ 31.

(** The number [E] that is taken for an exponent whose text is [x]: 0 if [x] has no digit other
    than 0; else move the point behind the significant digits, of which nine are kept; this
    must leave a power of ten from 10^0 to 10^3; the product is reduced to the range of int;
    its negation must be an int too. *)
Definition exponent_read (x : numeral) (E : Z) : Prop :=
  coefficient x = 0 /\ E = 0 \/
  exists d k m, point_moved Float x d k /\ 0 <= k <= 3 /\ as_int (d * 10 ^ k) m /\
    E = signed (n_sign x) m /\ E < 2 ^ 31.

(** An exponent [x] can be applied to the mantissa [n]: it can be read, and adding it to the
    power of ten that belongs to the digits of [n] gives an int. *)
Definition exponent_fits (t : ftype) (n x : numeral) : Prop :=
  exists d K E, point_moved t n d K /\ exponent_read x E /\ - 2 ^ 31 <= K + E < 2 ^ 31.

(** The text [a] has an exponent that cannot be applied: a non-zero mantissa, the letter e, and
    then the longest bare number there is, which does not fit. *)
Definition has_unfit_exponent (t : ftype) (a : list Z) : Prop :=
  exists n mk x y b, a = (mantissa_text n ++ mk :: mantissa_text x ++ b)%list /\
    bare n /\ coefficient n <> 0 /\ (List.length (mantissa_text n) <= parser_limit)%nat /\ e_letter mk /\
    bare x /\ cannot_continue x (hd 0 b) /\ part_taken x y /\ ~ exponent_fits t n y.

(** An exponent as programs usually write them: an optional sign and at most nine digits, the
    number not a multiple of 10000 (except 0), and nothing behind it that could be part of it. *)
Definition tame_exponent (w : list Z) : Prop :=
  exists sg ds v, w = (sign_text sg ++ dchars ds ++ v)%list /\ Forall digit ds /\ (List.length ds <= 9)%nat /\
    (dval ds = 0 \/ dval ds mod 10000 <> 0) /\
    ~ between "0" "9" (hd 0 v) /\ hd 0 v <> code "." /\ (ds = [] -> hd 0 v <> code "+" /\ hd 0 v <> code "-").
