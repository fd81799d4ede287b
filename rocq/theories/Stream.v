(** Model of diy_fp.h:464-477 [operator<<] for a char stream in any state: its format flags, its width, its fill character and the
    thousands separator of its locale.  Modelled after [std::ostream] of the C++ standard: The insertions of C strings and
    of std::string pad to the width and set it to zero (so only the first of the five insertions is padded),
    [operator<<(int)] converts to unsigned for hexadecimal and octal output ([ostream.inserters.arithmetic]) and formats with [num_put]
    ([facet.num.put.virtuals]).  Simplified: one group size for all groups of digits (as in all locales but those of India); the
    insertions do not fail half way. *)
From Coq Require Import ZArith List Bool.
From Verif Require Import Machine Chars Format DiyFp Print Show.
Import ListNotations.
Open Scope Z_scope.

Inductive basefield := Dec | Hex | Oct.
Inductive adjustment := Left | Right | Internal.
Record stream := { o_good : bool; o_base : basefield; o_showbase : bool; o_showpos : bool; o_uppercase : bool;
                   o_width : Z; o_fill : Z; o_adjust : adjustment;
                   o_group : nat (* 0: no groups, as in the "C" locale *); o_separator : Z }.
Definition initial : stream := {| o_good := true; o_base := Dec; o_showbase := false; o_showpos := false; o_uppercase := false;
  o_width := 0; o_fill := 32; o_adjust := Right; o_group := 0; o_separator := 44 |}.

(** [padded]: what a string insertion appends; the width is zero afterwards *)
Definition padding (o : stream) (s : list Z) : list Z := repeat (o_fill o) (Z.to_nat (o_width o - Z.of_nat (length s))).
Definition padded (o : stream) (s : list Z) : list Z :=
  match o_adjust o with Left => s ++ padding o s | _ => padding o s ++ s end.
Definition without_width (o : stream) : stream :=
  {| o_good := o_good o; o_base := o_base o; o_showbase := o_showbase o; o_showpos := o_showpos o; o_uppercase := o_uppercase o;
     o_width := 0; o_fill := o_fill o; o_adjust := o_adjust o; o_group := o_group o; o_separator := o_separator o |}.

(** the digits of [v >= 0], most significant first *)
Fixpoint base_digits (fuel : nat) (b v : Z) : list Z :=
  match fuel with
  | O => []
  | S n => if v <? b then [v] else base_digits n b (v / b) ++ [v mod b]
  end.
Definition digit_char (upper : bool) (d : Z) : Z := if d <? 10 then 48 + d else (if upper then 65 else 97) + (d - 10).
(** a separator wherever a multiple of [g] digits follows *)
Fixpoint grouped (g : nat) (sep : Z) (s : list Z) : list Z :=
  match s with
  | [] => []
  | c :: t => c :: (if negb (g =? 0)%nat && negb (length t =? 0)%nat && (length t mod g =? 0)%nat then sep :: grouped g sep t else grouped g sep t)
  end.

(** [os << v] for an [int], the width being zero *)
Definition put_int (o : stream) (v : Z) : list Z :=
  let digits b u := grouped (o_group o) (o_separator o) (map (digit_char (o_uppercase o)) (base_digits 32 b u)) in
  match o_base o with
  | Dec => (if v <? 0 then [45] else if o_showpos o then [43] else []) ++ digits 10 (Z.abs v)
  | Hex => let u := wrap 32 v in (if o_showbase o && negb (u =? 0) then [48; if o_uppercase o then 88 else 120] else []) ++ digits 16 u
  | Oct => let u := wrap 32 v in (if o_showbase o && negb (u =? 0) then [48] else []) ++ digits 8 u
  end.

(** diy_fp.h:471-475: the characters appended, and the stream afterwards *)
Definition diy_put (T : fmt) (o : stream) (d : diy) : list Z * stream :=
  if o_good o then
    (padded o [ch_lpar; ch_f; ch_space; ch_equal; ch_space] ++ print_binary (Z.to_nat (fw T)) (m_f d) ++
     [ch_comma; ch_space; ch_e; ch_space; ch_equal; ch_space] ++ put_int o (m_e d) ++ [ch_rpar], without_width o)
  else ([], o).
