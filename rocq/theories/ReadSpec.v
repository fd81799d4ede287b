(** Specification: how much of a text the parser takes.  Computable, independent of the model. *)
From Coq Require Import ZArith Bool Reals List String Ascii.
From Verif Require Import Spec ParseSpec TextSpec.
Import ListNotations.
Open Scope Z_scope.

Definition is_digit (c : Z) : bool := (code "0" <=? c) && (c <=? code "9").

(** the digits at the beginning of a text, and the rest *)
Fixpoint take_digits (a : list Z) : list Z * list Z :=
  match a with
  | [] => ([], [])
  | c :: r => if is_digit c then let (l, b) := take_digits r in (c - code "0" :: l, b) else ([], a)
  end.

Definition take_sign (a : list Z) : signopt * list Z :=
  match a with
  | [] => (NoSign, [])
  | c :: r => if c =? code "+" then (Plus, r) else if c =? code "-" then (Minus, r) else (NoSign, a)
  end.

(** the longest [sign][digits][.digits] at the beginning of a text, and the rest; each part
    may be missing *)
Definition split_bare (a : list Z) : numeral * list Z :=
  let (sg, u) := take_sign a in
  let (i, v) := take_digits u in
  match v with
  | c :: w =>
      if c =? code "."
      then let (f, b) := take_digits w in ({| n_sign := sg; n_int := i; n_frac := Some f; n_exp := None |}, b)
      else ({| n_sign := sg; n_int := i; n_frac := None; n_exp := None |}, v)
  | [] => ({| n_sign := sg; n_int := i; n_frac := None; n_exp := None |}, [])
  end.

Definition lower (c : Z) : Z := if (code "A" <=? c) && (c <=? code "Z") then c - code "A" + code "a" else c.

(** the text begins with the word [w] (given in small letters) in any capitalisation *)
Fixpoint starts (w b : list Z) : bool :=
  match w, b with
  | [], _ => true
  | l :: w', c :: b' => (lower c =? l) && starts w' b'
  | _ :: _, [] => false
  end.

Definition is_payload (c : Z) : bool :=
  is_digit c || ((code "a" <=? lower c) && (lower c <=? code "z")) || (c =? code "_").

(** length of "chars)" at the beginning of a text, 0 if there is no such thing *)
Fixpoint closing (b : list Z) : Z :=
  match b with
  | [] => 0
  | c :: r => if c =? code ")" then 1
              else if is_payload c then (let k := closing r in if k =? 0 then 0 else 1 + k) else 0
  end.

Inductive word := Nan | Inf | NoWord.

(** The word at the beginning of a text and the length that is taken for it: nan, nan(chars),
    inf, infinity; any other text that begins with an n or an i counts for one character. *)
Definition word_at (b : list Z) : word * Z :=
  if starts (text "nan") b then
    (Nan, match skipn 3 b with
          | c :: r => if (c =? code "(") && negb (closing r =? 0) then 4 + closing r else 3
          | [] => 3
          end)
  else if starts (text "infinity") b then (Inf, 8)
  else if starts (text "inf") b then (Inf, 3)
  else if starts (text "n") b || starts (text "i") b then (NoWord, 1)
  else (NoWord, 0).

(** nothing but a sign, if that *)
Definition no_digits (n : numeral) : bool :=
  match n_int n, n_frac n with [], None => true | _, _ => false end.

(** What is taken of a text as a number without an exponent: a word, with its sign, or the longest
    bare number -- if it has more than 2049 characters, only these. *)
Definition mantissa_length (a : list Z) : Z :=
  let (n, b) := split_bare a in
  if no_digits n && negb (snd (word_at b) =? 0)
  then Z.of_nat (List.length (mantissa_text n)) + snd (word_at b)
  else Z.min (Z.of_nat (List.length (mantissa_text n))) 2049.

(** What is taken of a text: the above and, if this is a number other than 0 of at most 2049
    characters and the letter e follows, that letter and, once more, the same behind it. *)
Definition text_length (a : list Z) : Z :=
  let (n, b) := split_bare a in
  match b with
  | mk :: r =>
      if (lower mk =? code "e") && negb (coefficient n =? 0) && (List.length (mantissa_text n) <=? parser_limit)%nat
      then Z.of_nat (List.length (mantissa_text n)) + 1 + mantissa_length r
      else mantissa_length a
  | [] => mantissa_length a
  end.
