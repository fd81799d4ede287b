(** Specification for C108: the grammar of numbers of RFC 8259 (JSON), section 6, on characters.
    Independent of the model. *)
From Coq Require Import ZArith Bool List String Ascii.
From Verif Require Import Spec ParseSpec.
Import ListNotations.
Open Scope Z_scope.

(** DIGIT = %x30-39, digit1-9 = %x31-39 *)
Definition json_digits (ds : list Z) : Prop := ds <> [] /\ Forall (between "0" "9") ds.
(** int = zero / ( digit1-9 *DIGIT ) *)
Inductive json_int : list Z -> Prop :=
| json_zero : json_int (text "0")
| json_some : forall c ds, between "1" "9" c -> Forall (between "0" "9") ds -> json_int (c :: ds).
(** [ frac ], frac = decimal-point 1*DIGIT *)
Inductive json_frac : list Z -> Prop :=
| json_no_frac : json_frac []
| json_point : forall ds, json_digits ds -> json_frac (text "." ++ ds).
(** [ exp ], exp = e [ minus / plus ] 1*DIGIT *)
Inductive json_exp : list Z -> Prop :=
| json_no_exp : json_exp []
| json_e : forall e sg ds, In e (text "eE") -> In sg [[]; text "-"; text "+"] -> json_digits ds -> json_exp (e :: sg ++ ds).
(** [ minus ] *)
Inductive json_minus : list Z -> Prop :=
| json_positive : json_minus []
| json_negative : json_minus (text "-").
(** number = [ minus ] int [ frac ] [ exp ], split in front of the exponent *)
Definition json_number_parts (m x : list Z) : Prop :=
  exists sg i f, m = sg ++ i ++ f /\ json_minus sg /\ json_int i /\ json_frac f /\ json_exp x.
Definition json_number (j : list Z) : Prop := exists m x, j = m ++ x /\ json_number_parts m x.

(** what can stand behind a number in a document: white space, a comma, a bracket or brace, or the
    end of the text *)
Definition json_follow (c : Z) : Prop := In c [32; 9; 10; 13; code ","; code "]"; code "}"; 0].

(** The exponent part [x] is missing, or has at most nine digits and stands for 0 or no multiple
    of 10000. *)
Definition modest_exponent (x : list Z) : Prop :=
  x = [] \/ exists e sg ds, x = e :: sg ++ dchars ds /\ In sg [[]; text "-"; text "+"] /\ Forall digit ds /\
    (List.length ds <= 9)%nat /\ (dval ds = 0 \/ dval ds mod 10000 <> 0).
