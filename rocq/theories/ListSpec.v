(** The programs of C101: values written to one buffer with a separator behind each, and read back. *)
From Coq Require Import ZArith Bool List String Ascii.
From Verif Require Import Machine Format Ftoa Krosh Atof Spec ParseSpec Instances.
Import ListNotations.
Open Scope Z_scope.

(** [for (v : vs) { p += ftoa(v, p); *p++ = sep; } *p = 0;] *)
Fixpoint save_all (t : ftype) (sep : Z) (vs : list Z) (buf : list Z) (p : Z) : res (list Z * Z) :=
  match vs with
  | [] => b <- write buf p 0 ;; Ok (b, p)
  | v :: vs =>
      r <- ftoa (fmt_of t) v (skipn (Z.to_nat p) buf) ;;
      b <- write (firstn (Z.to_nat p) buf ++ fst r) (p + snd r) sep ;;
      save_all t sep vs b (p + snd r + 1)
  end.

(** [while ( *s ) { v = atof(s, &end); if (end == s || *end != sep) fail; vs.push_back(v); s = end + 1; }] *)
Fixpoint load_all (fuel : nat) (t : ftype) (fb : fallback) (sep : Z) (s : list Z) (errno : Z) : res (option (list Z)) :=
  match fuel with
  | O => Fault OutOfFuel
  | S fuel =>
      c0 <- read s 0 ;;
      if c0 =? 0 then Ok (Some []) else
      r <- atof (fmt_of t) s true fb errno ;;
      match at_str_end r with
      | Some k =>
          c <- read s k ;;
          if (k =? 0) || negb (c =? sep) then Ok None else
          vs <- load_all fuel t fb sep (skipn (Z.to_nat (k + 1)) s) (at_errno r) ;;
          Ok (option_map (cons (at_value r)) vs)
      | None => Ok None
      end
  end.

(** characters that may separate values *)
Definition separator (c : Z) : Prop := ends_number c /\ c <> code "(" /\ c <> code "i" /\ c <> code "I".
(** the text *)
Definition joined (sep : Z) (texts : list (list Z)) : list Z := flat_map (fun s => s ++ [sep])%list texts.
