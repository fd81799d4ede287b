(** Model of /repo/include/floaxie/atof.h and default_fallback.h *)
From Verif Require Import Machine Format DiyFp Krosh.

(** The value of ERANGE (Linux: 34); any fixed non-zero number would do. *)
Definition ERANGE : Z := 34.

(** What a fallback function (strtod & co., or a user callable) does with a text:
    the returned value (bits), the end offset it stores, and errno afterwards. *)
Record fallback_result := { fb_value : Z; fb_str_end : Z; fb_errno : Z }.

(** A fallback gets the text, the previous errno. *)
Definition fallback := list Z -> Z -> res fallback_result.

(** default_fallback.h:85-91 [check_errno(returned_value)] reading the global errno *)
Definition check_errno (T : fmt) (errno returned_value : Z) : conversion_status :=
  if negb (errno =? ERANGE) then success
  else if negb (is_zero T returned_value) then overflow else underflow.

(** Result of one [atof] call: atof.h:41-53 [value_and_status], what was stored
    through [str_end] ([None]: nothing stored), errno afterwards. *)
Record atof_result := {
  at_value : Z; at_status : conversion_status;
  at_str_end : option Z; at_errno : Z;
  at_used_fallback : bool }.   (* ghost: was the fallback called? *)

(** atof.h:94-126 [atof<FloatType>(str, str_end, fallback_func)].  [want_end] tells
    whether the [str_end] pointer is non-null (the null case is the overload
    131-140 too). The fallback is handed the same [str_end] pointer. *)
Definition atof (T : fmt) (s : list Z) (want_end : bool) (fb : fallback) (errno : Z)
    : res atof_result :=
  cr <- krosh T s ;;
  if negb (kr_str_end cr =? 0) then
    if kr_is_accurate cr then
      Ok {| at_value := kr_value cr; at_status := kr_status cr;
            at_str_end := if want_end then Some (kr_str_end cr) else None;
            at_errno := errno; at_used_fallback := false |}
    else
      r <- fb s errno ;;
      Ok {| at_value := fb_value r; at_status := check_errno T (fb_errno r) (fb_value r);
            at_str_end := if want_end then Some (fb_str_end r) else None;
            at_errno := fb_errno r; at_used_fallback := true |}
  else
    Ok {| at_value := 0; at_status := success;
          at_str_end := if want_end then Some (kr_str_end cr) else None;
          at_errno := errno; at_used_fallback := false |}.

(** atof.h:167-176 [from_string(str, fallback_func)]: [str.c_str()] appends a NUL. *)
Definition from_string (T : fmt) (str : list Z) (fb : fallback) (errno : Z) : res atof_result :=
  atof T (str ++ [0]) false fb errno.
