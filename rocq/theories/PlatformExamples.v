(** Concrete cases for C104. *)
From Coq Require Import ZArith List String Ascii.
From Verif Require Import Machine Format DiyFp Ftoa Krosh Atof Platform Spec ParseSpec Api Instances PlatformProps.
Import ListNotations.
Open Scope Z_scope.

(** 12345.678e-7 parsed and 1e-9 printed with a 32 bit std::size_t *)
Definition no_fallback : fallback := fun _ e => Ok {| fb_value := 0; fb_str_end := 0; fb_errno := e |}.
Example C104_applies : atof_on 32 (fmt_of Double) (text "12345.678e-7" ++ [0]) true no_fallback 0 =
    Ok {| at_value := 4563336261961002612; at_status := success; at_str_end := Some 12; at_errno := 0; at_used_fallback := false |} /\
  to_basic_string_on 32 (fmt_of Double) 4472406533629990549 = Ok (text "0.000000001").
Proof. split; vm_compute; reflexivity. Qed.
(** and with one of 8 bits a sum of exponents would be different *)
Example C104_needed : atof_on 8 (fmt_of Double) (text "1e-40" ++ [0]) true no_fallback 0 <> atof (fmt_of Double) (text "1e-40" ++ [0]) true no_fallback 0.
Proof. vm_compute. discriminate. Qed.
