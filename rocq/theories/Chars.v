(** Character codes (ASCII; the same for char and wchar_t). *)
From Verif Require Import Machine.
Definition ch_0 := 48.   (* '0' *)
Definition ch_9 := 57.   (* '9' *)
Definition ch_plus := 43.
Definition ch_minus := 45.
Definition ch_dot := 46.
Definition ch_lpar := 40.
Definition ch_rpar := 41.
Definition ch_under := 95.
Definition ch_a := 97.  Definition ch_A := 65.
Definition ch_e := 101. Definition ch_E := 69.
Definition ch_f := 102. Definition ch_F := 70.
Definition ch_i := 105. Definition ch_I := 73.
Definition ch_n := 110. Definition ch_N := 78.
Definition ch_t := 116.
Definition ch_y := 121.
Definition ch_z := 122.
Definition ch_nul := 0.
