(** C106: the bounds are reached. *)
From Coq Require Import ZArith Bool List Lia.
From Verif Require Import Machine Format Ftoa Krosh Atof Steps ReadSteps Spec Api Instances ThreadSpec Threads Work WorkPrint.
Import ListNotations.
Open Scope Z_scope.

(** 0.0000000110649689 as a float, 1.4922112854044358e299 as a double: printing needs all accesses allowed *)
Theorem C106_printing_reached :
  (pattern Float 842930239 /\ cost 0 (ftoa_steps (fmt_of Float) 842930239 0) (repeat 0 24) = 39%nat) /\
  (pattern Double 9082781194372061936 /\ cost 0 (ftoa_steps (fmt_of Double) 9082781194372061936 0) (repeat 0 34) = 57%nat).
Proof. split; (split; [unfold pattern; cbn; lia|vm_compute; reflexivity]). Qed.

(** 1111111111111111111111111e111111111111: 25 digits and an exponent of 12 *)
Definition long_text : list Z := repeat 49 25 ++ [101] ++ repeat 49 12 ++ [0].
(** a fallback that reads nothing *)
Definition idle (at_ e : Z) : prog fallback_result := Done {| fb_value := 0; fb_str_end := 0; fb_errno := e |}.
Theorem C106_parsing_reached : forall t, cost 0 (atof_steps (S (length long_text)) (fmt_of t) 0 true idle 0) long_text = (length long_text + 9)%nat.
Proof. intros t. destruct t; vm_compute; reflexivity. Qed.
Theorem C106_applies : ~ In 40 long_text /\ exists r, atof (fmt_of Double) long_text true (fun _ e => Ok {| fb_value := 0; fb_str_end := 0; fb_errno := e |}) 0 = Ok r.
Proof. split; [cbn; intuition lia|eexists; vm_compute; reflexivity]. Qed.
