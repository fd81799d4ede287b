(** Cases that meet the hypotheses of C108. *)
From Coq Require Import ZArith Bool List String Ascii Reals Lia.
From Verif Require Import Machine Format DiyFp Krosh Atof Spec ParseSpec Instances Api JsonSpec ParseApi Json.
Import ListNotations.
Open Scope Z_scope.

Ltac digits := repeat constructor; unfold between; vm_compute; (intuition discriminate).
Definition jm : list Z := text "-120.50".
Definition jx : list Z := text "E+30".
Example C108_json : json_number_parts jm jx.
Proof.
  exists (text "-"), (text "120"), (text "." ++ text "50"). split; [reflexivity|]. split; [constructor|]. split; [apply (json_some 49 (text "20")); digits|].
  split; [constructor; split; [discriminate|digits]|]. apply (json_e 69 (text "+") (text "30")); [right; left; reflexivity|right; right; left; reflexivity|split; [discriminate|digits]].
Qed.
Example C108_meets : json_number_parts jm jx /\ Exists (between "1" "9") jm /\ (List.length jm <= 2049)%nat /\ modest_exponent jx /\ json_follow (code "]").
Proof.
  split; [exact C108_json|]. split; [right; left; unfold between; vm_compute; intuition discriminate|]. split; [vm_compute; lia|]. split; [|cbn; tauto].
  right. exists 69, (text "+"), [3; 0]. split; [reflexivity|]. split; [right; right; left; reflexivity|]. split; [repeat constructor; unfold digit; lia|]. split; [vm_compute; lia|right; vm_compute; discriminate].
Qed.
Example C108_runs : exists v st, atof double ((jm ++ jx) ++ text "]" ++ [0]) true (fun _ _ => Fault OutOfFuel) 0 = Ok (answer true 0 v st 11).
Proof. eexists _, _. vm_compute. reflexivity. Qed.
Example C108_zero_meets : json_number_parts (text "-0.0") (text "e5") /\ ~ Exists (between "1" "9") (text "-0.0").
Proof.
  split.
  - exists (text "-"), (text "0"), (text "." ++ text "0"). split; [reflexivity|]. split; [constructor|]. split; [constructor|]. split; [constructor; split; [discriminate|digits]|].
    apply (json_e 101 [] (text "5")); [left; reflexivity|left; reflexivity|split; [discriminate|digits]].
  - intros X. repeat (apply Exists_cons in X as [X|X]; [revert X; unfold between; vm_compute; intuition discriminate|]). inversion X.
Qed.
(** the grammar rejects what JSON rejects *)
Example C108_rejects : ~ json_number (text ".5") /\ ~ json_number (text "+1").
Proof. split; intros J; destruct (json_start _ J) as (c & r & E & H); injection E as <- <-; (destruct H as [[H _]|H]; [discriminate H|revert H; unfold between; vm_compute; intuition discriminate]). Qed.
