(** Concrete cases for C103. *)
From Coq Require Import ZArith Bool List String Ascii Lia.
From Verif Require Import Machine Format DiyFp Ftoa Krosh Atof Steps ReadSteps Spec ParseSpec ShowSpec Instances ThreadSpec Threads.
Import ListNotations.
Open Scope Z_scope.

(** playing a given schedule: the numbers of the threads that make an access; the others are left out *)
Definition move {A} (p : prog A) (m : memory) : option (prog A * memory) :=
  match p with Load i k => Some (k (m i), m) | Store i c k => Some (k, put m i c) | _ => None end.
Fixpoint play {A} (turns : list nat) (ps : list (prog A)) (m : memory) : list (prog A) * memory :=
  match turns with
  | [] => (ps, m)
  | i :: turns =>
      match nth_error ps i with
      | Some p => match move p m with Some (q, m') => play turns (firstn i ps ++ q :: skipn (S i) ps) m' | None => play turns ps m end
      | None => play turns ps m
      end
  end.
Lemma play_from : forall A turns (ps0 : list (prog A)) m0 n ps m, schedule n ps0 m0 ps m -> exists n', schedule n' ps0 m0 (fst (play turns ps m)) (snd (play turns ps m)).
Proof.
  intros A. induction turns as [|i turns IH]; intros ps0 m0 n ps m S; cbn [play]; [exists n; exact S|].
  destruct (nth_error ps i) as [p|] eqn:E; [|now apply (IH _ _ n)]. destruct (move p m) as [[q m']|] eqn:M; [|now apply (IH _ _ n)].
  apply (IH _ _ (Datatypes.S n)). apply nth_error_split in E as (l1 & l2 & -> & L). subst i.
  rewrite firstn_app, firstn_all, Nat.sub_diag. cbn [firstn]. rewrite app_nil_r.
  assert (K : skipn (Datatypes.S (List.length l1)) (l1 ++ p :: l2) = l2) by (clear; induction l1 as [|x l1 IH]; [reflexivity|exact IH]).
  rewrite K. eapply schedule_step; [exact S|]. destruct p; cbn [move] in M; try discriminate; injection M as <- <-; constructor.
Qed.

(** 0.1 (double) printed at 0, 1.5 (float) behind it at 4, and two threads parsing 0.25 at 8, as a double and as a float *)
Definition no_fallback : fallback := fun _ e => Ok {| fb_value := 0; fb_str_end := 0; fb_errno := e |}.
Definition no_program : Z -> Z -> prog fallback_result := fun _ e => Done {| fb_value := 0; fb_str_end := 0; fb_errno := e |}.
Definition before_ : memory := fun a => nth (Z.to_nat (a - 8)) (text "0.25") 0.
Definition jobs : list job :=
  [Print Double 4591870180066957722 0; Print Float 1069547520 4; Parse Double (text "0.25" ++ [0]) 8 true no_fallback no_program 0; Parse Float (text "0.25" ++ [0]) 8 true no_fallback no_program 0].
Lemma tenth_shown : shown_text Double 4591870180066957722 = text "0.1".
Proof. vm_compute. reflexivity. Qed.
Lemma one_half_shown : shown_text Float 1069547520 = text "1.5".
Proof. vm_compute. reflexivity. Qed.
Example C103_applies : Forall (ready before_) jobs /\ ForallOrdPairs compatible jobs.
Proof.
  split.
  - assert (H : forall t, ready before_ (Parse t (text "0.25" ++ [0]) 8 true no_fallback no_program 0)).
    { intros t. split; [|split; [|split]].
      - intros n L. change (List.length (text "0.25" ++ [0])) with 5%nat in L. do 5 (destruct n as [|n]; [reflexivity|]). lia.
      - destruct t; eexists; vm_compute; reflexivity.
      - intros a e. constructor.
      - intros e f E. injection E as <-. reflexivity. }
    unfold jobs. constructor; [split; vm_compute; congruence|]. constructor; [split; vm_compute; congruence|]. constructor; [apply H|]. constructor; [apply H|]. constructor.
  - unfold jobs. repeat (apply FOP_cons || apply FOP_nil || apply Forall_cons || apply Forall_nil); unfold compatible; intros a; cbn [printed_cell cell]; rewrite ?tenth_shown, ?one_half_shown; change (List.length (text "0.1")) with 3%nat; change (List.length (text "1.5")) with 3%nat; change (List.length (text "0.25" ++ [0])) with 5%nat; lia.
Qed.
(** taking turns *)
Definition taking_turns : list nat := flat_map (fun _ => [0; 1; 2; 3]%nat) (seq 0 40).
Example C103_turns : exists n ps m', schedule n (map program jobs) before_ ps m' /\
  map m' [0; 1; 2; 3; 4; 5; 6; 7] = text "0.1" ++ [0] ++ text "1.5" ++ [0] /\
  ps = [Done (Printed 3); Done (Printed 3);
        Done (Parsed {| at_value := 4598175219545276416; at_status := success; at_str_end := Some 4; at_errno := 0; at_used_fallback := false |});
        Done (Parsed {| at_value := 1048576000; at_status := success; at_str_end := Some 4; at_errno := 0; at_used_fallback := false |})].
Proof.
  destruct (play_from _ taking_turns (map program jobs) before_ 0 _ _ (schedule_start _ _)) as (n & S).
  exists n. eexists. eexists. split; [exact S|]. split; vm_compute; reflexivity.
Qed.
(** the cells must be apart: 1.5 printed over the NUL of 0.1 *)
Example C103_needed : exists n ps m', schedule n (map program [Print Double 4591870180066957722 0; Print Float 1069547520 3]) before_ ps m' /\
  ps = [Done (Printed 3); Done (Printed 3)] /\ ~ finished m' (Print Double 4591870180066957722 0) (Printed 3).
Proof.
  destruct (play_from _ (repeat 0%nat 40 ++ repeat 1%nat 40) (map program [Print Double 4591870180066957722 0; Print Float 1069547520 3]) before_ 0 _ _ (schedule_start _ _)) as (n & S).
  exists n. eexists. eexists. split; [exact S|]. split; [vm_compute; reflexivity|]. intros [_ H]. specialize (H 3%nat). rewrite tenth_shown in H. specialize (H ltac:(cbn; lia)). revert H. vm_compute. discriminate.
Qed.
