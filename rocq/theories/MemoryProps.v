(** C116: running out of memory. *)
From Coq Require Import Reals Lra ZArith Bool List Lia String Ascii.
From Verif Require Import Machine MachineFacts Format DiyFp Chars Krosh Atof Ftoa Spec ParseSpec Instances BoundFacts ArithProps DvalFacts ScanFacts LoopFacts ParseFacts KroshNum ParseProps LocalFacts LocalProps Defined Capacity Memory.
Import ListNotations.
Open Scope Z_scope.

(** every request of the list is granted *)
Definition all_granted (mem : supply) (requests : list Z) : Prop := forall i n, nth_error requests i = Some n -> mem i n = true.

Lemma grow_none : forall mem cap sizes log, Forall (fun n => (n <= cap)%nat) sizes -> grow mem cap sizes log = inr log.
Proof.
  intros mem cap sizes log H. induction H as [|n r L _ IH]; cbn [grow]; [reflexivity|]. destruct (Nat.ltb_spec cap n); [lia|exact IH].
Qed.
Lemma digits_once : forall mem t s log, digits_memory mem t s log = ask mem log (Z.of_nat (reserved t)).
Proof.
  intros mem t s log. unfold digits_memory. replace (decimal_q (fmt_of t)) with (reserved t) by (destruct t; reflexivity).
  unfold ask. destruct (mem _ _); cbn [andthen]; [|reflexivity]. apply grow_none, C105_no_reallocation.
Qed.

(** whether there is a second request *)
Definition asks_twice (t : ftype) (s : list Z) : bool :=
  match parse_mantissa (fmt_of t) s with
  | Ok mp => match mp_special mp with
             | sp_no => if negb (m_f (mp_value mp) =? 0) then
                          match read (skipn (Z.to_nat (mp_str_end mp)) s) 0 with Ok c => negb (negb (c =? ch_e) && negb (c =? ch_E)) | Fault _ => false end
                        else false
             | _ => false
             end
  | Fault _ => false
  end.
Definition requests_of (t : ftype) (s : list Z) : list Z := Z.of_nat (reserved t) :: if asks_twice t s then [9] else [].

Lemma krosh_requests : forall mem t s, krosh_memory mem t s =
  if mem 0%nat (Z.of_nat (reserved t)) then if asks_twice t s then if mem 1%nat 9 then inr (requests_of t s) else inl (requests_of t s) else inr (requests_of t s)
  else inl [Z.of_nat (reserved t)].
Proof.
  intros mem t s. unfold krosh_memory. rewrite digits_once. unfold ask at 1. cbn [List.length app]. destruct (mem 0%nat _); cbn [andthen]; [|reflexivity].
  unfold requests_of, asks_twice. destruct (parse_mantissa _ s) as [mp|]; [|reflexivity]. destruct (mp_special mp); try reflexivity.
  destruct (negb (m_f (mp_value mp) =? 0)); [|reflexivity]. unfold exponent_memory. destruct (read _ 0) as [c|]; [|reflexivity].
  destruct (_ && _); [reflexivity|]. cbn [negb]. rewrite digits_once. unfold ask. cbn [List.length app reserved]. change (Z.of_nat 9) with 9. destruct (mem 1%nat 9); reflexivity.
Qed.

(** C116: For every text there are one or two requests -- for 19 (float: 9) and for 9 bytes -- which depend on the text only.  If they are
    granted, atof does what it does with plenty of memory; if one is denied, the program is terminated. *)
Theorem C116_reading : forall t s, exists rs, (rs = [Z.of_nat (reserved t)] \/ rs = [Z.of_nat (reserved t); 9]) /\
  forall mem want fb errno,
    (all_granted mem rs -> atof_memory mem t s want fb errno = Returns (atof (fmt_of t) s want fb errno) rs) /\
    (~ all_granted mem rs -> exists log, atof_memory mem t s want fb errno = Terminates log).
Proof.
  intros t s. exists (requests_of t s). split; [unfold requests_of; destruct (asks_twice t s); auto|]. intros mem want fb errno.
  unfold atof_memory. rewrite krosh_requests. unfold requests_of.
  destruct (mem 0%nat (Z.of_nat (reserved t))) eqn:M0.
  2:{ split; [intros G; specialize (G 0%nat _ eq_refl); congruence|eauto]. }
  destruct (asks_twice t s).
  - destruct (mem 1%nat 9) eqn:M1.
    + split; [reflexivity|]. intros G. exfalso. apply G. intros [|[|i]] n E; cbn in E; [injection E as <-; exact M0|injection E as <-; exact M1|]. destruct i; discriminate.
    + split; [intros G; specialize (G 1%nat _ eq_refl); congruence|eauto].
  - split; [reflexivity|]. intros G. exfalso. apply G. intros [|i] n E; cbn in E; [injection E as <-; exact M0|]. destruct i; discriminate.
Qed.

(** C116: it is two of them exactly for non-zero numbers with an exponent (among numbers whose mantissa has at most 2049 characters). *)
Theorem C116_requests : forall t n c rest, well_formed n -> ends_number c -> (List.length (mantissa_text n) <= parser_limit)%nat ->
  requests_of t (written n ++ c :: rest) = Z.of_nat (reserved t) :: (if (coefficient n =? 0) then [] else match n_exp n with None => [] | Some _ => [9] end).
Proof.
  intros t n c rest W Hc L. unfold requests_of. f_equal. pose proof W as (W1 & W2 & W3 & W4).
  destruct (first_after_mantissa n c rest Hc) as (x & u & E & Nx & Dx).
  assert (LZ : zlen (mantissa_text n) <= 2049) by (unfold zlen, parser_limit in *; lia).
  set (s := written n ++ c :: rest).
  assert (Es : s = mantissa_text n ++ x :: u) by (unfold s, written; now rewrite <- app_assoc, E).
  destruct (parse_digits_ok t s (n_sign n) (n_int n) (n_frac n) x u W1 W2) as (st & Hi & Hp).
  { rewrite Es. now rewrite mant_text. }
  { now apply stops_numeral. }
  { now rewrite <- mant_text. }
  rewrite <- mant_text in Hp.
  pose proof (scan_value _ _ _ _ _ _ Hi) as (tt & R & T1 & T2 & T3 & T4 & T5). destruct (scan_frac _ _ _ _ _ _ Hi) as (P1 & P2 & P3).
  unfold asks_twice, parse_mantissa. rewrite Hp. cbn [bind digit_result dp_special dp_value dp_frac dp_str_end dp_K dp_sign].
  destruct (Z.eqb_spec (coefficient n) 0) as [C0|C0].
  - assert (Z0 : dval (pd_digits st) = 0).
    { unfold coefficient in C0. rewrite frac_odig, T2 in C0. pose proof (pow10_pos tt T1). nia. }
    rewrite Z0. reflexivity.
  - assert (Z0 : dval (pd_digits st) <> 0).
    { intros Z0. apply C0. unfold coefficient. rewrite frac_odig. now apply T5. }
    destruct (mantissa_total t (dval (pd_digits st)) (pd_frac st) ltac:(lia) P2 P3) as (f & e & M1 & M2 & M3).
    unfold kr_mantissa in M1. destruct (Z.eqb_spec (dval (pd_digits st)) 0); [contradiction|]. cbn [negb].
    pose proof (width_facts t).  assert (0 < 2 ^ (width t - 1)) by (apply Z.pow_pos_nonneg; lia).
    destruct (normalize (fmt_of t) _) as [w|]; [|discriminate]. cbn [bind] in *. rewrite M1. cbn [bind mp_special mp_value m_f mp_str_end].
    destruct (Z.eqb_spec f 0); [lia|]. cbn [negb]. rewrite Es, skipn_zlen. change (read (x :: u) 0) with (Ok x).
    destruct (ends_facts c Hc) as (_ & _ & F1 & F2). unfold exponent_text in E. unfold ch_e, ch_E. destruct (n_exp n) as [ep|].
    + destruct (x_upper ep); injection E as <- _; reflexivity.
    + injection E as <- _. destruct (Z.eqb_spec c 101); [contradiction|]. destruct (Z.eqb_spec c 69); [contradiction|]. reflexivity.
Qed.

(** C116: Printing to a string makes at most two requests, the first for max_buffer_size + 1 characters unless the string keeps as many
    inside. If the first is denied, std::bad_alloc is thrown; if not, the string is the one that is made with plenty of memory, even if
    the second is denied. *)
Theorem C116_to_string : forall t v sso cs mem, let first := (max_buffer_size (fmt_of t) + 1) * cs in
  (sso < max_buffer_size (fmt_of t) -> mem 0%nat first = false -> to_string_memory mem sso cs t v = Throws [first]) /\
  (sso < max_buffer_size (fmt_of t) -> mem 0%nat first = true ->
     exists more, to_string_memory mem sso cs t v = Returns (to_basic_string (fmt_of t) v) (first :: more) /\
       (more = [] \/ exists text, to_basic_string (fmt_of t) v = Ok text /\ more = [(Z.of_nat (List.length text) + 1) * cs] /\ sso < Z.of_nat (List.length text) < max_buffer_size (fmt_of t))) /\
  (max_buffer_size (fmt_of t) <= sso -> to_string_memory mem sso cs t v = Returns (to_basic_string (fmt_of t) v) []).
Proof.
  intros t v sso cs mem first. unfold to_string_memory. fold first. split; [|split]; intros H.
  - intros M. destruct (Z.leb_spec (max_buffer_size (fmt_of t)) sso); [lia|]. unfold ask. cbn [List.length app]. now rewrite M.
  - intros M. destruct (Z.leb_spec (max_buffer_size (fmt_of t)) sso); [lia|]. unfold ask. cbn [List.length app]. rewrite M.
    destruct (to_basic_string (fmt_of t) v) as [text|f]; [|exists []; auto]. set (n := Z.of_nat (List.length text)).
    destruct (Z.ltb_spec sso n) as [A|A]; cbn [andb]; [|exists []; auto]. destruct (Z.ltb_spec n (max_buffer_size (fmt_of t))) as [B|B]; [|exists []; auto].
    exists [(n + 1) * cs]. split; [match goal with |- context [if ?b then _ else _] => destruct b end; reflexivity|]. right. exists text. fold n. auto.
  - destruct (Z.leb_spec (max_buffer_size (fmt_of t)) sso); [reflexivity|lia].
Qed.

(** * Concrete cases *)

Definition number_15e3 : numeral := {| n_sign := NoSign; n_int := [1]; n_frac := Some [5]; n_exp := Some {| x_upper := false; x_sign := NoSign; x_digits := [3] |} |}.
(** two requests for 1.5e3, one for 1.5 and one for 0e3 *)
Example C116_meets : well_formed number_15e3 /\ ends_number 0 /\ (List.length (mantissa_text number_15e3) <= parser_limit)%nat /\
  requests_of Double (text "1.5e3" ++ [0]) = [19; 9] /\ requests_of Double (text "1.5" ++ [0]) = [19] /\ requests_of Float (text "0e3" ++ [0]) = [9] /\ requests_of Float (text "x" ++ [0]) = [9].
Proof.
  split. { repeat split; try discriminate; repeat constructor; unfold digit; lia. }
  split. { repeat split; vm_compute; intuition congruence. }
  split; [apply Nat.leb_le; vm_compute; reflexivity|]. repeat split; vm_compute; reflexivity.
Qed.
(** without memory even "x", which is no number, terminates the program; with memory for one vector, 1.5e3 does *)
Theorem C116_terminates : forall want fb errno,
  atof_memory (fun _ _ => false) Double (text "x" ++ [0]) want fb errno = Terminates [19] /\
  atof_memory (fun i _ => Nat.eqb i 0) Double (text "1.5e3" ++ [0]) want fb errno = Terminates [19; 9].
Proof. intros. split; reflexivity. Qed.
(** std::string of libstdc++, a double, and a float as std::wstring: what is asked for *)
Example C116_strings : (exists rs s, to_string_memory (fun _ _ => true) 15 1 Double 4591870180066957722 = Returns (Ok s) rs /\ rs = [35] /\ s = text "0.1") /\
  (exists rs s, to_string_memory (fun i _ => Nat.eqb i 0) 3 4 Float 1110561520 = Returns (Ok s) rs /\ List.length rs = 2%nat) /\
  to_string_memory (fun _ _ => false) 15 1 Double 4591870180066957722 = Throws [35].
Proof.
  split; [eexists; eexists; split; [vm_compute; reflexivity|split; [vm_compute|]; reflexivity]|]. split; [eexists; eexists; split; [vm_compute; reflexivity|reflexivity]|]. vm_compute. reflexivity.
Qed.
