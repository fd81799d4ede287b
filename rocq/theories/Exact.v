(** C94: the arithmetic of atof, exactly. *)
From Coq Require Import ZArith List.
From Verif Require Import Machine Atof Spec ParseSpec SameSpec ParseApi Instances ParseFacts ScaledFacts SameFacts KroshNum ParseProps ExactSpec ExactFacts.
Open Scope Z_scope.

(** C94: the value and the status that atof reports for a number text, or whether it asks the
    fallback, depends on three integers only, and [read_exactly] says how: to the last bit, for
    every number of any length, whatever stands behind it. *)
Theorem C94_exactly : forall t n c rest want fb errno d K T, well_formed n -> ends_number c -> within_limits n -> readable_exponent n ->
  point_moved t n d K -> looked_at t n d K T ->
  let s := written n ++ c :: rest in
  match read_exactly t (is_minus (n_sign n)) d K T with
  | Sure v st => atof (fmt_of t) s want fb errno = Ok (answer want errno v st (len (written n)))
  | Unsure => atof (fmt_of t) s want fb errno = fallback_answer t s want fb errno
  end.
Proof.
  intros t n c rest want fb errno d K T W Hc L X PM LA s.
  pose proof (krosh_exactly t n c rest d K T W Hc L X PM LA) as H. unfold answered in H. fold s in H.
  destruct (read_exactly t (is_minus (n_sign n)) d K T).
  - exact (atof_fast _ _ _ _ _ _ _ _ H (written_nonempty n W)).
  - destruct H as (v & st & H). exact (atof_slow _ _ _ _ _ _ _ _ H (written_nonempty n W)).
Qed.

(** ... and every number text has these three integers, once each *)
Theorem C94_parts : forall t n, well_formed n -> within_limits n -> coefficient n <> 0 ->
  exists d K T, point_moved t n d K /\ looked_at t n d K T /\
    forall d' K' T', point_moved t n d' K' -> looked_at t n d' K' T' -> d' = d /\ K' = K /\ T' = T.
Proof.
  intros t n W L CN. assert (Hc : ends_number 0) by (repeat split; vm_compute; intuition congruence).
  destruct (krosh_numeral t n 0 nil W Hc L) as (st & Hp & _).
  destruct (parsed_looked t n 0 nil st W Hc Hp CN) as (T & LA & _). pose proof (point_moved_parsed t n 0 nil st W Hc Hp CN) as PM.
  eexists _, _, T. split; [exact PM|]. split; [exact LA|].
  intros d' K' T' PM' LA'. destruct (point_moved_unique _ _ _ _ _ _ PM PM') as [<- <-].
  split; [reflexivity|]. split; [reflexivity|]. exact (tail_unique _ _ _ _ _ LA' LA).
Qed.

(** Hence two numbers with the same sign, the same leading digits, the same power of ten and the
    same four digits behind are read alike, whatever else they contain. *)
Theorem C94_nothing_else : forall t n m c rest c' rest' want fb errno d K T,
  well_formed n -> ends_number c -> within_limits n -> readable_exponent n -> point_moved t n d K -> looked_at t n d K T ->
  well_formed m -> ends_number c' -> within_limits m -> readable_exponent m -> point_moved t m d K -> looked_at t m d K T ->
  is_minus (n_sign n) = is_minus (n_sign m) ->
  (exists v st, atof (fmt_of t) (written n ++ c :: rest) want fb errno = Ok (answer want errno v st (len (written n))) /\
                atof (fmt_of t) (written m ++ c' :: rest') want fb errno = Ok (answer want errno v st (len (written m)))) \/
  (atof (fmt_of t) (written n ++ c :: rest) want fb errno = fallback_answer t (written n ++ c :: rest) want fb errno /\
   atof (fmt_of t) (written m ++ c' :: rest') want fb errno = fallback_answer t (written m ++ c' :: rest') want fb errno).
Proof.
  intros t n m c rest c' rest' want fb errno d K T W Hc L X PM LA W' Hc' L' X' PM' LA' S.
  pose proof (C94_exactly t n c rest want fb errno d K T W Hc L X PM LA) as H.
  pose proof (C94_exactly t m c' rest' want fb errno d K T W' Hc' L' X' PM' LA') as H'. cbv zeta in H, H'. rewrite <- S in H'.
  destruct (read_exactly t (is_minus (n_sign n)) d K T); [left; eauto|right; auto].
Qed.
