(** C101: lists of values written to one buffer and read back. *)
From Coq Require Import Reals Lra Lia ZArith Bool List String Ascii.
From Flocq Require Import Core.
From Verif Require Import Machine MachineFacts BitOps StaticPow Fraction Format DiyFp KComp Chars Grisu Ftoa Krosh Atof Spec ParseSpec Api ParseApi Instances   DiyFacts BoundFacts TableFacts DigitGenFacts GrisuFacts PrettifyFacts ShownFacts FtoaFacts RoundFacts WrittenFacts PrintProps PrintProps2 PrintProps3 DownFacts DvalFacts CmpFacts ArithProps ScanFacts LoopFacts ParseFacts GapFacts KroshNum ShortFacts FracFacts LongFacts ParseProps Refuted LocalFacts LocalProps NegProps RoundTrip PowerTrip Protocol MeanSpec ExactSpec WholeSpec Whole PrintSpec ShowSpec ShownText Tokens CycleSpec Cycle ListSpec.
Import ListNotations.
Open Scope Z_scope.
Open Scope Z_scope.

(** ** writing *)
Lemma tight_text : forall t v s, pattern t v -> to_basic_string (fmt_of t) v = Ok s -> prints_tightly t v s.
Proof.
  intros t v s P S. rewrite (C97_to_string t v P) in S. injection S as <-. now apply C97_any_value.
Qed.

Lemma joined_cons : forall sep s ss, joined sep (s :: ss) = s ++ sep :: joined sep ss.
Proof. intros. unfold joined. cbn [flat_map]. now rewrite <- app_assoc. Qed.

Lemma save_from : forall t sep vs texts, Forall (pattern t) vs -> Forall2 (fun v s => to_basic_string (fmt_of t) v = Ok s) vs texts ->
  forall pre buf, (List.length (joined sep texts) < List.length buf)%nat ->
  save_all t sep vs (pre ++ buf) (zlen pre) = Ok (pre ++ joined sep texts ++ 0 :: skipn (S (List.length (joined sep texts))) buf, zlen pre + zlen (joined sep texts)).
Proof.
  intros t sep vs texts P F. revert P. induction F as [|v s vs texts HS F IH]; intros P pre buf L.
  - destruct buf as [|x buf]; [cbn in L; lia|]. cbn [save_all joined flat_map]. rewrite write_app by reflexivity. cbn [bind app List.length skipn]. do 2 f_equal. change (zlen []) with 0. lia.
  - inversion P as [|? ? P1 P2]; subst. rewrite joined_cons in *. rewrite app_length in L. cbn [List.length] in L. cbn [save_all].
    assert (Zp : Z.to_nat (zlen pre) = List.length pre) by (unfold zlen; lia). rewrite Zp.
    rewrite skipn_app, skipn_all, Nat.sub_diag. cbn [app skipn]. rewrite (tight_text t v s P1 HS) by lia. cbn [bind fst snd].
    rewrite firstn_app, firstn_all, Nat.sub_diag. cbn [firstn]. rewrite app_nil_r.
    replace (zlen pre + Z.of_nat (List.length s)) with (zlen (pre ++ s)) by (unfold zlen; rewrite app_length; lia).
    rewrite (app_assoc pre s), write_app by reflexivity. cbn [bind].
    replace (zlen (pre ++ s) + 1) with (zlen (pre ++ s ++ [sep])) by (unfold zlen; rewrite !app_length; cbn [List.length]; lia).
    replace ((pre ++ s) ++ sep :: skipn (S (List.length s)) buf) with ((pre ++ s ++ [sep]) ++ skipn (S (List.length s)) buf) by (rewrite <- !app_assoc; reflexivity).
    rewrite IH; [|assumption|rewrite skipn_length; lia]. f_equal. f_equal.
    + rewrite skipn_skipn. replace (S (List.length (joined sep texts)) + S (List.length s))%nat with (S (List.length (s ++ sep :: joined sep texts))) by (rewrite app_length; cbn [List.length]; lia).
      rewrite <- !app_assoc. reflexivity.
    + unfold zlen. rewrite !app_length. cbn [List.length]. lia.
Qed.

(** ** reading *)
(** the text [s] of [v] is read as [w] in front of any separator, and on its own *)
Definition read_as (t : ftype) (s : list Z) (w : Z) : Prop :=
  forall c rest fb errno, separator c -> good_fallback t fb ->
  exists r, atof (fmt_of t) (s ++ c :: rest) true fb errno = Ok r /\ at_value r = w /\ at_str_end r = Some (zlen s).

Lemma number_read : forall t v m, nonzero t v -> well_formed m -> prints t v (written m) -> exists w, read_as t (written m) w.
Proof.
  intros t v m H W P. destruct (Rlt_or_le (Rabs (value m)) (Rabs (real_of t v))) as [L|L].
  2:{ exists v. intros c rest fb errno [Hc _] G. destruct (C46_full_circle t v m c rest fb errno H W P Hc (or_intror L) G) as (r & E & A & B & _). eauto. }
  destruct (Classical_Prop.classic (normal_power t v)) as [Np|Np].
  2:{ exists v. intros c rest fb errno [Hc _] G. destruct (C46_full_circle t v m c rest fb errno H W P Hc (or_introl Np) G) as (r & E & A & B & _). eauto. }
  destruct (Rle_or_lt (Rabs (value m)) (Rabs (real_of t v) * (1 - bpow radix2 (2 - width t)))) as [Q|Q].
  - exists (v - 2 ^ (precision t - 1)). intros c rest fb errno [Hc _] G. destruct (power_outcome t v m c rest true fb errno (proj1 H) Np W P Hc L) as (w & E & A & _).
    eexists. split; [exact E|]. cbn. split; [exact (A Q)|reflexivity].
  - exists v. intros c rest fb errno [Hc _] G. destruct (power_outcome t v m c rest true fb errno (proj1 H) Np W P Hc L) as (w & E & _ & A).
    eexists. split; [exact E|]. cbn. split; [exact (A Q)|reflexivity].
Qed.

Lemma spells_self : forall w, spells w w.
Proof. induction w; constructor; [now left|assumption]. Qed.

Lemma text_read : forall t v s, pattern t v -> to_basic_string (fmt_of t) v = Ok s -> s <> [] /\ hd 0 s <> 0 /\ exists w, read_as t s w.
Proof.
  intros t v s P S. pose proof (C97_to_string t v P) as E. rewrite S in E. injection E as E. destruct (classify t v P) as [C|[C|[C|C]]].
  - rewrite (shown_nan t v C) in E. subst s. split; [discriminate|]. split; [discriminate|]. exists (Tokens.nan_of t false). intros c rest fb errno (_ & Hc & _) G.
    pose proof (C37_nan t NoSign (text "nan") c rest true fb errno (spells_self _) Hc) as X. eexists. split; [exact X|]. split; reflexivity.
  - rewrite (shown_inf t v C) in E.
    assert (X : forall sg, s = sign_text sg ++ text "inf" -> s <> [] /\ hd 0 s <> 0 /\ exists w, read_as t s w).
    { intros sg ->. split; [destruct sg; discriminate|]. split; [destruct sg; discriminate|]. exists (infinity_of t (is_minus sg)). intros c rest fb errno (_ & _ & Hc1 & Hc2) G.
      pose proof (C37_inf t sg (text "inf") [] [] (code "i") (text "nity") c rest true fb errno (spells_self _) eq_refl (Forall2_nil _)) as Y.
      assert (N : ~ any_case c (code "i")) by (intros [Q|Q]; [exact (Hc1 Q)|exact (Hc2 Q)]). specialize (Y N). cbn [app] in Y. rewrite <- app_assoc.
      eexists. split; [exact Y|]. split; reflexivity. }
    destruct (sign_field t v =? 1); [exact (X Minus E)|exact (X NoSign E)].
  - rewrite (shown_zero t v C) in E. subst s. split; [discriminate|]. split; [discriminate|]. exists 0. intros c rest fb errno (Hc & _) G.
    pose proof (C55_zero t {| n_sign := NoSign; n_int := [0]; n_frac := None; n_exp := None |} c rest true fb errno) as X.
    destruct X as [X _]; [split; [repeat constructor; unfold digit; lia|split; [constructor|split; [discriminate|exact I]]]|exact Hc|split; apply Nat.leb_le; vm_compute; reflexivity|reflexivity|reflexivity|].
    eexists. split; [exact X|]. split; reflexivity.
  - destruct (text_of t v C) as (m & W & Pm & Sm). rewrite S in Sm. injection Sm as ->. assert (NE : written m <> []) by (intros Q; apply (written_nonempty m W); rewrite Q; reflexivity).
    split; [exact NE|]. split; [|exact (number_read t v m C W Pm)].
    pose proof (written_no_nul m W) as NN. destruct (written m) as [|c r]; [contradiction|]. cbn [hd]. intros ->. apply NN. now left.
Qed.

Lemma reload_read : forall t v s w fb, to_basic_string (fmt_of t) v = Ok s -> read_as t s w -> good_fallback t fb ->
  forall errno, exists r, reload t fb v errno = Ok r /\ at_value r = w.
Proof.
  intros t v s w fb S R G errno. destruct (R 0 [] fb errno) as (r & E & V & _); [repeat split; vm_compute; intuition congruence|exact G|].
  unfold reload. rewrite S. cbn [bind]. unfold from_string.
  destruct (C51_null_end t (s ++ [0]) fb errno) as [(f & A & _)|(r1 & r2 & e & A1 & A2 & A3 & _)]; [congruence|]. exists r2. split; [exact A2|congruence].
Qed.

Lemma load_joined : forall t fb sep vs texts, good_fallback t fb -> separator sep -> Forall (pattern t) vs -> Forall2 (fun v s => to_basic_string (fmt_of t) v = Ok s) vs texts ->
  exists ws, Forall2 (fun v w => forall errno, exists r, reload t fb v errno = Ok r /\ at_value r = w) vs ws /\
  forall n rest errno, (List.length vs < n)%nat -> load_all n t fb sep (joined sep texts ++ 0 :: rest) errno = Ok (Some ws).
Proof.
  intros t fb sep vs texts G HS P F. revert P. induction F as [|v s vs texts S F IH]; intros P.
  - exists []. split; [constructor|]. intros [|n] rest errno L; [lia|]. reflexivity.
  - inversion P as [|? ? P1 P2]; subst. destruct (IH P2) as (ws & W & E). destruct (text_read t v s P1 S) as (N & H0 & w & R).
    exists (w :: ws). split; [constructor; [exact (reload_read t v s w fb S R G)|exact W]|].
    intros [|n] rest errno L; [lia|]. cbn [List.length] in L. rewrite joined_cons, <- app_assoc. cbn [app].
    destruct (R sep (joined sep texts ++ 0 :: rest) fb errno HS G) as (r & A & V & K).
    assert (R0 : read (s ++ sep :: joined sep texts ++ 0 :: rest) 0 = Ok (hd 0 s)) by (destruct s; [contradiction|reflexivity]).
    cbn [load_all]. rewrite R0. cbn [bind]. destruct (Z.eqb_spec (hd 0 s) 0); [contradiction|]. rewrite A. cbn [bind]. rewrite K.
    rewrite read_app by reflexivity. cbn [bind]. assert (0 < zlen s) by (destruct s; [contradiction|rewrite zlen_cons; pose proof (zlen_nonneg s); lia]).
    destruct (Z.eqb_spec (zlen s) 0); [lia|]. rewrite Z.eqb_refl. cbn [orb negb].
    replace (skipn (Z.to_nat (zlen s + 1)) (s ++ sep :: joined sep texts ++ 0 :: rest)) with (joined sep texts ++ 0 :: rest).
    + rewrite (E n rest (at_errno r) ltac:(lia)). cbn [bind option_map]. now rewrite V.
    + replace (Z.to_nat (zlen s + 1)) with (List.length s + 1)%nat by (unfold zlen; lia). rewrite skipn_app, skipn_all2 by lia. replace (List.length s + 1 - List.length s)%nat with 1%nat by lia. reflexivity.
Qed.

(** ** the theorems *)
(** C101: the buffer then holds the texts of the values, each followed by the separator, and a NUL;
    what is behind is untouched *)
Theorem C101_saved : forall t sep vs buf, Forall (pattern t) vs -> exists texts,
  Forall2 (fun v s => to_basic_string (fmt_of t) v = Ok s) vs texts /\
  let s := joined sep texts in
  ((List.length s < List.length buf)%nat -> save_all t sep vs buf 0 = Ok (s ++ 0 :: skipn (S (List.length s)) buf, Z.of_nat (List.length s))).
Proof.
  intros t sep vs buf P.
  assert (exists texts, Forall2 (fun v s => to_basic_string (fmt_of t) v = Ok s) vs texts) as (texts & F).
  { induction P as [|v vs P1 P2 IH]; [exists []; constructor|]. destruct IH as (texts & F). destruct (C15_to_string t v P1) as (s & _ & S). exists (s :: texts). now constructor. }
  exists texts. split; [exact F|]. intros s L. exact (save_from t sep vs texts P F [] buf L).
Qed.

(** C101: read back, every value is what it is when it is saved and loaded on its own *)
Theorem C101_loaded : forall t fb sep vs buf, good_fallback t fb -> separator sep -> Forall (pattern t) vs ->
  (List.length vs * Z.to_nat (max_buffer_size (fmt_of t)) < List.length buf)%nat ->
  exists b n ws, save_all t sep vs buf 0 = Ok (b, n) /\
  Forall2 (fun v w => forall errno, exists r, reload t fb v errno = Ok r /\ at_value r = w) vs ws /\
  forall fuel errno, (List.length vs < fuel)%nat -> load_all fuel t fb sep b errno = Ok (Some ws).
Proof.
  intros t fb sep vs buf G HS P L. destruct (C101_saved t sep vs buf P) as (texts & F & S). cbv zeta in S.
  destruct (load_joined t fb sep vs texts G HS P F) as (ws & W & E).
  assert (B : (List.length (joined sep texts) <= List.length vs * Z.to_nat (max_buffer_size (fmt_of t)))%nat).
  { clear - P F. induction F as [|v s vs texts H F IH]; [cbn; lia|]. inversion P as [|? ? P1 P2]; subst. specialize (IH P2). rewrite joined_cons, app_length. cbn [List.length].
    destruct (prints_something t v P1) as (s' & A & _ & B). destruct (C15_to_string t v P1) as (s2 & A2 & H2). rewrite H in H2. injection H2 as <-. rewrite (prints_unique _ _ _ _ A2 A).
    rewrite Nat.mul_succ_l. unfold zlen in B. assert (M : (match t with Float => 20 | Double => 25 end <= Z.to_nat (max_buffer_size (fmt_of t)))%nat) by (apply Nat.leb_le; destruct t; vm_compute; reflexivity). destruct t; lia. }
  exists (joined sep texts ++ 0 :: skipn (Datatypes.S (List.length (joined sep texts))) buf), (Z.of_nat (List.length (joined sep texts))), ws.
  split; [apply S; lia|]. split; [exact W|]. intros fuel errno Lf. now apply E.
Qed.

(** C101: so infinities and all non-zero numbers but powers of two come back as they were *)
Theorem C101_same : forall t fb sep vs buf, good_fallback t fb -> separator sep ->
  Forall (fun v => infinite t v \/ nonzero t v /\ forall k, Rabs (real_of t v) <> bpow radix2 k) vs ->
  (List.length vs * Z.to_nat (max_buffer_size (fmt_of t)) < List.length buf)%nat ->
  exists b n, save_all t sep vs buf 0 = Ok (b, n) /\
  forall fuel errno, (List.length vs < fuel)%nat -> load_all fuel t fb sep b errno = Ok (Some vs).
Proof.
  intros t fb sep vs buf G HS H L.
  assert (P : Forall (pattern t) vs) by (apply (Forall_impl _ (P := fun v => infinite t v \/ nonzero t v /\ forall k, Rabs (real_of t v) <> bpow radix2 k)); [|exact H]; intros v [[Q _]|[[[Q _] _] _]]; exact Q).
  destruct (C101_loaded t fb sep vs buf G HS P L) as (b & n & ws & S & W & E). exists b, n. split; [exact S|].
  assert (ws = vs); [|subst ws; exact E]. clear - W H G. induction W as [|v w vs ws B W IH]; [reflexivity|]. inversion H as [|? ? H1 H2]; subst. f_equal; [|exact (IH H2)].
  destruct (B 0) as (r & E & <-).
  assert (K : becomes t v v).
  { destruct H1 as [C|[C1 C2]]; [|apply plain_kept; [exact C1|intros (k & _ & Q); exact (C2 k Q)]].
    rewrite (inf_bits t v C) at 2. exact (special_becomes t v _ _ _ _ (proj1 C) (shown_inf t v C) (inf_read t _)). }
  destruct (K fb 0 G) as (r' & E' & V). congruence.
Qed.
