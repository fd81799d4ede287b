(** C118: printing a diy_fp to a stream in any state. *)
From Coq Require Import Reals Lra Lia ZArith Bool String Ascii List.
From Verif Require Import Machine MachineFacts BitOps Chars Format DiyFp Print Show Spec Instances
  DiyFacts BoundFacts TableFacts GrisuFacts FtoaFacts RoundFacts DownFacts ArithProps DiyProps StringProps Stream.
Import ListNotations.
Open Scope Z_scope.

(** * Specification *)
(** the number written by digits in base [b] *)
Definition value_in (b : Z) (ds : list Z) : Z := fold_left (fun a d => a * b + d) ds 0.
(** [t] is [s] with [sep] between groups of [g]; only the first group may be smaller *)
Definition in_groups (g : nat) (sep : Z) (s t : list Z) : Prop :=
  match g with
  | O => t = s
  | _ => exists first groups, s = first ++ concat groups /\ t = first ++ flat_map (fun x => sep :: x) groups /\
           (1 <= List.length first <= g)%nat /\ Forall (fun x => List.length x = g) groups
  end.
(** the character for the digit [d] *)
Definition figure (upper : bool) (d : Z) : Z := nth (Z.to_nat d) (text (if upper then "0123456789ABCDEF" else "0123456789abcdef")) 0.
(** [s] is [u] in base [b], without leading zeros, grouped *)
Definition in_base (b : Z) (o : stream) (u : Z) (s : list Z) : Prop :=
  exists ds, Forall (fun d => 0 <= d < b) ds /\ value_in b ds = u /\ ds <> [] /\ (hd 0 ds = 0 -> ds = [0]) /\
    in_groups (o_group o) (o_separator o) (map (figure (o_uppercase o)) ds) s.
(** only the width of a stream has changed: it is zero *)
Definition width_taken (o o' : stream) : Prop :=
  o_width o' = 0 /\ o_good o' = o_good o /\ o_base o' = o_base o /\ o_showbase o' = o_showbase o /\ o_showpos o' = o_showpos o /\ o_uppercase o' = o_uppercase o /\
  o_fill o' = o_fill o /\ o_adjust o' = o_adjust o /\ o_group o' = o_group o /\ o_separator o' = o_separator o.
(** an int: in decimal with its sign, otherwise as the unsigned number with the same 32 bits *)
Definition int_text (o : stream) (v : Z) (s : list Z) : Prop :=
  match o_base o with
  | Dec => exists r, in_base 10 o (Z.abs v) r /\ s = (if v <? 0 then text "-" else if o_showpos o then text "+" else []) ++ r
  | Hex => exists r, in_base 16 o (v mod 2 ^ 32) r /\ s = (if o_showbase o && negb (v =? 0) then if o_uppercase o then text "0X" else text "0x" else []) ++ r
  | Oct => exists r, in_base 8 o (v mod 2 ^ 32) r /\ s = (if o_showbase o && negb (v =? 0) then text "0" else []) ++ r
  end.

(** * Proofs *)
Lemma value_snoc : forall b l d, value_in b (l ++ [d]) = value_in b l * b + d.
Proof. intros. unfold value_in. rewrite fold_left_app. reflexivity. Qed.
Lemma base_digits_ok : forall b, 2 <= b -> forall n v, 0 <= v < b ^ Z.of_nat n -> (0 < n)%nat ->
  Forall (fun d => 0 <= d < b) (base_digits n b v) /\ value_in b (base_digits n b v) = v /\ base_digits n b v <> [] /\ (hd 0 (base_digits n b v) = 0 -> base_digits n b v = [0]).
Proof.
  intros b B. induction n; intros v Hv Hn; [lia|]. cbn [base_digits]. destruct (Z.ltb_spec v b) as [L|L].
  - split; [constructor; [lia|constructor]|]. split; [unfold value_in; cbn; lia|]. split; [discriminate|]. cbn. intros ->. reflexivity.
  - rewrite Nat2Z.inj_succ, Z.pow_succ_r in Hv by lia.
    assert (0 < n)%nat by (destruct n; [cbn in Hv; lia|lia]).
    pose proof (Z.div_mod v b ltac:(lia)) as DM. pose proof (Z.mod_pos_bound v b ltac:(lia)).
    destruct (IHn (v / b)) as (F & V & NE & HZ); [split; [apply Z.div_pos; lia|apply Z.div_lt_upper_bound; lia]|lia|].
    split; [apply Forall_app; split; [exact F|constructor; [lia|constructor]]|]. split; [rewrite value_snoc, V; lia|].
    split; [destruct (base_digits n b (v / b)); discriminate|].
    intros Z0. exfalso. destruct (base_digits n b (v / b)) as [|a ds]; [contradiction|]. cbn in Z0. specialize (HZ Z0). rewrite HZ in V. unfold value_in in V. cbn in V.
    assert (1 <= v / b) by (apply Z.div_le_lower_bound; lia). lia.
Qed.

Lemma grouped_0 : forall sep s, grouped 0 sep s = s.
Proof. intros sep s. induction s as [|c s IH]; [reflexivity|]. cbn [grouped Nat.eqb negb andb]. now rewrite IH. Qed.
Lemma grouped_short : forall g sep s, (0 < g)%nat -> (List.length s <= g)%nat -> grouped g sep s = s.
Proof.
  intros g sep s G. induction s as [|c s IH]; intros L; [reflexivity|]. cbn [grouped List.length] in *. rewrite IH by lia.
  destruct (Nat.eqb_spec (List.length s) 0); [now rewrite andb_false_r|]. rewrite Nat.mod_small by lia. destruct (Nat.eqb_spec (List.length s) 0); [contradiction|]. now rewrite andb_false_r.
Qed.
Lemma grouped_app : forall g sep k b, (0 < g)%nat -> List.length b = (k * g)%nat -> (0 < k)%nat -> forall x, (1 <= List.length x <= g)%nat ->
  grouped g sep (x ++ b) = x ++ sep :: grouped g sep b.
Proof.
  intros g sep k b G B K x. induction x as [|c x IH]; intros L; [cbn in L; lia|]. cbn [grouped app List.length] in *.
  assert (B1 : (1 <= List.length b)%nat) by nia.
  destruct (Nat.eqb_spec g 0); [lia|]. rewrite app_length. destruct (Nat.eqb_spec (List.length x + List.length b) 0); [lia|]. cbn [negb andb].
  destruct x as [|c1 x].
  - cbn [List.length app Nat.add]. rewrite B, Nat.mod_mul by lia. reflexivity.
  - cbn [List.length] in L. rewrite IH by (cbn [List.length]; lia). rewrite B, Nat.mod_add, Nat.mod_small by (cbn [List.length]; lia). reflexivity.
Qed.
Lemma grouped_ok : forall g sep s, s <> [] -> in_groups g sep s (grouped g sep s).
Proof.
  intros g sep s NE. destruct g as [|g']; [apply grouped_0|]. cbn [in_groups]. set (g := S g'). assert (G : (0 < g)%nat) by (unfold g; lia).
  assert (I : forall k s, List.length s = (k * g)%nat -> (0 < k)%nat -> exists groups, s = concat groups /\ sep :: grouped g sep s = flat_map (fun x => sep :: x) groups /\ Forall (fun x => List.length x = g) groups).
  { induction k as [|k IH]; intros r L K; [lia|]. destruct k as [|k].
    - exists [r]. cbn. rewrite !app_nil_r. rewrite grouped_short by lia. split; [reflexivity|]. split; [reflexivity|]. constructor; [lia|constructor].
    - rewrite <- (firstn_skipn g r). destruct (IH (skipn g r)) as (gs & E & E1 & F); [rewrite skipn_length; lia|lia|].
      exists (firstn g r :: gs). assert (LF : List.length (firstn g r) = g) by (rewrite firstn_length; lia).
      rewrite (grouped_app g sep (S k)) by (rewrite ?skipn_length; lia). cbn [concat flat_map]. rewrite <- E, E1. split; [reflexivity|]. split; [reflexivity|]. now constructor. }
  assert (LS : (0 < List.length s)%nat) by (destruct s; [contradiction|cbn; lia]).
  set (m := ((List.length s - 1) mod g)%nat). set (k := ((List.length s - 1) / g)%nat).
  assert (D : (List.length s = S m + k * g)%nat) by (pose proof (Nat.div_mod (List.length s - 1) g ltac:(lia)); unfold m, k; nia).
  assert (M : (m < g)%nat) by (apply Nat.mod_upper_bound; lia).
  destruct k as [|k].
  - exists s, []. cbn. rewrite !app_nil_r. rewrite grouped_short by lia. repeat split; [lia|lia|constructor].
  - destruct (I (S k) (skipn (S m) s)) as (gs & E & E1 & F); [rewrite skipn_length; lia|lia|].
    exists (firstn (S m) s), gs. rewrite <- E, <- E1, firstn_skipn. split; [reflexivity|]. split; [|split; [rewrite firstn_length; lia|exact F]].
    rewrite <- (firstn_skipn (S m) s) at 1. apply grouped_app with (S k); rewrite ?skipn_length, ?firstn_length; lia.
Qed.

Lemma figure_ok : forall b ds upper, b <= 16 -> Forall (fun d => 0 <= d < b) ds -> map (digit_char upper) ds = map (figure upper) ds.
Proof.
  intros b ds upper B F. induction F as [|d ds D F IH]; [reflexivity|]. cbn [map]. rewrite IH. f_equal.
  assert (C : d = 0 \/ d = 1 \/ d = 2 \/ d = 3 \/ d = 4 \/ d = 5 \/ d = 6 \/ d = 7 \/ d = 8 \/ d = 9 \/ d = 10 \/ d = 11 \/ d = 12 \/ d = 13 \/ d = 14 \/ d = 15) by lia.
  repeat (destruct C as [->|C]; [destruct upper; reflexivity|]). subst d. destruct upper; reflexivity.
Qed.
Lemma digits_in_base : forall b o u, 2 <= b <= 16 -> 0 <= u < 2 ^ 32 ->
  in_base b o u (grouped (o_group o) (o_separator o) (map (digit_char (o_uppercase o)) (base_digits 32 b u))).
Proof.
  intros b o u B U. destruct (base_digits_ok b (proj1 B) 32 u) as (A1 & A2 & A3 & A4); [|lia|].
  - split; [lia|]. apply Z.lt_le_trans with (1 := proj2 U). change (Z.of_nat 32) with 32. apply Z.pow_le_mono_l. lia.
  - exists (base_digits 32 b u). split; [exact A1|]. split; [exact A2|]. split; [exact A3|]. split; [exact A4|]. rewrite <- (figure_ok b) by (try exact A1; lia). apply grouped_ok. destruct (base_digits 32 b u); [contradiction|discriminate].
Qed.
Lemma put_int_ok : forall o v, - 2 ^ 31 <= v < 2 ^ 31 -> int_text o v (put_int o v).
Proof.
  intros o v V. unfold int_text, put_int. assert (W : 0 <= wrap 32 v < 2 ^ 32) by (apply Z.mod_pos_bound; lia).
  assert (WZ : (wrap 32 v =? 0) = (v =? 0)).
  { unfold wrap. destruct (Z.eqb_spec v 0) as [->|N]; [reflexivity|]. apply Z.eqb_neq. intros C. apply Z.mod_divide in C; [|lia]. destruct C as [q C]. change (2 ^ 32) with 4294967296 in C. change (2 ^ 31) with 2147483648 in V. lia. }
  destruct (o_base o).
  - eexists. split; [apply (digits_in_base 10); [lia|change (2 ^ 31) with 2147483648 in V; change (2 ^ 32) with 4294967296; lia]|reflexivity].
  - eexists. split; [apply (digits_in_base 16); [lia|exact W]|]. rewrite WZ. destruct (o_showbase o), (v =? 0), (o_uppercase o); reflexivity.
  - eexists. split; [apply (digits_in_base 8); [lia|exact W]|]. rewrite WZ. reflexivity.
Qed.

(** C118: Whatever the state of the stream, the binary digits of the mantissa are printed; the exponent is printed as the stream prints
    an int; the width pads the first piece, "(f = ", and is zero afterwards. *)
Theorem C118_shown : forall t o d, o_good o = true -> 0 <= m_f d < 2 ^ width t -> - 2 ^ 31 <= m_e d < 2 ^ 31 ->
  exists first b e o', diy_put (fmt_of t) o d = (first ++ b ++ text ", e = " ++ e ++ text ")", o') /\ width_taken o o' /\
    (exists fill, Z.of_nat (List.length fill) = Z.max 0 (o_width o - 5) /\ Forall (fun c => c = o_fill o) fill /\
       first = match o_adjust o with Left => text "(f = " ++ fill | _ => fill ++ text "(f = " end) /\
    bits_text b /\ Z.of_nat (List.length b) = width t /\ bval (bdigits b) = m_f d /\ int_text o (m_e d) e.
Proof.
  intros t o d G Hf He. pose proof (width_facts t). unfold diy_put. rewrite G.
  exists (padded o (text "(f = ")), (print_binary (Z.to_nat (width t)) (m_f d)), (put_int o (m_e d)), (without_width o).
  destruct (C53_print_binary (Z.to_nat (width t)) (m_f d)) as (B1 & B2 & B3); [rewrite Z2Nat.id by lia; exact Hf|].
  split; [rewrite fw_width; reflexivity|]. split; [repeat split|]. split.
  - exists (padding o (text "(f = ")). split; [unfold padding; rewrite repeat_length; change (Z.of_nat (List.length (text "(f = "))) with 5; lia|].
    split; [apply Forall_forall; intros c C; now apply repeat_spec in C|]. unfold padded. destruct (o_adjust o); reflexivity.
  - split; [exact B1|]. split; [rewrite B2; lia|]. split; [exact B3|]. now apply put_int_ok.
Qed.

(** C118: Nothing is appended to a stream that is not good. *)
Theorem C118_not_good : forall t o d, o_good o = false -> diy_put (fmt_of t) o d = ([], o).
Proof. intros t o d G. unfold diy_put. now rewrite G. Qed.

(** C118: In the state streams have at first it is the text of C78. *)
Theorem C118_initial : forall t d, - 2 ^ 31 <= m_e d < 2 ^ 31 -> diy_put (fmt_of t) initial d = (diy_show (fmt_of t) d, initial).
Proof.
  intros t d He. unfold diy_put. change (o_good initial) with true. cbv iota. f_equal. unfold diy_show.
  change (padded initial [ch_lpar; ch_f; ch_space; ch_equal; ch_space]) with [ch_lpar; ch_f; ch_space; ch_equal; ch_space]. do 4 f_equal.
  enough (Q : put_int initial (m_e d) = show_int (m_e d)) by now rewrite Q.
  unfold initial.
  unfold put_int. cbn [o_base o_group o_separator o_uppercase o_showpos]. rewrite grouped_0. unfold show_int.
  assert (E : forall n v, 0 <= v < 10 ^ Z.of_nat n -> (0 < n)%nat -> forall m, (n <= m)%nat -> map (digit_char false) (base_digits m 10 v) = decimal_digits n v).
  { induction n as [|n IH]; intros v V N m M; [lia|]. destruct m as [|m]; [lia|]. cbn [base_digits decimal_digits]. destruct (Z.ltb_spec v 10) as [L|L].
    - cbn [map]. unfold digit_char. destruct (Z.ltb_spec v 10); [reflexivity|lia].
    - rewrite Nat2Z.inj_succ, Z.pow_succ_r in V by lia. assert (0 < n)%nat by (destruct n; [cbn in V; lia|lia]).
      rewrite map_app, (IH (v / 10)) by first [lia | split; [apply Z.div_pos; lia|apply Z.div_lt_upper_bound; lia]]. cbn [map]. unfold digit_char.
      pose proof (Z.mod_pos_bound v 10 ltac:(lia)). destruct (Z.ltb_spec (v mod 10) 10); [reflexivity|lia]. }
  change (2 ^ 31) with 2147483648 in He.
  destruct (Z.ltb_spec (m_e d) 0) as [L|L].
  - rewrite (E 10%nat) by (try lia; cbn; lia). rewrite Z.abs_neq by lia. reflexivity.
  - rewrite (E 10%nat) by (try lia; cbn; lia). rewrite Z.abs_eq by lia. reflexivity.
Qed.

(** * The value can be read off, in every state *)
Lemma digit_char_inj : forall u b l1 l2, b <= 16 -> Forall (fun d => 0 <= d < b) l1 -> Forall (fun d => 0 <= d < b) l2 ->
  map (digit_char u) l1 = map (digit_char u) l2 -> l1 = l2.
Proof.
  intros u b. induction l1 as [|d l1 IH]; intros [|e l2] B F G E; try discriminate; [reflexivity|]. cbn [map] in E. injection E as E1 E2.
  inversion F; inversion G; subst. f_equal; [|now apply IH]. unfold digit_char in E1.
  destruct u, (Z.ltb_spec d 10), (Z.ltb_spec e 10); lia.
Qed.
Lemma grouped_length : forall g sep s t, List.length s = List.length t -> List.length (grouped g sep s) = List.length (grouped g sep t).
Proof.
  intros g sep. induction s as [|c s IH]; intros [|d t] L; try discriminate; [reflexivity|]. cbn [List.length] in L. injection L as L. cbn [grouped]. rewrite <- L.
  destruct (_ && _); cbn [List.length]; now rewrite (IH t L).
Qed.
Lemma grouped_longer : forall g sep s t, (List.length s < List.length t)%nat -> (List.length (grouped g sep s) < List.length (grouped g sep t))%nat.
Proof.
  intros g sep s t. induction t as [|c t IH]; intros L; [cbn in L; lia|]. cbn [List.length] in L.
  assert (B : (List.length (grouped g sep t) < List.length (grouped g sep (c :: t)))%nat) by (cbn [grouped]; destruct (_ && _); cbn [List.length]; lia).
  destruct (Nat.eq_dec (List.length s) (List.length t)) as [E|E]; [rewrite (grouped_length g sep s t E); exact B|]. specialize (IH ltac:(lia)). lia.
Qed.
Lemma grouped_inj : forall g sep s t, grouped g sep s = grouped g sep t -> s = t.
Proof.
  intros g sep s t E. assert (L : List.length s = List.length t).
  { apply (f_equal (@List.length Z)) in E. destruct (Nat.lt_total (List.length s) (List.length t)) as [C|[C|C]]; [|exact C|]; apply (grouped_longer g sep) in C; lia. }
  revert t L E. induction s as [|c s IH]; intros [|d t] L E; try discriminate; [reflexivity|]. cbn [List.length] in L. injection L as L. cbn [grouped] in E. rewrite <- L in E.
  destruct (_ && _); injection E as -> E; f_equal; now apply IH.
Qed.
Lemma put_digits_inj : forall o b u v, 2 <= b <= 16 -> 0 <= u < 2 ^ 32 -> 0 <= v < 2 ^ 32 ->
  grouped (o_group o) (o_separator o) (map (digit_char (o_uppercase o)) (base_digits 32 b u)) = grouped (o_group o) (o_separator o) (map (digit_char (o_uppercase o)) (base_digits 32 b v)) -> u = v.
Proof.
  intros o b u v B U V E.
  assert (P : 2 ^ 32 <= b ^ Z.of_nat 32) by (change (Z.of_nat 32) with 32; apply Z.pow_le_mono_l; lia).
  destruct (base_digits_ok b ltac:(lia) 32 u ltac:(lia) ltac:(lia)) as (A1 & A2 & _). destruct (base_digits_ok b ltac:(lia) 32 v ltac:(lia) ltac:(lia)) as (B1 & B2 & _).
  rewrite <- A2, <- B2. f_equal. apply (digit_char_inj (o_uppercase o) b); [lia|exact A1|exact B1|].
  now apply grouped_inj in E.
Qed.
Lemma first_char : forall g sep b up u r, 2 <= b <= 16 -> 0 <= u < 2 ^ 32 -> exists c t, grouped g sep (map (digit_char up) (base_digits 32 b u)) ++ r = c :: t /\ 48 <= c.
Proof.
  intros g sep b up u r B U.
  assert (P : 2 ^ 32 <= b ^ Z.of_nat 32) by (change (Z.of_nat 32) with 32; apply Z.pow_le_mono_l; lia).
  destruct (base_digits_ok b ltac:(lia) 32 u ltac:(lia) ltac:(lia)) as (A1 & A2 & A3 & _). destruct (base_digits 32 b u) as [|d l]; [contradiction|].
  cbn [map grouped app]. eexists. eexists. split; [reflexivity|]. inversion A1; subst. unfold digit_char. destruct (Z.ltb_spec d 10); [lia|]. destruct up; lia.
Qed.
Lemma put_int_inj : forall o v w, - 2 ^ 31 <= v < 2 ^ 31 -> - 2 ^ 31 <= w < 2 ^ 31 -> put_int o v = put_int o w -> v = w.
Proof.
  intros o v w V W E. change (2 ^ 31) with 2147483648 in *. unfold put_int in E. assert (Wr : forall x, 0 <= wrap 32 x < 2 ^ 32) by (intros; apply Z.mod_pos_bound; lia).
  assert (U : wrap 32 v = wrap 32 w -> v = w).
  { unfold wrap. change (2 ^ 32) with 4294967296. intros M. pose proof (Z.div_mod v 4294967296 ltac:(lia)). pose proof (Z.div_mod w 4294967296 ltac:(lia)).
    assert (-1 <= v / 4294967296 <= 0) by (split; [apply Z.div_le_lower_bound; lia|apply Z.lt_succ_r, Z.div_lt_upper_bound; lia]).
    assert (-1 <= w / 4294967296 <= 0) by (split; [apply Z.div_le_lower_bound; lia|apply Z.lt_succ_r, Z.div_lt_upper_bound; lia]). lia. }
  destruct (o_base o).
  - assert (A : forall x, - 2147483648 <= x < 2147483648 -> 0 <= Z.abs x < 2 ^ 32) by (change (2 ^ 32) with 4294967296; lia).
    destruct (first_char (o_group o) (o_separator o) 10 (o_uppercase o) (Z.abs v) [] ltac:(lia) (A v V)) as (c & t & E1 & C1).
    destruct (first_char (o_group o) (o_separator o) 10 (o_uppercase o) (Z.abs w) [] ltac:(lia) (A w W)) as (c' & t' & E2 & C2).
    rewrite app_nil_r in E1, E2. pose proof (put_digits_inj o 10 (Z.abs v) (Z.abs w) ltac:(lia) (A v V) (A w W)) as D. rewrite E1, E2 in *.
    destruct (Z.ltb_spec v 0), (Z.ltb_spec w 0); destruct (o_showpos o); cbn [app] in E; injection E; intros; subst; try lia;
      (assert (Z.abs v = Z.abs w) by (apply D; congruence)); lia.
  - apply U. destruct (o_showbase o && negb (wrap 32 v =? 0)) eqn:B1, (o_showbase o && negb (wrap 32 w =? 0)) eqn:B2.
    + apply app_inv_head in E. exact (put_digits_inj o 16 _ _ ltac:(lia) (Wr v) (Wr w) E).
    + cbn [app] in E. destruct (o_showbase o); [|discriminate]. cbn [andb] in *. apply negb_false_iff, Z.eqb_eq in B2. rewrite B2 in E. change (base_digits 32 16 0) with [0] in E. cbn [map grouped List.length] in E. rewrite andb_false_r in E. cbn [andb] in E. discriminate.
    + cbn [app] in E. destruct (o_showbase o); [|discriminate]. cbn [andb] in *. apply negb_false_iff, Z.eqb_eq in B1. rewrite B1 in E. change (base_digits 32 16 0) with [0] in E. cbn [map grouped List.length] in E. rewrite andb_false_r in E. cbn [andb] in E. discriminate.
    + cbn [app] in E. exact (put_digits_inj o 16 _ _ ltac:(lia) (Wr v) (Wr w) E).
  - apply U. destruct (o_showbase o && negb (wrap 32 v =? 0)) eqn:B1, (o_showbase o && negb (wrap 32 w =? 0)) eqn:B2.
    + apply app_inv_head in E. exact (put_digits_inj o 8 _ _ ltac:(lia) (Wr v) (Wr w) E).
    + cbn [app] in E. destruct (o_showbase o); [|discriminate]. cbn [andb] in *. apply negb_false_iff, Z.eqb_eq in B2. rewrite B2 in E. change (base_digits 32 8 0) with [0] in E. cbn [map grouped List.length] in E. rewrite andb_false_r in E. cbn [andb] in E.
      destruct (first_char (o_group o) (o_separator o) 8 (o_uppercase o) (wrap 32 v) [] ltac:(lia) (Wr v)) as (c & t & E1 & C1). rewrite app_nil_r in E1. rewrite E1 in E. discriminate.
    + cbn [app] in E. destruct (o_showbase o); [|discriminate]. cbn [andb] in *. apply negb_false_iff, Z.eqb_eq in B1. rewrite B1 in E. change (base_digits 32 8 0) with [0] in E. cbn [map grouped List.length] in E. rewrite andb_false_r in E. cbn [andb] in E.
      destruct (first_char (o_group o) (o_separator o) 8 (o_uppercase o) (wrap 32 w) [] ltac:(lia) (Wr w)) as (c & t & E1 & C1). rewrite app_nil_r in E1. rewrite E1 in E. discriminate.
    + cbn [app] in E. exact (put_digits_inj o 8 _ _ ltac:(lia) (Wr v) (Wr w) E).
Qed.

(** C118: In any one state, different values are printed differently. *)
Theorem C118_read_off : forall t o d d', o_good o = true ->
  0 <= m_f d < 2 ^ width t -> 0 <= m_f d' < 2 ^ width t -> - 2 ^ 31 <= m_e d < 2 ^ 31 -> - 2 ^ 31 <= m_e d' < 2 ^ 31 ->
  fst (diy_put (fmt_of t) o d) = fst (diy_put (fmt_of t) o d') -> d = d'.
Proof.
  intros t o [f e] [f' e'] G Hf Hf' He He' E. cbn [m_f m_e] in *. unfold diy_put in E. rewrite G in E. cbn [fst m_f m_e] in E. rewrite fw_width in E. pose proof (width_facts t).
  apply app_inv_head in E.
  destruct (C53_print_binary (Z.to_nat (width t)) f) as (B1 & B2 & B3); [rewrite Z2Nat.id by lia; exact Hf|].
  destruct (C53_print_binary (Z.to_nat (width t)) f') as (B1' & B2' & B3'); [rewrite Z2Nat.id by lia; exact Hf'|].
  assert (I : forall (a b c d : list Z), List.length a = List.length b -> a ++ c = b ++ d -> a = b /\ c = d).
  { induction a as [|x a IH]; intros [|y b] c d L Q; try discriminate; [auto|]. cbn in L, Q. injection Q as -> Q. destruct (IH b c d ltac:(lia) Q) as [-> ->]. auto. }
  apply I in E as [E1 E2]; [|congruence]. f_equal.
  - congruence.
  - cbn [app] in E2. injection E2 as E2. apply app_inv_tail in E2. now apply (put_int_inj o).
Qed.

(** * Concrete cases *)
Definition in_hex : stream := {| o_good := true; o_base := Hex; o_showbase := true; o_showpos := true; o_uppercase := true;
  o_width := 8; o_fill := 42; o_adjust := Left; o_group := 0; o_separator := 44 |}.
Definition in_english : stream := {| o_good := true; o_base := Dec; o_showbase := false; o_showpos := true; o_uppercase := false;
  o_width := 7; o_fill := 32; o_adjust := Internal; o_group := 3; o_separator := 44 |}.
Example C118_at_work :
  diy_put single in_hex (mk_diy 5 (-17)) = (text "(f = ***00000000000000000000000000000101, e = 0XFFFFFFEF)", without_width in_hex) /\
  diy_put single in_hex (mk_diy 5 0) = (text "(f = ***00000000000000000000000000000101, e = 0)", without_width in_hex) /\
  diy_put single in_english (mk_diy 5 (-1074)) = (text "  (f = 00000000000000000000000000000101, e = -1,074)", without_width in_english) /\
  diy_put single (without_width in_english) (mk_diy 5 971) = (text "(f = 00000000000000000000000000000101, e = +971)", without_width in_english).
Proof. repeat split; vm_compute; reflexivity. Qed.
Example C118_meets : o_good in_english = true /\ 0 <= m_f (mk_diy 5 (-1074)) < 2 ^ width Float /\ - 2 ^ 31 <= m_e (mk_diy 5 (-1074)) < 2 ^ 31 /\
  Forall (fun d => 0 <= d < 10) [1;0;7;4] /\ value_in 10 [1;0;7;4] = 1074 /\ in_groups 3 44 (text "1074") (text "1,074").
Proof.
  split; [reflexivity|]. split; [vm_compute; intuition congruence|]. split; [vm_compute; intuition congruence|].
  split; [repeat constructor; lia|]. split; [reflexivity|]. exists (text "1"), [text "074"]. split; [reflexivity|]. split; [reflexivity|]. split; [cbn; lia|repeat constructor].
Qed.
