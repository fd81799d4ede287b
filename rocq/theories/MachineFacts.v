(** Facts about the machine layer: bounds-checked lists, wrapping arithmetic, bit operations. *)
From Verif Require Import Machine BitOps.
From Coq Require Import Arith.

(** * Lists *)

Definition zlen (l : list Z) : Z := Z.of_nat (length l).

Lemma zlen_nonneg : forall l, 0 <= zlen l.
Proof. intros; unfold zlen; lia. Qed.
Lemma zlen_app : forall a b, zlen (a ++ b) = zlen a + zlen b.
Proof. intros; unfold zlen; rewrite app_length; lia. Qed.
Lemma zlen_cons : forall x b, zlen (x :: b) = 1 + zlen b.
Proof. intros; unfold zlen; cbn [length]; lia. Qed.
Lemma zlen_nil : zlen [] = 0.
Proof. reflexivity. Qed.
Lemma zlen_map : forall (f : Z -> Z) l, zlen (map f l) = zlen l.
Proof. intros; unfold zlen; rewrite map_length; reflexivity. Qed.
Lemma zlen_repeat : forall (x : Z) n, zlen (repeat x n) = Z.of_nat n.
Proof. intros; unfold zlen; rewrite repeat_length; reflexivity. Qed.

Global Hint Rewrite zlen_app zlen_cons zlen_nil zlen_map zlen_repeat : zlen.

Lemma read_app : forall pre x post i,
  i = zlen pre -> read (pre ++ x :: post) i = Ok x.
Proof.
  intros pre x post i ->. unfold read, zlen.
  destruct (Z.ltb_spec (Z.of_nat (length pre)) 0); [lia|].
  rewrite Nat2Z.id, nth_error_app2, Nat.sub_diag; [reflexivity|lia].
Qed.

Lemma read_spec : forall l i x, read l i = Ok x <-> (0 <= i /\ nth_error l (Z.to_nat i) = Some x).
Proof.
  intros; unfold read. destruct (Z.ltb_spec i 0).
  - split; [discriminate|lia].
  - destruct (nth_error l (Z.to_nat i)); split; try intros [? ?]; try intros E; try discriminate.
    + injection E as ->; auto.
    + congruence.
Qed.

Lemma read_split : forall l i x, read l i = Ok x ->
  exists pre post, l = pre ++ x :: post /\ zlen pre = i.
Proof.
  intros l i x H. apply read_spec in H as [H1 H2].
  destruct (nth_error_split l (Z.to_nat i) H2) as (a & b & -> & E).
  exists a, b. split; [reflexivity|]. unfold zlen; lia.
Qed.

Lemma read_in : forall l i, 0 <= i < zlen l -> exists x, read l i = Ok x.
Proof.
  intros l i H. destruct (nth_error l (Z.to_nat i)) as [x|] eqn:E.
  - exists x. apply read_spec. split; [lia|assumption].
  - apply nth_error_None in E. unfold zlen in H; lia.
Qed.

Lemma read_app1 : forall a b i, i < zlen a -> read (a ++ b) i = read a i.
Proof.
  intros a b i H; unfold read, zlen in *. destruct (Z.ltb_spec i 0); [reflexivity|].
  rewrite nth_error_app1 by lia. reflexivity.
Qed.

Lemma read_app2 : forall a b i, zlen a <= i -> read (a ++ b) i = read b (i - zlen a).
Proof.
  intros a b i H; unfold read, zlen in *. destruct (Z.ltb_spec i 0); [lia|].
  destruct (Z.ltb_spec (i - Z.of_nat (length a)) 0); [lia|].
  rewrite nth_error_app2 by lia. replace (Z.to_nat (i - Z.of_nat (length a)))
    with (Z.to_nat i - length a)%nat by lia. reflexivity.
Qed.

Lemma update_app : forall pre x post y,
  update (pre ++ x :: post) (length pre) y = pre ++ y :: post.
Proof. induction pre; intros; cbn; [reflexivity|]. now rewrite IHpre. Qed.

Lemma write_app : forall pre x post y i,
  i = zlen pre -> write (pre ++ x :: post) i y = Ok (pre ++ y :: post).
Proof.
  intros pre x post y i ->. unfold write, zlen.
  rewrite app_length; cbn [length].
  replace ((0 <=? Z.of_nat (length pre)) && (Z.of_nat (length pre) <? Z.of_nat (length pre + S (length post)))) with true.
  - now rewrite Nat2Z.id, update_app.
  - symmetry. apply andb_true_intro; split; [apply Z.leb_le|apply Z.ltb_lt]; lia.
Qed.

Lemma write_list_app : forall new mid pre post i,
  i = zlen pre -> length new = length mid ->
  write_list (pre ++ mid ++ post) i new = Ok (pre ++ new ++ post).
Proof.
  induction new as [|x new IH]; intros mid pre post i -> H; destruct mid as [|m mid]; try discriminate.
  - reflexivity.
  - cbn [write_list app]. rewrite write_app by reflexivity. cbn [bind].
    specialize (IH mid (pre ++ [x]) post (zlen pre + 1)).
    rewrite <- !app_assoc in IH; cbn [app] in IH. apply IH.
    + rewrite zlen_app; reflexivity.
    + cbn in H; lia.
Qed.

Lemma read_list_app : forall mid pre post i n,
  i = zlen pre -> n = length mid ->
  read_list (pre ++ mid ++ post) i n = Ok mid.
Proof.
  induction mid as [|m mid IH]; intros pre post i n -> ->; [reflexivity|].
  cbn [length read_list app]. rewrite read_app by reflexivity. cbn [bind].
  specialize (IH (pre ++ [m]) post (zlen pre + 1) (length mid)).
  rewrite <- !app_assoc in IH; cbn [app] in IH. rewrite IH; [reflexivity| |reflexivity].
  rewrite zlen_app; reflexivity.
Qed.

Lemma skipn_skipn : forall (l : list Z) a b, skipn a (skipn b l) = skipn (a + b) l.
Proof.
  intros l a b; revert l. induction b as [|b IH]; intros l.
  - now rewrite Nat.add_0_r.
  - rewrite Nat.add_succ_r. destruct l; [now rewrite !skipn_nil|]. apply IH.
Qed.

(** evaluate closed powers *)
Ltac pcst p := lazymatch p with xH => idtac | xO ?q => pcst q | xI ?q => pcst q end.
Ltac zcst v := lazymatch v with Z0 => idtac | Zpos ?q => pcst q | Zneg ?q => pcst q end.
Ltac zclosed x := let v := eval cbv in x in zcst v.
Ltac powc := repeat match goal with
  | |- context [Z.pow ?b ?x] =>
      zclosed b; zclosed x; let v := eval cbv in (Z.pow b x) in change (Z.pow b x) with v
  | H : context [Z.pow ?b ?x] |- _ =>
      zclosed b; zclosed x; let v := eval cbv in (Z.pow b x) in change (Z.pow b x) with v in H
  end.

(** equality of results component by component *)
Ltac okeq :=
  match goal with |- Ok _ = Ok _ => apply f_equal end;
  repeat match goal with |- (_, _) = (_, _) => apply f_equal2 end;
  try reflexivity; try lia.

(** * Wrapping *)

Lemma wrap_small : forall w x, 0 <= x < 2 ^ w -> wrap w x = x.
Proof. intros; unfold wrap; now apply Z.mod_small. Qed.

Lemma wrap_range : forall w x, 0 <= w -> 0 <= wrap w x < 2 ^ w.
Proof. intros; unfold wrap. apply Z.mod_pos_bound. now apply Z.pow_pos_nonneg. Qed.

Lemma sint_ok : forall x, - 2 ^ 31 <= x < 2 ^ 31 -> sint x = Ok x.
Proof.
  intros x H; unfold sint.
  replace ((- 2 ^ 31 <=? x) && (x <? 2 ^ 31)) with true; [reflexivity|].
  symmetry; apply andb_true_intro; split; [apply Z.leb_le|apply Z.ltb_lt]; lia.
Qed.

Lemma narrow_wrap64 : forall x, - 2 ^ 31 <= x < 2 ^ 31 -> narrow_int (wrap 64 x) = x.
Proof.
  intros x H. unfold narrow_int, wrap.
  assert (E: (x mod 2 ^ 64 + 2 ^ 31) mod 2 ^ 32 = x + 2 ^ 31).
  { pose proof (Z.div_mod x (2 ^ 64) ltac:(discriminate)) as D.
    symmetry. apply Z.mod_unique with (- (x / 2 ^ 64) * 2 ^ 32); [left; lia|].
    change (2 ^ 64) with (2 ^ 32 * 2 ^ 32) in *. lia. }
  rewrite E; lia.
Qed.

Lemma narrow_small : forall x, - 2 ^ 31 <= x < 2 ^ 31 -> narrow_int x = x.
Proof. intros; unfold narrow_int; rewrite Z.mod_small; lia. Qed.

(** * Bits *)

Lemma raised_bit_c_pow : forall p, 0 <= p -> raised_bit_c p = 2 ^ p.
Proof. intros; unfold raised_bit_c. rewrite Z.shiftl_mul_pow2 by assumption. lia. Qed.

Lemma raised_bit_ok : forall w p, 0 <= p < w -> raised_bit w p = Ok (2 ^ p).
Proof.
  intros w p H; unfold raised_bit.
  replace ((0 <=? p) && (p <? w)) with true.
  - cbn. now rewrite Z.shiftl_mul_pow2, Z.mul_1_l by lia.
  - symmetry; apply andb_true_intro; split; [apply Z.leb_le|apply Z.ltb_lt]; lia.
Qed.

Lemma mask_eq : forall w n, 0 <= n <= w -> mask w n = 2 ^ n - 1.
Proof.
  intros w n H; unfold mask. destruct (Z.ltb_spec n w).
  - now rewrite raised_bit_c_pow by lia.
  - replace n with w by lia. reflexivity.
Qed.

Lemma land_mask : forall x n, 0 <= n -> Z.land x (2 ^ n - 1) = x mod 2 ^ n.
Proof. intros. rewrite <- Z.land_ones by assumption. f_equal. rewrite Z.ones_equiv; lia. Qed.

Lemma shr_ok : forall w x n, 0 <= n < w -> shr w x n = Ok (x / 2 ^ n).
Proof.
  intros w x n H; unfold shr.
  replace ((0 <=? n) && (n <? w)) with true.
  - now rewrite Z.shiftr_div_pow2 by lia.
  - symmetry; apply andb_true_intro; split; [apply Z.leb_le|apply Z.ltb_lt]; lia.
Qed.

Lemma shl_ok : forall w x n, 0 <= n < w -> 0 <= x -> x * 2 ^ n < 2 ^ w -> shl w x n = Ok (x * 2 ^ n).
Proof.
  intros w x n H Hx H2; unfold shl.
  replace ((0 <=? n) && (n <? w)) with true.
  - rewrite Z.shiftl_mul_pow2 by lia. rewrite wrap_small; [reflexivity|].
    split; [|assumption]. apply Z.mul_nonneg_nonneg; [assumption|]. apply Z.pow_nonneg; lia.
  - symmetry; apply andb_true_intro; split; [apply Z.leb_le|apply Z.ltb_lt]; lia.
Qed.

Lemma nth_bit_testbit : forall x p, 0 <= p -> nth_bit x p = Z.testbit x p.
Proof.
  intros x p Hp. unfold nth_bit. rewrite raised_bit_c_pow by assumption.
  destruct (Z.testbit x p) eqn:E.
  - apply negb_true_iff. apply Z.eqb_neq. intros C.
    assert (F: Z.testbit (Z.land x (2 ^ p)) p = false) by (rewrite C; apply Z.bits_0).
    rewrite Z.land_spec, E, Z.pow2_bits_true in F by assumption. discriminate.
  - apply negb_false_iff. apply Z.eqb_eq. apply Z.bits_inj'. intros n Hn.
    rewrite Z.land_spec, Z.bits_0.
    destruct (Z.eq_dec n p) as [->|D].
    + now rewrite E.
    + rewrite Z.pow2_bits_false by congruence. apply andb_false_r.
Qed.

Lemma testbit_top : forall x p, 0 <= p -> 0 <= x < 2 ^ (p + 1) ->
  Z.testbit x p = (2 ^ p <=? x).
Proof.
  intros x p Hp Hx.
  destruct (Z.leb_spec (2 ^ p) x) as [H|H].
  - apply Z.testbit_true; [assumption|].
    assert (E : x / 2 ^ p = 1).
    { symmetry. apply Z.div_unique with (x - 2 ^ p); [left|ring].
      rewrite Z.pow_add_r in Hx by lia. lia. }
    now rewrite E.
  - apply Z.testbit_false; [assumption|].
    rewrite Z.div_small by lia. reflexivity.
Qed.

Lemma lor_disjoint : forall a b n, 0 <= n -> 0 <= b < 2 ^ n -> 0 <= a ->
  Z.lor (a * 2 ^ n) b = a * 2 ^ n + b.
Proof.
  intros a b n Hn Hb Ha.
  assert (D : Z.land (a * 2 ^ n) b = 0).
  { apply Z.bits_inj'. intros k Hk. rewrite Z.land_spec, Z.bits_0.
    destruct (Z.lt_ge_cases k n).
    - rewrite Z.mul_pow2_bits_low by assumption. reflexivity.
    - rewrite <- (Z.mod_small b (2 ^ n)) by assumption.
      rewrite Z.mod_pow2_bits_high by lia. apply andb_false_r. }
  rewrite (Z.add_nocarry_lxor _ _ D), (Z.lxor_lor _ _ D). reflexivity.
Qed.
