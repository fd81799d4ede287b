(** Facts about digit lists. *)
From Verif Require Import Machine MachineFacts Spec.
Open Scope Z_scope.

Lemma dval_acc : forall ds a, fold_left (fun a d => 10 * a + d) ds a = a * 10 ^ zlen ds + dval ds.
Proof.
  induction ds as [|d ds IH]; intros a; unfold dval; cbn [fold_left].
  - rewrite zlen_nil; cbn; lia.
  - rewrite (IH (10 * a + d)), (IH (10 * 0 + d)), zlen_cons.
    rewrite Z.pow_add_r by (pose proof (zlen_nonneg ds); lia). change (10 ^ 1) with 10. ring.
Qed.

Lemma dval_app : forall a b, dval (a ++ b) = dval a * 10 ^ zlen b + dval b.
Proof. intros. unfold dval at 1. rewrite fold_left_app. apply dval_acc. Qed.

Lemma dval_nil : dval [] = 0. Proof. reflexivity. Qed.
Lemma dval_one : forall d, dval [d] = d. Proof. intros; unfold dval; cbn [fold_left]; lia. Qed.
Lemma dval_cons : forall d ds, dval (d :: ds) = d * 10 ^ zlen ds + dval ds.
Proof. intros. change (d :: ds) with ([d] ++ ds). rewrite dval_app, dval_one. reflexivity. Qed.
Lemma dval_snoc : forall d ds, dval (ds ++ [d]) = 10 * dval ds + d.
Proof. intros. rewrite dval_app, dval_one. change (zlen [d]) with 1. lia. Qed.

Lemma pow10_pos : forall n, 0 <= n -> 0 < 10 ^ n.
Proof. intros; apply Z.pow_pos_nonneg; lia. Qed.

Lemma dval_bounds : forall ds, Forall digit ds -> 0 <= dval ds < 10 ^ zlen ds.
Proof.
  induction ds as [|d ds IH]; intros H.
  - cbn; lia.
  - inversion_clear H as [|? ? Hd Hds]. specialize (IH Hds). rewrite dval_cons, zlen_cons.
    rewrite Z.pow_add_r by (pose proof (zlen_nonneg ds); lia). change (10 ^ 1) with 10.
    unfold digit in Hd. nia.
Qed.

Lemma dval_zeros : forall n, dval (repeat 0 n) = 0.
Proof. induction n; [reflexivity|]. cbn [repeat]. rewrite dval_cons, IHn. lia. Qed.

Lemma digits_zeros : forall n, Forall digit (repeat 0 n).
Proof. induction n; constructor; [split; lia|assumption]. Qed.

Lemma dval_lower : forall d ds, Forall digit (d :: ds) -> d <> 0 -> 10 ^ zlen ds <= dval (d :: ds).
Proof.
  intros d ds H Hd. inversion_clear H as [|? ? H1 H2]. pose proof (dval_bounds ds H2).
  rewrite dval_cons. unfold digit in H1. pose proof (pow10_pos (zlen ds) (zlen_nonneg ds)). nia.
Qed.

(** A digit list is determined by its length and value. *)
Lemma dval_inj : forall a b, Forall digit a -> Forall digit b -> length a = length b ->
  dval a = dval b -> a = b.
Proof.
  induction a as [|x a IH]; intros [|y b] Ha Hb L E; try discriminate; [reflexivity|].
  inversion_clear Ha as [|? ? Hx Ha']. inversion_clear Hb as [|? ? Hy Hb'].
  rewrite !dval_cons in E. assert (EL : zlen a = zlen b) by (unfold zlen; cbn in L; lia).
  pose proof (dval_bounds a Ha'). pose proof (dval_bounds b Hb'). rewrite EL in *.
  assert (x = y) as <- by nia.
  f_equal. apply IH; try assumption; [now injection L|lia].
Qed.

Lemma dchars_app : forall a b, dchars (a ++ b) = dchars a ++ dchars b.
Proof. intros; apply map_app. Qed.
Lemma dchars_length : forall a, length (dchars a) = length a.
Proof. intros; apply map_length. Qed.
Lemma zlen_dchars : forall a, zlen (dchars a) = zlen a.
Proof. intros; apply zlen_map. Qed.
Lemma dchars_zeros : forall n, dchars (repeat 0 n) = repeat 48 n.
Proof. induction n; [reflexivity|]. cbn [repeat dchars map]. f_equal. exact IHn. Qed.
