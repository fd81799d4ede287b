(** The cached powers of ten and the choice of the scaling power. *)
From Coq Require Import Reals Lra.
From Flocq Require Import Core.
From Verif Require Import Machine MachineFacts BitOps Format DiyFp KComp Grisu Spec Instances DiyFacts.
Open Scope Z_scope.

(** [lo, lo+1, ..., hi] *)
Definition zrange (lo hi : Z) : list Z := map (fun i => lo + Z.of_nat i) (seq 0 (Z.to_nat (hi - lo + 1))).

Lemma zrange_in : forall lo hi k, lo <= k <= hi -> In k (zrange lo hi).
Proof.
  intros lo hi k H. unfold zrange. apply in_map_iff. exists (Z.to_nat (k - lo)).
  split; [lia|]. apply in_seq. lia.
Qed.

Lemma zrange_forall : forall lo hi (p : Z -> bool), forallb p (zrange lo hi) = true ->
  forall k, lo <= k <= hi -> p k = true.
Proof. intros lo hi p H k Hk. rewrite forallb_forall in H. apply H, zrange_in, Hk. Qed.

(** [f * 2^e] is within half a unit of [10^k]; everything multiplied by
    [2^a * 10^b] to stay in the integers. *)
Definition near_pow10 (f e k : Z) : bool :=
  let a := Z.max 0 (- e) + 1 in
  let b := Z.max 0 (- k) in
  Z.abs (f * 2 ^ (e + a) * 10 ^ b - 10 ^ (k + b) * 2 ^ a) <=? 2 ^ (e - 1 + a) * 10 ^ b.

Lemma bpow_IZR : forall (r : radix) e, 0 <= e -> bpow r e = IZR (r ^ e).
Proof. intros. symmetry. now apply IZR_Zpower. Qed.

Lemma near_pow10_R : forall f e k, near_pow10 f e k = true ->
  (Rabs (IZR f * bpow radix2 e - pow10 k) <= / 2 * bpow radix2 e)%R.
Proof.
  intros f e k H. unfold near_pow10 in H. apply Z.leb_le in H.
  set (a := Z.max 0 (- e) + 1) in *. set (b := Z.max 0 (- k)) in *.
  assert (Ha : 0 <= e - 1 + a /\ 1 <= a) by (unfold a; lia).
  assert (Hb : 0 <= k + b /\ 0 <= b) by (unfold b; lia).
  apply IZR_le in H. rewrite abs_IZR, minus_IZR, !mult_IZR in H.
  change (2 ^ (e + a)) with (radix2 ^ (e + a)) in H. change (2 ^ a) with (radix2 ^ a) in H.
  change (2 ^ (e - 1 + a)) with (radix2 ^ (e - 1 + a)) in H.
  change (10 ^ b) with (radix10 ^ b) in H. change (10 ^ (k + b)) with (radix10 ^ (k + b)) in H.
  rewrite !IZR_Zpower in H by lia.
  rewrite !bpow_plus in H.
  change (bpow radix2 (- (1))) with (/ 2)%R in H || idtac.
  assert (Pa := bpow_gt_0 radix2 a). assert (Pb := bpow_gt_0 radix10 b).
  apply Rmult_le_reg_r with (bpow radix2 a * bpow radix10 b)%R; [now apply Rmult_lt_0_compat|].
  rewrite <- (Rabs_pos_eq (bpow radix2 a * bpow radix10 b)) at 1 by (apply Rlt_le; now apply Rmult_lt_0_compat).
  rewrite <- Rabs_mult.
  replace ((IZR f * bpow radix2 e - pow10 k) * (bpow radix2 a * pow10 b))%R
    with (IZR f * (bpow radix2 e * bpow radix2 a) * pow10 b - pow10 k * pow10 b * bpow radix2 a)%R by ring.
  eapply Rle_trans; [exact H|]. right.
  replace (bpow radix2 (e - 1)) with (bpow radix2 e * / 2)%R; [ring|].
  unfold Z.sub. rewrite bpow_plus. reflexivity.
Qed.

(** [2^x <= 10^k], over the integers *)
Definition pow2_le_pow10 (x k : Z) : bool :=
  let a := Z.max 0 (- x) in
  let b := Z.max 0 (- k) in
  2 ^ (x + a) * 10 ^ b <=? 10 ^ (k + b) * 2 ^ a.

Lemma pow2_le_pow10_R : forall x k, pow2_le_pow10 x k = true -> (bpow radix2 x <= pow10 k)%R.
Proof.
  intros x k H. unfold pow2_le_pow10 in H. apply Z.leb_le in H.
  set (a := Z.max 0 (- x)) in *. set (b := Z.max 0 (- k)) in *.
  assert (Ha : 0 <= x + a /\ 0 <= a) by (unfold a; lia).
  assert (Hb : 0 <= k + b /\ 0 <= b) by (unfold b; lia).
  apply IZR_le in H. rewrite !mult_IZR in H.
  change (2 ^ (x + a)) with (radix2 ^ (x + a)) in H. change (2 ^ a) with (radix2 ^ a) in H.
  change (10 ^ b) with (radix10 ^ b) in H. change (10 ^ (k + b)) with (radix10 ^ (k + b)) in H.
  rewrite !IZR_Zpower in H by lia.
  rewrite !bpow_plus in H.
  assert (Pa := bpow_gt_0 radix2 a). assert (Pb := bpow_gt_0 radix10 b).
  apply Rmult_le_reg_r with (bpow radix2 a * bpow radix10 b)%R; [now apply Rmult_lt_0_compat|]. lra.
Qed.

Definition cached_ok (t : ftype) (k : Z) : bool :=
  match cached_power (fmt_of t) k with
  | Ok d => (2 ^ (width t - 1) <=? m_f d) && (m_f d <? 2 ^ width t) && near_pow10 (m_f d) (m_e d) k
            && (-2000 <? m_e d) && (m_e d <? 2000)
            && pow2_le_pow10 (m_e d + width t - 1) k
  | Fault _ => false
  end.

(** the advertised exponent ranges (powers_ten_single.h:267, powers_ten_double.h:410) *)
Definition table_max (t : ftype) : Z := match t with Float => 50 | Double => 343 end.

Lemma cached_ok_all : forall t, forallb (cached_ok t) (zrange (- table_max t) (table_max t)) = true.
Proof. destruct t; vm_compute; reflexivity. Qed.

Lemma cached_power_ok : forall t k, - table_max t <= k <= table_max t ->
  exists cf ce, cached_power (fmt_of t) k = Ok (mk_diy cf ce) /\
    2 ^ (width t - 1) <= cf < 2 ^ width t /\ -2000 < ce < 2000 /\
    (Rabs (IZR cf * bpow radix2 ce - pow10 k) <= / 2 * bpow radix2 ce)%R /\
    (bpow radix2 (ce + width t - 1) <= pow10 k)%R.
Proof.
  intros t k H. pose proof (zrange_forall _ _ _ (cached_ok_all t) k H) as C.
  unfold cached_ok in C. destruct (cached_power (fmt_of t) k) as [[cf ce]|]; [|discriminate].
  cbn [m_f m_e] in C. rewrite !andb_true_iff in C.
  destruct C as (((((C1 & C2) & C3) & C4) & C5) & C6).
  apply Z.leb_le in C1. apply Z.ltb_lt in C2, C4, C5. apply near_pow10_R in C3. apply pow2_le_pow10_R in C6.
  exists cf, ce. repeat split; auto with zarith.
Qed.

(** * Which power is chosen for printing *)

(** range of the exponent of the upper boundary *)
Definition pe_min (t : ftype) : Z := min_exp t - 1 - (width t - 2).
Definition pe_max (t : ftype) : Z := max_exp t - width t.

Definition scaling_ok (t : ftype) (pe : Z) : bool :=
  match k_comp_exp (grisu_alpha (fmt_of t)) pe with
  | Ok mk =>
      (- table_max t <=? mk) && (mk <=? table_max t - 1) &&
      match cached_power (fmt_of t) mk with
      | Ok d => let E := pe + m_e d + width t in
                (grisu_alpha (fmt_of t) <=? E) && (E <=? grisu_gamma (fmt_of t))
      | Fault _ => false
      end
  | Fault _ => false
  end.

Lemma scaling_ok_all : forall t, forallb (scaling_ok t) (zrange (pe_min t) (pe_max t)) = true.
Proof. destruct t; vm_compute; reflexivity. Qed.

Lemma scaling_ok_spec : forall t pe, pe_min t <= pe <= pe_max t ->
  exists mk cf ce,
    k_comp_exp (grisu_alpha (fmt_of t)) pe = Ok mk /\
    - table_max t <= mk <= table_max t - 1 /\
    cached_power (fmt_of t) mk = Ok (mk_diy cf ce) /\
    grisu_alpha (fmt_of t) <= pe + ce + width t <= grisu_gamma (fmt_of t).
Proof.
  intros t pe H. pose proof (zrange_forall _ _ _ (scaling_ok_all t) pe H) as C.
  unfold scaling_ok in C. destruct (k_comp_exp _ pe) as [mk|]; [|discriminate].
  rewrite andb_true_iff in C. destruct C as (C1 & C2).
  destruct (cached_power (fmt_of t) mk) as [[cf ce]|] eqn:E; [|discriminate].
  cbn [m_e] in C2. rewrite andb_true_iff in *. rewrite !Z.leb_le in *.
  exists mk, cf, ce. auto with zarith.
Qed.
