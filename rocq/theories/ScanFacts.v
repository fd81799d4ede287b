(** The digit scanner [parse_digits]: what its loop has accumulated after a prefix of the text. *)
From Coq Require Import String Ascii Lia ZArith List.
From Verif Require Import Machine MachineFacts BitOps StaticPow Fraction Format DiyFp Chars Krosh Spec Instances
  TableFacts DvalFacts ArithProps.
Open Scope Z_scope.

(** * Small pieces *)

Definition nondigit (c : Z) : Prop := ~ (48 <= c <= 57).

Fixpoint lval (l : list Z) : Z := match l with [] => 0 | d :: t => d + 10 * lval t end.

Lemma lval_app1 : forall l d, lval (l ++ [d]) = lval l + d * 10 ^ zlen l.
Proof.
  induction l as [|x l IH]; intros d; [cbn; lia|]. cbn [app lval]. rewrite IH, zlen_cons.
  rewrite Z.pow_add_r by (pose proof (zlen_nonneg l); lia). change (10 ^ 1) with 10. ring.
Qed.

Lemma lval_rev : forall ds, lval (rev ds) = dval ds.
Proof.
  induction ds as [|d ds IH]; [reflexivity|]. cbn [rev]. rewrite lval_app1, IH, dval_cons.
  unfold zlen. rewrite rev_length. ring.
Qed.

Lemma lval_nonneg : forall l, Forall digit l -> 0 <= lval l.
Proof. induction 1 as [|x l H _ IH]; cbn [lval]; unfold digit in *; lia. Qed.

Lemma weighted_sum_l : forall w kap l pow acc, 0 <= w -> Z.of_nat kap < 2 ^ 31 -> Forall digit l ->
  0 <= pow -> pow + zlen l <= Z.of_nat kap + 1 -> 0 <= acc -> acc + lval l * 10 ^ pow < 2 ^ w ->
  weighted_sum w kap l pow acc = Ok (acc + lval l * 10 ^ pow).
Proof.
  intros w kap. induction l as [|d l IH]; intros pow acc Hw Hk Hl Hp Hn Ha Hs.
  - cbn. f_equal. lia.
  - inversion_clear Hl as [|? ? Hd Hl']. rewrite zlen_cons in Hn. pose proof (zlen_nonneg l).
    pose proof (lval_nonneg l Hl'). pose proof (pow10_pos pow Hp). unfold digit in Hd.
    cbn [weighted_sum lval] in *.
    destruct (C54_seq_pow 10 kap pow Hk) as [S _]. rewrite S by lia. cbn [bind].
    assert (E : 10 ^ (pow + 1) = 10 * 10 ^ pow) by (rewrite Z.pow_add_r by lia; lia).
    assert (0 <= lval l * 10 ^ pow) by (apply Z.mul_nonneg_nonneg; lia).
    assert (0 <= d * 10 ^ pow) by (apply Z.mul_nonneg_nonneg; lia).
    assert (SP : (d + 10 * lval l) * 10 ^ pow = d * 10 ^ pow + lval l * (10 * 10 ^ pow)) by ring.
    rewrite SP in *.
    rewrite (wrap_small w (d * 10 ^ pow)) by lia. rewrite wrap_small by lia.
    rewrite IH; try assumption; try lia; rewrite E; f_equal; lia.
Qed.

Lemma weighted_sum_ok : forall w kap ds, 0 <= w -> Z.of_nat kap < 2 ^ 31 -> Forall digit ds ->
  zlen ds <= Z.of_nat kap -> 10 ^ Z.of_nat kap <= 2 ^ w ->
  weighted_sum w kap (rev ds) 0 0 = Ok (dval ds).
Proof.
  intros w kap ds Hw Hk Hd Hl Hb. pose proof (dval_bounds ds Hd) as B. pose proof (zlen_nonneg ds).
  assert (10 ^ zlen ds <= 10 ^ Z.of_nat kap) by (apply Z.pow_le_mono_r; lia).
  rewrite weighted_sum_l; try assumption; try lia.
  - rewrite lval_rev. f_equal. rewrite Z.pow_0_r. lia.
  - now apply Forall_rev.
  - unfold zlen in *. rewrite rev_length. lia.
  - rewrite lval_rev, Z.pow_0_r. lia.
Qed.

(** extraction at a position where the digit run [l] starts *)
Lemma extract_loop_ok : forall k pre l c rest p, Forall digit l -> nondigit c -> p = zlen pre ->
  extract_loop (pre ++ dchars l ++ c :: rest) p k = Ok (firstn k (l ++ repeat 0 k)).
Proof.
  induction k as [|k IH]; intros pre l c rest p Hl Hc ->; [reflexivity|].
  destruct l as [|d l].
  - cbn [dchars map app extract_loop]. rewrite read_app by reflexivity. cbn [bind].
    unfold ch_0. destruct (Z.leb_spec 0 (c - 48)), (Z.leb_spec (c - 48) 9);
      try (unfold nondigit in Hc; lia); cbn [andb]; rewrite firstn_all2 by (rewrite repeat_length; lia); reflexivity.
  - inversion_clear Hl as [|? ? Hd Hl']. cbn [dchars map app extract_loop].
    rewrite read_app by reflexivity. cbn [bind]. change (code "0") with 48. unfold ch_0, digit in *.
    destruct (Z.leb_spec 0 (48 + d - 48)); [|lia]. destruct (Z.leb_spec (48 + d - 48) 9); [|lia]. cbn [andb].
    replace (pre ++ 48 + d :: map (fun d0 : Z => 48 + d0) l ++ c :: rest)
      with ((pre ++ [48 + d]) ++ dchars l ++ c :: rest) by (rewrite <- app_assoc; reflexivity).
    rewrite IH by (try assumption; rewrite zlen_app; reflexivity). cbn [bind firstn].
    do 2 f_equal; [lia|].
    replace (repeat 0 (S k)) with (repeat 0 k ++ [0]) by (symmetry; apply repeat_cons).
    rewrite app_assoc, (firstn_app k (l ++ repeat 0%Z k)).
    replace (k - List.length (l ++ repeat 0%Z k))%nat with 0%nat by (rewrite app_length, repeat_length; lia).
    now rewrite firstn_O, app_nil_r.
Qed.

Lemma Forall_firstn : forall A (P : A -> Prop) n l, Forall P l -> Forall P (firstn n l).
Proof. induction n; intros l H; [constructor|]. destruct l; [constructor|]. inversion_clear H. constructor; auto. Qed.

(** every text position before a non-digit starts a digit run *)
Lemma digit_run : forall s p m c, 0 <= p <= m -> read s m = Ok c -> nondigit c ->
  exists pre l c' rest, s = pre ++ dchars l ++ c' :: rest /\ zlen pre = p /\ Forall digit l /\ nondigit c' /\
    p + zlen l <= m.
Proof.
  intros s p m c Hp. remember (Z.to_nat (m - p)) as n eqn:En. revert p Hp En.
  induction n as [|n IH]; intros p Hp En Hr Hc.
  - assert (p = m) as -> by lia. destruct (read_split s m c Hr) as (a & b & E & L).
    exists a, [], c, b. split; [exact E|]. split; [exact L|]. split; [constructor|]. split; [exact Hc|]. rewrite zlen_nil. lia.
  - destruct (IH (p + 1) ltac:(lia) ltac:(lia) Hr Hc) as (pre & l & c' & rest & E & L & Dl & Nc & Le).
    destruct (exists_last (l := pre)) as (pre' & x & Epre).
    { intros ->. rewrite zlen_nil in L. lia. }
    subst pre. rewrite zlen_app, zlen_cons, zlen_nil in L. rewrite <- app_assoc in E. cbn [app] in E.
    destruct (Z_le_dec 48 x) as [X1|X1]; [destruct (Z_le_dec x 57) as [X2|X2]|].
    + exists pre', (x - 48 :: l), c', rest. cbn [dchars map app]. change (code "0") with 48.
      replace (48 + (x - 48)) with x by lia. split; [exact E|]. split; [lia|].
      split; [constructor; [unfold digit; lia|assumption]|]. split; [exact Nc|]. rewrite zlen_cons. lia.
    + exists pre', [], x, (dchars l ++ c' :: rest). split; [exact E|]. split; [lia|]. split; [constructor|].
      split; [unfold nondigit; lia|]. rewrite zlen_nil. lia.
    + exists pre', [], x, (dchars l ++ c' :: rest). split; [exact E|]. split; [lia|]. split; [constructor|].
      split; [unfold nondigit; lia|]. rewrite zlen_nil. lia.
Qed.

Lemma extract_at : forall k pre l c rest p, (k <= 9)%nat -> Forall digit l -> nondigit c -> p = zlen pre ->
  extract_fraction_digits k (pre ++ dchars l ++ c :: rest) p = Ok (dval (firstn k (l ++ repeat 0 k))).
Proof.
  intros k pre l c rest p Hk Hl Hc Hp. unfold extract_fraction_digits.
  rewrite extract_loop_ok by assumption. cbn [bind].
  assert (Dg : Forall digit (firstn k (l ++ repeat 0 k))).
  { apply Forall_firstn, Forall_app. split; [assumption|apply digits_zeros]. }
  apply weighted_sum_ok; try assumption; try lia.
  - unfold zlen. rewrite firstn_length. lia.
  - apply Z.le_trans with (10 ^ 9); [apply Z.pow_le_mono_r; lia|]. apply Z.leb_le; vm_compute; reflexivity.
Qed.

Lemma extract_ok : forall k s p m c, (k <= 9)%nat -> 0 <= p <= m -> read s m = Ok c -> nondigit c ->
  exists T, extract_fraction_digits k s p = Ok T /\ 0 <= T < 10 ^ Z.of_nat k.
Proof.
  intros k s p m c Hk Hp Hr Hc.
  destruct (digit_run s p m c Hp Hr Hc) as (pre & l & c' & rest & E & L & Dl & Nc & _).
  rewrite E, extract_at by (try assumption; lia).
  eexists. split; [reflexivity|].
  assert (Dg : Forall digit (firstn k (l ++ repeat 0 k))).
  { apply Forall_firstn, Forall_app. split; [assumption|apply digits_zeros]. }
  pose proof (dval_bounds _ Dg) as B.
  assert (10 ^ zlen (firstn k (l ++ repeat 0 k)) <= 10 ^ Z.of_nat k).
  { apply Z.pow_le_mono_r; [lia|]. unfold zlen. rewrite firstn_length. lia. }
  lia.
Qed.

(** * The invariant *)

(** [so] is the length of the sign, [D] all mantissa digits seen so far, the last
    [nf] of them behind the point ([dot]: the point has been seen). *)
Definition frac_fact (s : list Z) (so : Z) (D : list Z) (nf P frac : Z) : Prop :=
  exists D1 d D2 z1 T, D = D1 ++ d :: D2 /\ 0 < d /\ dval D1 = P * 10 ^ z1 /\ 0 <= z1 <= zlen D1 /\
    extract_fraction_digits 4 s (so + zlen D1 + b2z (zlen D - nf <=? zlen D1) - z1) = Ok T /\
    0 <= T < 10000 /\ frac = convert_numerator 4 7 T.

Definition dig_inv (kap : nat) (s : list Z) (so : Z) (D : list Z) (nf : Z) (st : pstate) : Prop :=
  let ds := pd_digits st in let P := dval ds in
  let z := pd_zeros st in let g := pd_pow_gain st in let c := pd_fraction_count st in
  Forall digit ds /\ 0 <= z <= zlen D /\ 0 <= g <= zlen D /\ 0 <= c <= zlen D /\
  ( (* nothing but zeros so far *)
    (ds = [] /\ dval D = 0 /\ c = 0 /\ g = 0 /\ z = nf /\ pd_frac_calculated st = false /\ pd_frac st = 0)
  \/ (* room for more digits *)
    (ds <> [] /\ zlen ds < Z.of_nat kap /\ hd 0 ds <> 0 /\ last ds 0 <> 0 /\
     dval D = P * 10 ^ z /\ z - nf = g - c /\ g <= z /\ pd_frac_calculated st = false /\ pd_frac st = 0)
  \/ (* full *)
    (zlen ds = Z.of_nat kap /\ hd 0 ds <> 0 /\
     exists t R, 0 <= t <= zlen D /\ dval D = P * 10 ^ t + R /\ 0 <= R < 10 ^ t /\ t - nf = g - c /\
       ((pd_frac_calculated st = false /\ R = 0 /\ t = z /\ last ds 0 <> 0 /\ pd_frac st = 0)
        \/ (pd_frac_calculated st = true /\ 0 < R /\ frac_fact s so D nf P (pd_frac st))))).

Definition is_some {A} (o : option A) : bool := match o with Some _ => true | None => false end.
Definition has_sign (sg : signopt) : bool := match sg with NoSign => false | _ => true end.
Definition odig (F : option (list Z)) : list Z := match F with None => [] | Some f => f end.

(** text of a mantissa prefix: sign, digits, point and digits *)
Definition mant (sg : signopt) (I : list Z) (F : option (list Z)) : list Z :=
  sign_text sg ++ dchars I ++ match F with None => [] | Some f => 46 :: dchars f end.

Definition scan_inv (kap : nat) (s : list Z) (sg : signopt) (I : list Z) (F : option (list Z)) (st : pstate) : Prop :=
  pd_pos st = zlen (mant sg I F) /\ pd_dot_set st = is_some F /\ pd_sign_set st = has_sign sg /\
  pd_sign st = negb (is_minus sg) /\ pd_special st = sp_no /\
  dig_inv kap s (zlen (sign_text sg)) (I ++ odig F) (zlen (odig F)) st.

Lemma zlen_sign : forall sg, zlen (sign_text sg) = b2z (has_sign sg).
Proof. destruct sg; reflexivity. Qed.

Lemma zlen_mant : forall sg I F, zlen (mant sg I F) = b2z (has_sign sg) + zlen I + b2z (is_some F) + zlen (odig F).
Proof.
  intros. unfold mant. rewrite !zlen_app, zlen_sign. rewrite zlen_dchars.
  destruct F; cbn [is_some odig b2z]; [rewrite zlen_cons, zlen_dchars|rewrite zlen_nil]; lia.
Qed.

(** * One character *)

Definition same_frame (a b : pstate) : Prop :=
  pd_pos a = pd_pos b /\ pd_dot_set a = pd_dot_set b /\ pd_sign_set a = pd_sign_set b /\
  pd_sign a = pd_sign b /\ pd_special a = pd_special b.

Lemma frac_fact_snoc : forall s so D nf P frac d dot, (dot = false -> nf = 0) ->
  frac_fact s so D nf P frac -> frac_fact s so (D ++ [d]) (nf + b2z dot) P frac.
Proof.
  intros s so D nf P frac d dot Hd (D1 & x & D2 & z1 & T & E & H1 & H2 & H3 & H4 & H5 & H6).
  exists D1, x, (D2 ++ [d]), z1, T. subst D. repeat split; try assumption; try lia.
  - rewrite <- app_assoc. reflexivity.
  - rewrite <- H4. do 3 f_equal. autorewrite with zlen. pose proof (zlen_nonneg D2).
    destruct dot; cbn [b2z].
    + f_equal. lia.
    + rewrite (Hd eq_refl). destruct (Z.leb_spec (zlen D1 + (1 + zlen D2) + (1 + 0) - (0 + 0)) (zlen D1)),
        (Z.leb_spec (zlen D1 + (1 + zlen D2) - 0) (zlen D1)); lia || reflexivity.
Qed.

Lemma pow10_succ : forall z, 0 <= z -> 10 ^ (z + 1) = 10 * 10 ^ z.
Proof. intros. rewrite Z.pow_add_r by lia. lia. Qed.

Lemma step_zero_inv : forall kap s so D nf st, dig_inv kap s so D nf st -> zlen D < 2 ^ 60 ->
  (pd_dot_set st = false -> nf = 0) ->
  dig_inv kap s so (D ++ [0]) (nf + b2z (pd_dot_set st)) (step_zero st) /\ same_frame (step_zero st) st.
Proof.
  intros kap s so D nf [ds dot sset calc g z c frac spec sg pos] H HD Hnf.
  unfold dig_inv, step_zero, same_frame in *. cbn [pd_digits pd_dot_set pd_sign_set pd_frac_calculated pd_pow_gain
    pd_zeros pd_fraction_count pd_frac pd_special pd_sign pd_pos] in *.
  destruct H as (Hds & Hz & Hg & Hc & H). pose proof (zlen_nonneg D).
  rewrite zlen_app, zlen_cons, zlen_nil, dval_snoc.
  assert (B : 0 <= b2z dot <= 1 /\ b2z (negb dot) = 1 - b2z dot) by (destruct dot; cbn; lia).
  destruct H as [(E & H1 & H2 & H3 & H4 & H5 & H6)|[(E & H1 & H2 & H3 & H4 & H5 & H6 & H7 & H8)|(E & H1 & t & R & H2 & H3 & H4 & H5 & H6)]].
  - subst ds. cbn [negb orb]. destruct dot; cbn [pd_digits pd_dot_set pd_sign_set pd_frac_calculated pd_pow_gain
    pd_zeros pd_fraction_count pd_frac pd_special pd_sign pd_pos b2z negb].
    + rewrite !wrap_small by lia. split; [|repeat split]. repeat (split; [assumption || lia|]). left.
      repeat split; assumption || lia || reflexivity.
    + split; [|repeat split]. repeat (split; [assumption || lia|]). left. repeat split; assumption || lia || reflexivity.
  - destruct ds as [|d0 ds']; [congruence|]. set (ds := d0 :: ds') in *. cbn [negb orb].
    cbn [pd_digits pd_dot_set pd_sign_set pd_frac_calculated pd_pow_gain
      pd_zeros pd_fraction_count pd_frac pd_special pd_sign pd_pos].
    rewrite !wrap_small by lia. split; [|repeat split]. repeat (split; [assumption || lia|]). right; left.
    split; [assumption|]. split; [lia|]. split; [assumption|]. split; [assumption|].
    split; [rewrite pow10_succ by lia; rewrite H4; ring|]. repeat split; assumption || lia.
  - destruct ds as [|d0 ds']; [cbn in H1; congruence|]. set (ds := d0 :: ds') in *. cbn [negb orb].
    cbn [pd_digits pd_dot_set pd_sign_set pd_frac_calculated pd_pow_gain
      pd_zeros pd_fraction_count pd_frac pd_special pd_sign pd_pos].
    rewrite !wrap_small by lia. split; [|repeat split]. repeat (split; [assumption || lia|]). right; right.
    split; [assumption|]. split; [assumption|]. exists (t + 1), (10 * R). rewrite pow10_succ by lia.
    split; [lia|]. split; [rewrite H3; ring|]. split; [lia|]. split; [lia|].
    destruct H6 as [(C1 & C2 & C3 & C4 & C5)|(C1 & C2 & C3)]; [left|right].
    + repeat split; assumption || lia.
    + split; [assumption|]. split; [lia|]. apply frac_fact_snoc; assumption.
Qed.

Lemma last_snoc : forall (l : list Z) x, last (l ++ [x]) 0 = x.
Proof. intros. apply last_last. Qed.

Lemma hd_app : forall (l : list Z) x, l <> [] -> hd 0 (l ++ x) = hd 0 l.
Proof. intros [|? ?] x H; [congruence|reflexivity]. Qed.

Lemma step_nonzero_inv : forall kap s so D nf st d m cc, dig_inv kap s so D nf st -> zlen D < 2 ^ 60 ->
  (1 <= kap)%nat -> Z.of_nat kap < 100 ->
  (pd_dot_set st = false -> nf = 0) -> 1 <= d <= 9 -> 0 <= so -> 0 <= nf <= zlen D ->
  pd_pos st = so + zlen D + b2z (pd_dot_set st) -> pd_pos st <= m -> read s m = Ok cc -> nondigit cc ->
  exists st', step_nonzero kap s (48 + d) st = Ok st' /\
    dig_inv kap s so (D ++ [d]) (nf + b2z (pd_dot_set st)) st' /\ same_frame st' st.
Proof.
  intros kap s so D nf [ds dot sset calc g z c frac spec sg pos] d m cc H HD Hk1 Hk2 Hnf Hd Hso Hn Hpos Hm Hr Hcc.
  unfold dig_inv, step_nonzero, flush_zeros, same_frame, len_z in *.
  cbn [pd_digits pd_dot_set pd_sign_set pd_frac_calculated pd_pow_gain
    pd_zeros pd_fraction_count pd_frac pd_special pd_sign pd_pos] in *.
  destruct H as (Hds & Hz & Hg & Hc & H). pose proof (zlen_nonneg D).
  assert (Dd : digit d) by (unfold digit; lia).
  rewrite zlen_app, zlen_cons, zlen_nil, dval_snoc.
  assert (B : 0 <= b2z dot <= 1 /\ b2z (negb dot) = 1 - b2z dot) by (destruct dot; cbn; lia).
  fold (zlen ds). pose proof (zlen_nonneg ds) as Lds.
  change (ch_0) with 48. replace (48 + d - 48) with d by lia.
  destruct H as [(E & H1 & H2 & H3 & H4 & H5 & H6)|[(E & H1 & H2 & H3 & H4 & H5 & H6 & H7 & H8)|(E & H1 & t & R & H2 & H3 & H4 & H5 & H6)]].
  - (* first significant digit *)
    subst ds. cbn [negb]. change (zlen []) with 0.
    destruct (Z.ltb_spec 0 (Z.of_nat kap)); [|lia]. rewrite andb_true_r.
    assert (X : 0 <= wrap 64 (z - z) /\ 0 <= wrap 64 (g - g)) by (rewrite !Z.sub_diag; cbn; lia).
    destruct (Z.eqb_spec z 0) as [Ez|Ez]; cbn [negb]; cbn [pd_digits pd_dot_set pd_sign_set pd_frac_calculated pd_pow_gain
      pd_zeros pd_fraction_count pd_frac pd_special pd_sign pd_pos List.length Z.of_nat];
      destruct (Z.ltb_spec 0 (Z.of_nat kap)); try lia; eexists; (split; [reflexivity|]);
      cbn [pd_digits pd_dot_set pd_sign_set pd_frac_calculated pd_pow_gain
      pd_zeros pd_fraction_count pd_frac pd_special pd_sign pd_pos];
      (split; [|repeat split]); rewrite ?Z.sub_diag; change (wrap 64 0) with 0;
      rewrite ?(wrap_small 64 (c + (z - g))), ?(wrap_small 64 (c + b2z dot)), ?(wrap_small 64 (c + (z - g) + b2z dot)) by lia;
      cbn [app]; (split; [constructor; [assumption|constructor]|]); repeat (split; [lia|]);
      change (dval [d]) with d; change (zlen [d]) with 1; cbn [hd last].
    + destruct (Z.eq_dec 1 (Z.of_nat kap)).
      * right; right. split; [lia|]. split; [lia|]. exists 0, 0. change (10 ^ 0) with 1.
        repeat (split; [lia|]). left. repeat split; assumption || lia.
      * right; left. split; [discriminate|]. split; [lia|]. split; [lia|]. split; [lia|].
        rewrite Ez. change (10 ^ 0) with 1. repeat split; assumption || lia.
    + destruct (Z.eq_dec 1 (Z.of_nat kap)).
      * right; right. split; [lia|]. split; [lia|]. exists 0, 0. change (10 ^ 0) with 1.
        repeat (split; [lia|]). left. repeat split; assumption || lia.
      * right; left. split; [discriminate|]. split; [lia|]. split; [lia|]. split; [lia|].
        change (10 ^ 0) with 1. repeat split; assumption || lia.
  - (* more room *)
    assert (NE : negb match ds with [] => true | _ :: _ => false end = true) by (destruct ds; [congruence|reflexivity]).
    rewrite NE. destruct (Z.ltb_spec (zlen ds) (Z.of_nat kap)); [|lia]. rewrite andb_true_r.
    destruct (Z.le_gt_cases z (Z.of_nat kap - zlen ds - 1)) as [Cz|Cz].
    + (* the pending zeros and the digit fit *)
      assert (Eq : exists st1, (if negb (z =? 0) then
         {| pd_digits := ds ++ repeat 0 (Z.to_nat (Z.min z (Z.of_nat kap - zlen ds))); pd_dot_set := dot; pd_sign_set := sset;
            pd_frac_calculated := calc; pd_pow_gain := wrap 64 (g - Z.min g (Z.of_nat kap - zlen ds));
            pd_zeros := wrap 64 (z - Z.min z (Z.of_nat kap - zlen ds));
            pd_fraction_count := wrap 64 (c + (Z.min z (Z.of_nat kap - zlen ds) - Z.min g (Z.of_nat kap - zlen ds)));
            pd_frac := frac; pd_special := spec; pd_sign := sg; pd_pos := pos |}
         else {| pd_digits := ds; pd_dot_set := dot; pd_sign_set := sset; pd_frac_calculated := calc; pd_pow_gain := g;
            pd_zeros := z; pd_fraction_count := c; pd_frac := frac; pd_special := spec; pd_sign := sg; pd_pos := pos |}) = st1 /\
         st1 = {| pd_digits := ds ++ repeat 0 (Z.to_nat z); pd_dot_set := dot; pd_sign_set := sset;
            pd_frac_calculated := calc; pd_pow_gain := 0; pd_zeros := 0; pd_fraction_count := c + (z - g);
            pd_frac := frac; pd_special := spec; pd_sign := sg; pd_pos := pos |}).
      { eexists. split; [reflexivity|]. destruct (Z.eqb_spec z 0) as [Ez|Ez]; cbn [negb].
        - assert (g = 0) by lia. subst z g. cbn [Z.to_nat repeat]. rewrite app_nil_r. f_equal. lia.
        - rewrite !Z.min_l by lia. rewrite !Z.sub_diag. change (wrap 64 0) with 0. rewrite wrap_small by lia. reflexivity. }
      destruct Eq as (st1 & Eq1 & Eq2). rewrite Eq1, Eq2. clear Eq1 Eq2 st1.
      cbn [pd_digits pd_dot_set pd_sign_set pd_frac_calculated pd_pow_gain
        pd_zeros pd_fraction_count pd_frac pd_special pd_sign pd_pos].
      fold (zlen (ds ++ repeat 0 (Z.to_nat z))). rewrite zlen_app, zlen_repeat, Z2Nat.id by lia.
      destruct (Z.ltb_spec (zlen ds + z) (Z.of_nat kap)); [|lia].
      eexists. split; [reflexivity|]. cbn [pd_digits pd_dot_set pd_sign_set pd_frac_calculated pd_pow_gain
        pd_zeros pd_fraction_count pd_frac pd_special pd_sign pd_pos].
      split; [|repeat split]. rewrite wrap_small by lia.
      split; [apply Forall_app; split; [apply Forall_app; split; [assumption|apply digits_zeros]|constructor; [assumption|constructor]]|].
      split; [lia|]. split; [lia|]. split; [lia|].
      rewrite dval_snoc, dval_app, dval_zeros, zlen_repeat, Z2Nat.id, Z.add_0_r by lia.
      rewrite last_snoc, <- app_assoc, hd_app by assumption. rewrite zlen_app, zlen_app, zlen_repeat, Z2Nat.id by lia.
      rewrite zlen_cons, zlen_nil. rewrite <- H4.
      destruct (Z.eq_dec (zlen ds + z + 1) (Z.of_nat kap)).
      * right; right. split; [lia|]. split; [assumption|]. exists 0, 0. change (10 ^ 0) with 1.
        repeat (split; [lia|]). left. repeat split; assumption || lia.
      * right; left. split; [intros EE; apply app_eq_nil in EE as [EE _]; congruence|]. change (10 ^ 0) with 1.
        split; [lia|]. split; [assumption|]. split; [lia|]. repeat split; assumption || lia.
    + destruct (Z.eqb_spec z 0) as [Ez|Ez]; [lia|]. cbn [negb].
      (* the zeros fill the rest: z >= spare *)
      set (spare := Z.of_nat kap - zlen ds) in *. rewrite (Z.min_r z spare) by lia.
      cbn [pd_digits pd_dot_set pd_sign_set pd_frac_calculated pd_pow_gain
        pd_zeros pd_fraction_count pd_frac pd_special pd_sign pd_pos].
      fold (zlen (ds ++ repeat 0 (Z.to_nat spare))). rewrite zlen_app, zlen_repeat, Z2Nat.id by lia.
      destruct (Z.ltb_spec (zlen ds + spare) (Z.of_nat kap)); [lia|].
      rewrite H7. cbn [negb].
      rewrite (wrap_small 64 (z - spare)), (wrap_small 64 (g - Z.min g spare)), (wrap_small 64 (c + _)) by lia.
      replace (zlen ds + spare + (z - spare) - Z.of_nat kap) with (z - spare) by lia. rewrite wrap_small by lia.
      destruct (extract_ok 4 s (pos - (z - spare)) m cc ltac:(lia) ltac:(lia) Hr Hcc) as (T & T1 & T2).
      unfold fraction_decimal_digits, fraction_binary_digits. rewrite T1. cbn [bind].
      change (10 ^ Z.of_nat 4) with 10000 in T2.
      destruct (C25_fraction T T2) as (F1 & _). rewrite (wrap_small 8) by (change (2 ^ 8) with 256; lia).
      eexists. split; [reflexivity|]. cbn [pd_digits pd_dot_set pd_sign_set pd_frac_calculated pd_pow_gain
        pd_zeros pd_fraction_count pd_frac pd_special pd_sign pd_pos].
      split; [|repeat split]. rewrite wrap_small by lia.
      split; [apply Forall_app; split; [assumption|apply digits_zeros]|].
      split; [lia|]. split; [lia|]. split; [lia|]. right; right.
      rewrite zlen_app, zlen_repeat, Z2Nat.id by lia. split; [lia|]. split; [rewrite hd_app; assumption|].
      rewrite dval_app, dval_zeros, zlen_repeat, Z2Nat.id, Z.add_0_r by lia.
      assert (EP : dval ds * 10 ^ spare * 10 ^ (z - spare) = dval D).
      { rewrite <- Z.mul_assoc, <- Z.pow_add_r by lia. rewrite H4. do 2 f_equal. lia. }
      exists (z - spare + 1), d. rewrite pow10_succ by lia.
      assert (0 < 10 ^ (z - spare)) by (apply pow10_pos; lia).
      split; [lia|]. split; [rewrite <- EP; ring|]. split; [lia|]. split; [lia|].
      right. split; [reflexivity|]. split; [lia|].
      exists D, d, [], (z - spare), T. split; [reflexivity|]. split; [lia|]. split; [lia|]. split; [lia|].
      split; [|split; [lia|reflexivity]]. rewrite <- T1. f_equal.
      rewrite zlen_app, zlen_cons, zlen_nil, Hpos.
      destruct dot; cbn [b2z].
      * destruct (Z.leb_spec (zlen D + (1 + 0) - (nf + 1)) (zlen D)); [cbn; lia|lia].
      * rewrite (Hnf eq_refl). destruct (Z.leb_spec (zlen D + (1 + 0) - (0 + 0)) (zlen D)); [lia|cbn; lia].
  - (* full *)
    assert (NE : negb match ds with [] => true | _ :: _ => false end = true) by (destruct ds; [cbn in H1; congruence|reflexivity]).
    destruct (Z.ltb_spec (zlen ds) (Z.of_nat kap)); [lia|]. rewrite andb_false_r.
    cbn [pd_digits pd_dot_set pd_sign_set pd_frac_calculated pd_pow_gain
      pd_zeros pd_fraction_count pd_frac pd_special pd_sign pd_pos].
    fold (zlen ds). destruct (Z.ltb_spec (zlen ds) (Z.of_nat kap)); [lia|].
    assert (Pt : 0 < 10 ^ t) by (apply pow10_pos; lia).
    destruct H6 as [(C1 & C2 & C3 & C4 & C5)|(C1 & C2 & C3)]; rewrite C1; cbn [negb].
    + replace (zlen ds + z - Z.of_nat kap) with z by lia. rewrite (wrap_small 64 z) by lia.
      destruct (extract_ok 4 s (pos - z) m cc ltac:(lia) ltac:(lia) Hr Hcc) as (T & T1 & T2).
      unfold fraction_decimal_digits, fraction_binary_digits. rewrite T1. cbn [bind].
      change (10 ^ Z.of_nat 4) with 10000 in T2.
      destruct (C25_fraction T T2) as (F1 & _). rewrite (wrap_small 8) by (change (2 ^ 8) with 256; lia).
      eexists. split; [reflexivity|]. cbn [pd_digits pd_dot_set pd_sign_set pd_frac_calculated pd_pow_gain
        pd_zeros pd_fraction_count pd_frac pd_special pd_sign pd_pos].
      split; [|repeat split]. rewrite wrap_small by lia.
      split; [assumption|]. split; [lia|]. split; [lia|]. split; [lia|]. right; right. split; [lia|]. split; [assumption|].
      exists (t + 1), d. rewrite pow10_succ by lia.
      split; [lia|]. split; [rewrite H3, C2; ring|]. split; [lia|]. split; [lia|].
      right. split; [reflexivity|]. split; [lia|].
      exists D, d, [], z, T. split; [reflexivity|]. split; [lia|]. split; [rewrite H3, C2, C3; ring|]. split; [lia|].
      split; [|split; [lia|reflexivity]]. rewrite <- T1. f_equal.
      rewrite zlen_app, zlen_cons, zlen_nil, Hpos.
      destruct dot; cbn [b2z].
      * destruct (Z.leb_spec (zlen D + (1 + 0) - (nf + 1)) (zlen D)); [cbn; lia|lia].
      * rewrite (Hnf eq_refl). destruct (Z.leb_spec (zlen D + (1 + 0) - (0 + 0)) (zlen D)); [lia|cbn; lia].
    + cbn [bind]. eexists. split; [reflexivity|]. cbn [pd_digits pd_dot_set pd_sign_set pd_frac_calculated pd_pow_gain
        pd_zeros pd_fraction_count pd_frac pd_special pd_sign pd_pos].
      split; [|repeat split]. rewrite wrap_small by lia.
      split; [assumption|]. split; [lia|]. split; [lia|]. split; [lia|]. right; right. split; [lia|]. split; [assumption|].
      exists (t + 1), (10 * R + d). rewrite pow10_succ by lia.
      split; [lia|]. split; [rewrite H3; ring|]. split; [lia|]. split; [lia|].
      right. split; [reflexivity|]. split; [lia|]. apply frac_fact_snoc; assumption.
Qed.
