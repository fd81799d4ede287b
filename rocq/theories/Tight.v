(** How much room ftoa needs: exactly the text and its terminator. *)
From Coq Require Import Reals.
From Flocq Require Import Core.
From Verif Require Import Machine BitOps StaticPow Format DiyFp KComp Chars Grisu Prettify Ftoa Spec Instances Api
  PrettifyFacts FtoaFacts PrintProps.
Open Scope Z_scope.

(** A call that succeeds with a buffer does the same with a longer one, and leaves the longer part
    alone. *)
Definition grows {A} (f : list Z -> res (list Z * A)) : Prop :=
  forall buf e b a, f buf = Ok (b, a) -> f (buf ++ e) = Ok (b ++ e, a) /\ length b = length buf.
Definition grows1 (f : list Z -> res (list Z)) : Prop :=
  forall buf e b, f buf = Ok b -> f (buf ++ e) = Ok (b ++ e) /\ length b = length buf.

Lemma update_app : forall a i x e, (i < length a)%nat -> update (a ++ e) i x = update a i x ++ e.
Proof.
  induction a; intros i x e H; [cbn in H; lia|]. destruct i; [reflexivity|]. cbn [app update]. rewrite IHa by (cbn in H; lia). reflexivity.
Qed.
Lemma update_len : forall a i x, length (update a i x) = length a.
Proof. induction a; intros [|i] x; cbn; [reflexivity..|]. now rewrite IHa. Qed.

Lemma write_grows : forall i x, grows1 (fun b => write b i x).
Proof.
  intros i x buf e b H. unfold write in *. destruct ((0 <=? i) && (i <? Z.of_nat (length buf))) eqn:E; [|discriminate].
  injection H as <-. apply andb_prop in E. destruct E as [E1 E2]. apply Z.leb_le in E1. apply Z.ltb_lt in E2.
  rewrite app_length. replace ((0 <=? i) && (i <? Z.of_nat (length buf + length e))) with true.
  - split; [|apply update_len]. rewrite update_app by lia. reflexivity.
  - symmetry. apply andb_true_intro. split; [apply Z.leb_le|apply Z.ltb_lt]; lia.
Qed.

Lemma read_grows : forall buf e i x, read buf i = Ok x -> read (buf ++ e) i = Ok x.
Proof.
  intros buf e i x. unfold read. destruct (i <? 0); [discriminate|].
  destruct (nth_error buf (Z.to_nat i)) eqn:E; [|discriminate]. intros H. rewrite nth_error_app1; [now rewrite E|].
  apply nth_error_Some. congruence.
Qed.
Lemma read_list_grows : forall buf e n i x, read_list buf i n = Ok x -> read_list (buf ++ e) i n = Ok x.
Proof.
  intros buf e. induction n; intros i x; [auto|]. cbn [read_list].
  destruct (read buf i) eqn:E; [|discriminate]. rewrite (read_grows _ e _ _ E). cbn [bind].
  destruct (read_list buf (i + 1) n) eqn:F; [|discriminate]. rewrite (IHn _ _ F). auto.
Qed.

Lemma write_list_grows : forall xs i, grows1 (fun b => write_list b i xs).
Proof.
  induction xs; intros i buf e b H; cbn [write_list] in *; [injection H as <-; auto|].
  destruct (write buf i a) eqn:E; [|discriminate]. cbn [bind] in H.
  destruct (write_grows _ _ _ e _ E) as [E1 E2]. rewrite E1. cbn [bind].
  destruct (IHxs _ _ e _ H) as [H1 H2]. split; [exact H1|congruence].
Qed.

Lemma memset_grows : forall i c n, grows1 (fun b => memset b i c n).
Proof. intros. unfold memset. apply write_list_grows. Qed.
Lemma memmove_grows : forall i j n, grows1 (fun b => memmove b i j n).
Proof.
  intros i j n buf e b H. unfold memmove in *. destruct (read_list buf j (Z.to_nat n)) eqn:E; [|discriminate].
  rewrite (read_list_grows _ e _ _ _ E). cbn [bind] in *. now apply write_list_grows.
Qed.

(** sequencing *)
Ltac grow L H :=
  match type of H with bind ?m _ = Ok _ =>
    let b := fresh "b" in let E := fresh "E" in let E1 := fresh "E" in let E2 := fresh "L" in
    destruct m as [b|] eqn:E; [|discriminate H];
    match goal with e : list Z |- _ => destruct (L _ e _ E) as [E1 E2]; rewrite E1 end; cbn [bind] in H |- *
  end.

Lemma integral_grows : forall kappa p1 div base len, grows (fun b => '(b, l, k) <- integral_digits kappa p1 div b base len ;; Ok (b, (l, k))).
Proof.
  induction kappa; intros p1 div base len buf e b a H; cbn [integral_digits bind] in *; [injection H as <- <-; auto|].
  destruct (p1 =? 0); [cbn [bind] in *; injection H as <- <-; auto|]. destruct (div =? 0); [discriminate|].
  destruct (write buf (base + len) (ch_0 + p1 / div)) as [b1|] eqn:E; [|discriminate].
  destruct (write_grows _ _ _ e _ E) as [E1 E2]. rewrite E1. cbn [bind] in *.
  destruct (IHkappa _ _ _ _ _ e _ _ H) as [H1 H2]. split; [exact H1|congruence].
Qed.

Lemma fraction_grows : forall w fuel sh p2 delta some kappa base len,
  grows (fun b => '(b, l, k) <- fraction_digits w fuel sh p2 delta some kappa b base len ;; Ok (b, (l, k))).
Proof.
  intros w. induction fuel; intros sh p2 delta some kappa base len buf e b a H; cbn [fraction_digits] in *.
  { destruct (delta <? p2); [discriminate|]. cbn [bind] in *. injection H as <- <-. auto. }
  destruct (delta <? p2); [|cbn [bind] in *; injection H as <- <-; auto].
  cbv zeta in *. destruct (shr w (wrap w (p2 * 10)) sh) as [d0|]; [|discriminate]. cbn [bind] in *.
  destruct (some || negb (wrap 8 d0 =? 0)).
  - destruct (write buf (base + len) (ch_0 + wrap 8 d0)) as [b1|] eqn:E; [|discriminate].
    destruct (write_grows _ _ _ e _ E) as [E1 E2]. rewrite E1. cbn [bind fst snd] in *.
    destruct (raised_bit w sh) as [om|]; [|discriminate]. cbn [bind] in *.
    destruct (IHfuel _ _ _ _ _ _ _ _ e _ _ H) as [H1 H2]. split; [exact H1|congruence].
  - cbn [bind fst snd] in *. destruct (raised_bit w sh) as [om|]; [|discriminate]. cbn [bind] in *.
    exact (IHfuel _ _ _ _ _ _ _ _ e _ _ H).
Qed.

Lemma pack3 : forall A B (m : res (list Z * A * B)) b a k, m = Ok (b, a, k) -> ('(b, l, k) <- m ;; Ok (b, (l, k))) = Ok (b, (a, k)).
Proof. intros. subst. reflexivity. Qed.
Lemma unpack3 : forall A B (m : res (list Z * A * B)) b a k, ('(b, l, k) <- m ;; Ok (b, (l, k))) = Ok (b, (a, k)) -> m = Ok (b, a, k).
Proof. intros A B [[[b' a'] k']|]; cbn [bind]; [|discriminate]. intros b a k H. now injection H as -> -> ->. Qed.

Definition grows3 {A B} (f : list Z -> res (list Z * A * B)) : Prop :=
  forall buf e b a k, f buf = Ok (b, a, k) -> f (buf ++ e) = Ok (b ++ e, a, k) /\ length b = length buf.
Lemma grows3_of : forall A B (f : list Z -> res (list Z * A * B)), grows (fun b => '(b, l, k) <- f b ;; Ok (b, (l, k))) -> grows3 f.
Proof.
  intros A B f G buf e b a k H. destruct (G buf e _ _ (pack3 _ _ _ _ _ _ H)) as [G1 G2].
  split; [apply unpack3; exact G1|exact G2].
Qed.

Lemma digit_gen_grows : forall T Mp Mm base K, grows3 (fun b => digit_gen T Mp Mm b base K).
Proof.
  intros T Mp Mm base K buf e b a k H. unfold digit_gen in *.
  destruct (assert_ (m_e Mp <=? 0)); [|discriminate]. cbn [bind] in *.
  destruct (diy_sub T Mp Mm) as [delta|]; [|discriminate]. cbn [bind] in *.
  destruct (raised_bit (fw T) (- m_e Mp)) as [om|]; [|discriminate]. cbn [bind] in *. cbv zeta in *.
  destruct (shr (fw T) (m_f Mp) (- m_e Mp)) as [p1w|]; [|discriminate]. cbn [bind] in *.
  match type of H with bind (assert_ ?c) _ = _ => destruct (assert_ c); [|discriminate] end. cbn [bind] in *.
  set (p2 := Z.land (m_f Mp) (om - 1)) in *. set (fuel := Z.to_nat (fw T)) in *.
  assert (Tail : forall len, grows3 (fun buf =>
     '(buf', len', kappa) <- fraction_digits (fw T) fuel (- m_e Mp) p2 (m_f delta) (0 <? len) 0 buf base len;;
     K' <- sint (K - kappa);; Ok (buf', len', K'))).
  { intros len bf e0 bb aa kk HH.
    destruct (fraction_digits (fw T) fuel (- m_e Mp) p2 (m_f delta) (0 <? len) 0 bf base len) as [[[b1 l1] k1]|] eqn:E; [|discriminate].
    destruct (grows3_of _ _ _ (fraction_grows _ _ _ _ _ _ _ _ _) _ e0 _ _ _ E) as [E1 E2]. rewrite E1. cbn [bind] in *.
    destruct (sint (K - k1)); [|discriminate]. cbn [bind] in *. injection HH as <- <- <-. auto. }
  destruct (negb (wrap 32 p1w =? 0)).
  - destruct (integral_digits (fst (calculate_kappa_div (wrap 32 p1w))) (wrap 32 p1w) (snd (calculate_kappa_div (wrap 32 p1w))) buf base 0) as [[[b1 l1] k1]|] eqn:E; [|discriminate].
    destruct (grows3_of _ _ _ (integral_grows _ _ _ _ _) _ e _ _ _ E) as [E1 E2]. rewrite E1. cbn [bind] in *.
    destruct (p2 <=? m_f delta).
    + destruct (sint (K + Z.of_nat k1)); [|discriminate]. cbn [bind] in *. injection H as <- <- <-. auto.
    + destruct (memset b1 (base + l1) ch_0 (Z.of_nat k1)) as [b2|] eqn:F; [|discriminate].
      destruct (memset_grows _ _ _ _ e _ F) as [F1 F2]. rewrite F1. cbn [bind] in *.
      destruct (Tail _ _ e _ _ _ H) as [H1 H2]. split; [exact H1|congruence].
  - exact (Tail _ _ e _ _ _ H).
Qed.

Lemma grisu2_grows : forall T v base, grows3 (fun b => grisu2 T v b base).
Proof.
  intros T v base buf e b a k H. unfold grisu2 in *.
  destruct (boundaries T v) as [[wm wp]|]; [|discriminate]. cbn [bind] in *.
  destruct (k_comp_exp (grisu_alpha T) (m_e wp)) as [mk|]; [|discriminate]. cbn [bind] in *.
  destruct (cached_power T mk) as [c|]; [|discriminate]. cbn [bind] in *.
  destruct (diy_inc T (diy_mul T wm c)) as [x|]; [|discriminate]. cbn [bind] in *.
  destruct (diy_dec T (diy_mul T wp c)) as [y|]; [|discriminate]. cbn [bind] in *.
  now apply digit_gen_grows.
Qed.

Ltac g1 L H :=
  match type of H with bind ?m _ = Ok _ =>
    let b := fresh "b" in let E := fresh "E" in let E1 := fresh "E" in let E2 := fresh "L" in
    destruct m as [b|] eqn:E; [|discriminate H];
    match goal with e : list Z |- _ => destruct (L _ e _ E) as [E1 E2]; rewrite E1; clear E1 E end; cbn [bind] in H |- *
  end.

Lemma fill_exponent_grows : forall K base, grows (fun b => fill_exponent K b base).
Proof.
  intros K base buf e b a H. unfold fill_exponent in *. cbv zeta in *.
  g1 (write_grows base (ch_0 + wrap 8 (K / 100))) H.
  destruct (read_tab digits_lut (K mod 100 * 2)) as [d0|]; [|discriminate]. cbn [bind] in *.
  destruct (read_tab digits_lut (K mod 100 * 2 + 1)) as [d1|]; [|discriminate]. cbn [bind] in *.
  g1 (write_grows (base + b2z (0 <? wrap 8 (K / 100))) d0) H.
  g1 (write_grows (base + b2z (0 <? wrap 8 (K / 100)) + 1) d1) H.
  g1 (write_grows (base + b2z (0 <? wrap 8 (K / 100)) + 2) ch_nul) H.
  injection H as <- <-. split; [reflexivity|congruence].
Qed.

Lemma prettify_grows : forall th base len k, grows (fun b => prettify th b base len k).
Proof.
  intros th base len k buf e b a H. unfold prettify in *.
  destruct (sint (len + k)) as [dp|] eqn:Ed; [|discriminate]. cbn [bind] in *.
  destruct (sint (- k)) as [mk|]; [|discriminate]. cbn [bind] in *. cbv zeta in *.
  destruct (th <? wrap 64 (Z.max dp mk)).
  - unfold print_scientific in *. destruct (sint (dp - 1)) as [K|]; [|discriminate]. cbn [bind] in *.
    assert (G : forall (b1 : list Z) base1, length b1 = length buf ->
      (buf0 <- write b1 (base1 + 1) ch_e;; buf2 <- write buf0 (base1 + 2) ch_minus;;
       (
        '(buf3, n) <- fill_exponent (Z.abs K) buf2 (base1 + b2z (K <? 0) + 2);; Ok (buf3, wrap 64 (len + b2z (1 <? len) + 1 + b2z (K <? 0) + n)))) = Ok (b, a) ->
      (buf0 <- write (b1 ++ e) (base1 + 1) ch_e;; buf2 <- write buf0 (base1 + 2) ch_minus;;
       (
        '(buf3, n) <- fill_exponent (Z.abs K) buf2 (base1 + b2z (K <? 0) + 2);; Ok (buf3, wrap 64 (len + b2z (1 <? len) + 1 + b2z (K <? 0) + n)))) = Ok (b ++ e, a)
      /\ length b = length buf).
    { intros b1 base1 L1 HH. g1 (write_grows (base1 + 1) ch_e) HH. g1 (write_grows (base1 + 2) ch_minus) HH.
      destruct (fill_exponent (Z.abs K) b2 (base1 + b2z (K <? 0) + 2)) as [[b3 n]|] eqn:E; [|discriminate].
      destruct (fill_exponent_grows _ _ _ e _ _ E) as [E1 E2]. rewrite E1. cbn [bind] in *. injection HH as <- <-.
      split; [reflexivity|congruence]. }
    destruct (1 <? len).
    + rewrite !bind_assoc in H |- *. g1 (memmove_grows (base + 2) (base + 1) (len - 1)) H.
      rewrite !bind_assoc in H |- *. g1 (write_grows (base + 1) ch_dot) H.
      apply (G b1 (base + len)); [congruence|exact H].
    + cbn [bind] in *. apply (G buf base eq_refl). exact H.
  - unfold print_decimal in *. rewrite Ed in *. cbn [bind] in *. cbv zeta in *.
    match type of H with bind (memmove _ ?x ?y ?z) _ = _ => g1 (memmove_grows x y z) H end.
    match type of H with bind (memset _ ?x ?y ?z) _ = _ => g1 (memset_grows x y z) H end.
    match type of H with bind (memset _ ?x ?y ?z) _ = _ => g1 (memset_grows x y z) H end.
    match type of H with bind (write _ ?x ?y) _ = _ => g1 (write_grows x y) H end.
    match type of H with bind (write _ ?x ?y) _ = _ => g1 (write_grows x y) H end.
    injection H as <- <-. split; [reflexivity|congruence].
Qed.

Lemma ftoa_grows : forall T v, grows (fun b => ftoa T v b).
Proof.
  intros T v buf e b a H. unfold ftoa in *.
  destruct (is_nan T v).
  { g1 (write_grows 0 ch_n) H. g1 (write_grows 1 ch_a) H. g1 (write_grows 2 ch_n) H. g1 (write_grows 3 ch_nul) H.
    injection H as <- <-. split; [reflexivity|congruence]. }
  destruct (is_inf T v).
  { destruct (gt_zero T v).
    - g1 (write_grows 0 ch_i) H. g1 (write_grows 1 ch_n) H. g1 (write_grows 2 ch_f) H. g1 (write_grows 3 ch_nul) H.
      injection H as <- <-. split; [reflexivity|congruence].
    - g1 (write_grows 0 ch_minus) H. g1 (write_grows 1 ch_i) H. g1 (write_grows 2 ch_n) H. g1 (write_grows 3 ch_f) H. g1 (write_grows 4 ch_nul) H.
      injection H as <- <-. split; [reflexivity|congruence]. }
  destruct (is_zero T v).
  { g1 (write_grows 0 ch_0) H. g1 (write_grows 1 ch_nul) H. injection H as <- <-. split; [reflexivity|congruence]. }
  g1 (write_grows 0 ch_minus) H. cbv zeta in *.
  destruct (grisu2 T v b0 (b2z (lt_zero T v))) as [[[b1 l1] K]|] eqn:E; [|discriminate].
  destruct (grisu2_grows _ _ _ _ e _ _ _ E) as [E1 E2]. rewrite E1. cbn [bind] in *.
  destruct (prettify 16 b1 (b2z (lt_zero T v)) (wrap 32 l1) K) as [[b2 n]|] eqn:F; [|discriminate].
  destruct (prettify_grows _ _ _ _ _ e _ _ F) as [F1 F2]. rewrite F1. cbn [bind] in *.
  injection H as <- <-. split; [reflexivity|congruence].
Qed.

Lemma some_tight : forall t v, pattern t v -> exists s, prints_tightly t v s.
Proof.
  intros t v H. destruct (classify t v H) as [C|[C|[C|C]]].
  - eexists. now apply ftoa_nan_t.
  - eexists. now apply ftoa_inf_t.
  - eexists. now apply ftoa_zero_t.
  - destruct (ftoa_finite_t t v C) as (ds & K & lo & hi & A). cbv zeta in A. eexists. apply A.
Qed.

(** C80: with any buffer that holds the text and the NUL, ftoa writes them and touches nothing else;
    with any smaller one it writes out of bounds. *)
Theorem C80_room : forall t v s buf, pattern t v -> prints t v s ->
  ((length s < length buf)%nat ->
     ftoa (fmt_of t) v buf = Ok (s ++ 0 :: skipn (S (length s)) buf, Z.of_nat (length s))) /\
  ((length buf <= length s)%nat -> exists f, ftoa (fmt_of t) v buf = Fault f).
Proof.
  intros t v s buf P S. destruct (some_tight t v P) as (s' & T).
  assert (s' = s).
  { eapply prints_unique; [|exact S]. intros bf L.
    set (big := bf ++ repeat 0 (Datatypes.S (length s'))).
    assert (LB : (length s' < length big)%nat) by (unfold big; rewrite app_length, repeat_length; lia).
    pose proof (T big LB) as E. pose proof (S bf L) as F. destruct (ftoa_grows _ _ _ (repeat 0 (Datatypes.S (length s'))) _ _ F) as [G _].
    fold big in G. rewrite E in G. injection G as G1 G2.
    assert (L2 : length s' = length s) by lia.
    assert (s' = s).
    { apply (f_equal (firstn (length s))) in G1. rewrite <- app_assoc in G1. rewrite !firstn_app, L2, Nat.sub_diag in G1.
      cbn [firstn] in G1. rewrite !app_nil_r in G1. rewrite firstn_all, <- L2, firstn_all in G1. exact G1. }
    rewrite H. exact F. }
  subst s'. split; [exact (T buf)|]. intros L.
  destruct (ftoa (fmt_of t) v buf) as [[b n]|f] eqn:E; [exfalso|eauto].
  set (e := repeat 7 (Datatypes.S (length s))).
  destruct (ftoa_grows _ _ _ e _ _ E) as [G GL].
  assert (LB : (length s < length (buf ++ e))%nat) by (unfold e; rewrite app_length, repeat_length; lia).
  rewrite (T _ LB) in G. injection G as G1 _.
  assert (N : nth (length s) (b ++ e) 1 = 0).
  { rewrite <- G1. rewrite app_nth2 by lia. rewrite Nat.sub_diag. reflexivity. }
  rewrite app_nth2 in N by lia. unfold e in N.
  assert (Q : forall k n, nth n (repeat 7 k) 1 <> 0).
  { clear. induction k; intros [|n]; cbn; try lia. apply IHk. }
  exact (Q _ _ N).
Qed.

(** ... so 25 (20) characters are always enough, although max_buffer_size asks for 34 (24) ... *)
Definition enough_room (t : ftype) : Z := match t with Float => 20 | Double => 25 end.

Theorem C80_enough : forall t v buf, pattern t v -> enough_room t <= Z.of_nat (length buf) ->
  exists s, prints t v s /\
    ftoa (fmt_of t) v buf = Ok (s ++ 0 :: skipn (S (length s)) buf, Z.of_nat (length s)).
Proof.
  intros t v buf P L. destruct (prints_something t v P) as (s & S & _ & B). exists s. split; [exact S|].
  apply (C80_room t v s buf P S). unfold MachineFacts.zlen in B. destruct t; cbn [enough_room] in L; lia.
Qed.
