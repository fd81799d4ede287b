(** C106: how often printing accesses memory. *)
From Coq Require Import ZArith Bool List Lia.
From Verif Require Import Machine MachineFacts BitOps StaticPow Format DiyFp KComp Chars Grisu Prettify Ftoa Steps Spec Api Instances ThreadSpec StepsFacts Threads GrisuFacts FtoaFacts Work.
Import ListNotations.
Open Scope Z_scope.

Definition zcost {A} (at_ : Z) (p : prog A) (buf : list Z) : Z := Z.of_nat (cost at_ p buf).
Lemma zcost_bind : forall A B at_ (p : prog A) (k : A -> prog B) buf, zcost at_ (pbind p k) buf = zcost at_ p buf + match exec at_ p buf with Ok (b, a) => zcost at_ (k a) b | Fault _ => 0 end.
Proof. intros. unfold zcost. rewrite cost_bind. destruct (exec at_ p buf) as [[b a]|]; lia. Qed.
Lemma zcost_pos : forall A at_ (p : prog A) buf, 0 <= zcost at_ p buf.
Proof. intros. unfold zcost. lia. Qed.
Lemma zcost_pure : forall A at_ (x : res A) buf, zcost at_ (pure x) buf = 0.
Proof. intros A at_ [a|f] buf; reflexivity. Qed.
Lemma zcost_store : forall at_ i c buf, zcost at_ (store i c) buf <= 1.
Proof. intros. unfold zcost, store. cbn [cost]. destruct (write _ _ _); cbn [cost]; lia. Qed.
Lemma zcost_le : forall A B at_ (p : prog A) (k : A -> prog B) buf n m, zcost at_ p buf <= n -> 0 <= m -> (forall b a, exec at_ p buf = Ok (b, a) -> zcost at_ (k a) b <= m) -> zcost at_ (pbind p k) buf <= n + m.
Proof. intros A B at_ p k buf n m H1 H2 H3. rewrite zcost_bind. destruct (exec at_ p buf) as [[b a]|]; [specialize (H3 b a eq_refl)|]; lia. Qed.
Lemma zcost_list : forall at_ xs i buf, zcost at_ (store_list i xs) buf <= Z.of_nat (length xs).
Proof. intros at_. unfold zcost. induction xs as [|x xs IH]; intros i buf; cbn [store_list cost length]; [lia|]. destruct (write _ _ _) as [b|]; [specialize (IH (i + 1) b)|]; lia. Qed.
Lemma zcost_list_ok : forall at_ xs i buf r, exec at_ (store_list i xs) buf = Ok r -> zcost at_ (store_list i xs) buf = Z.of_nat (length xs).
Proof.
  intros at_. unfold zcost. induction xs as [|x xs IH]; intros i buf r E; cbn [store_list cost exec length] in *; [lia|]. destruct (write _ _ _); cbn [bind] in E; [|discriminate]. specialize (IH _ _ _ E). lia.
Qed.
Lemma zcost_loads : forall at_ n i buf, zcost at_ (load_list i n) buf <= Z.of_nat n.
Proof.
  intros at_. induction n as [|n IH]; intros i buf; cbn [load_list]; [unfold zcost; cbn [cost]; lia|]. unfold zcost. cbn [cost]. destruct (read _ _) as [x|]; [|lia].
  rewrite cost_bind. specialize (IH (i + 1) buf). unfold zcost in IH. destruct (exec _ _ _) as [[b a]|]; cbn [cost]; lia.
Qed.
Lemma loads_length : forall at_ n i buf b xs, exec at_ (load_list i n) buf = Ok (b, xs) -> length xs = n.
Proof.
  intros at_ n i buf b xs E. rewrite exec_load_list in E. destruct (read_list buf (i - at_) n) as [ys|] eqn:R; cbn [bind] in E; [|discriminate]. injection E as _ <-.
  revert R. generalize (i - at_). clear. revert ys. induction n as [|n IH]; intros ys j R; cbn [read_list] in R; [injection R as <-; reflexivity|].
  destruct (read buf j); cbn [bind] in R; [|discriminate]. destruct (read_list buf (j + 1) n) eqn:R2; cbn [bind] in R; [|discriminate]. injection R as <-. cbn [length]. f_equal. eapply IH, R2.
Qed.
Lemma zcost_memset : forall at_ d c n buf, zcost at_ (memset_steps d c n) buf <= Z.max 0 n.
Proof. intros. unfold memset_steps. pose proof (zcost_list at_ (repeat c (Z.to_nat n)) d buf) as C. rewrite repeat_length in C. lia. Qed.
Lemma zcost_memmove : forall at_ d i n buf, zcost at_ (memmove_steps d i n) buf <= 2 * Z.max 0 n.
Proof.
  intros. unfold memmove_steps. replace (2 * Z.max 0 n) with (Z.max 0 n + Z.max 0 n) by lia. apply zcost_le; [pose proof (zcost_loads at_ (Z.to_nat n) i buf); lia|lia|].
  intros b xs E. apply loads_length in E. pose proof (zcost_list at_ xs d b). lia.
Qed.

(** generating digits: one store per digit *)
Lemma integral_cost : forall at_ kappa p1 div base len buf b l k, exec at_ (integral_digits_steps kappa p1 div base len) buf = Ok (b, (l, k)) -> zcost at_ (integral_digits_steps kappa p1 div base len) buf = l - len.
Proof.
  intros at_. induction kappa as [|kappa IH]; intros p1 div base len buf b l k E; cbn [integral_digits_steps] in *; [injection E as _ <- _; unfold zcost; cbn [cost]; lia|].
  destruct (p1 =? 0); [injection E as _ <- _; unfold zcost; cbn [cost]; lia|]. destruct (div =? 0); [discriminate|].
  rewrite exec_bind in E. rewrite zcost_bind. unfold store in *. cbn [exec] in *. unfold zcost at 1. cbn [cost]. destruct (write _ _ _); cbn [bind fst snd] in *; [|discriminate]. apply IH in E. rewrite E. lia.
Qed.
Lemma fraction_cost : forall at_ w fuel sh p2 delta some kappa base len buf b l k, exec at_ (fraction_digits_steps w fuel sh p2 delta some kappa base len) buf = Ok (b, (l, k)) ->
  zcost at_ (fraction_digits_steps w fuel sh p2 delta some kappa base len) buf = l - len.
Proof.
  intros at_ w. induction fuel as [|fuel IH]; intros sh p2 delta some kappa base len buf b l k E; cbn [fraction_digits_steps] in *; destruct (delta <? p2); try discriminate; try (injection E as _ <- _; unfold zcost; cbn [cost]; lia).
  cbv zeta in *. rewrite exec_bind, exec_pure in E. rewrite zcost_bind, exec_pure, zcost_pure. destruct (shr w _ sh) as [d0|]; cbn [bind fst snd] in *; [|discriminate].
  rewrite exec_bind in E. rewrite zcost_bind. destruct (some || negb (wrap 8 d0 =? 0)).
  - rewrite exec_bind, exec_store in E. rewrite exec_bind, exec_store, zcost_bind, exec_store. unfold zcost at 1. unfold store. cbn [cost]. destruct (write _ _ _) as [b'|]; cbn [bind fst snd exec] in *; [|discriminate].
    rewrite exec_bind, exec_pure in E. rewrite zcost_bind, exec_pure, zcost_pure. destruct (raised_bit w sh); cbn [bind fst snd] in *; [|discriminate]. apply IH in E. rewrite E. unfold zcost. cbn [cost]. lia.
  - cbn [exec bind fst snd] in *. rewrite exec_bind, exec_pure in E. rewrite zcost_bind, exec_pure, zcost_pure. destruct (raised_bit w sh); cbn [bind fst snd] in *; [|discriminate]. apply IH in E. rewrite E. unfold zcost. cbn [cost]. lia.
Qed.
Lemma digit_gen_cost : forall at_ T Mp Mm base K buf b l k, exec at_ (digit_gen_steps T Mp Mm base K) buf = Ok (b, (l, k)) -> zcost at_ (digit_gen_steps T Mp Mm base K) buf = l.
Proof.
  intros at_ T Mp Mm base K buf b l k E. unfold digit_gen_steps in *.
  Ltac pure_step E := rewrite exec_bind, exec_pure in E; rewrite zcost_bind, exec_pure, zcost_pure;
    match type of E with context [bind (bind ?r _) _] => destruct r end; cbn [bind fst snd] in *; [|discriminate].
  pure_step E. pure_step E. pure_step E. cbv zeta in *. pure_step E. pure_step E.
  assert (T1 : forall kk delta some len buf b l k sh p2, exec at_ ('(len', kappa) <~ fraction_digits_steps (fw T) kk sh p2 delta some 0 base len ;; K' <~ pure (sint (K - kappa)) ;; Done (len', K')) buf = Ok (b, (l, k)) ->
    zcost at_ ('(len', kappa) <~ fraction_digits_steps (fw T) kk sh p2 delta some 0 base len ;; K' <~ pure (sint (K - kappa)) ;; Done (len', K')) buf = l - len).
  { clear. intros kk delta some len buf b l k sh p2 E. rewrite exec_bind in E. rewrite zcost_bind. destruct (exec at_ (fraction_digits_steps _ _ _ _ _ _ _ _ _) buf) as [[b1 [l1 k1]]|] eqn:F; cbn [bind fst snd] in *; [|discriminate].
    apply fraction_cost in F. rewrite F. pure_step E. cbn [exec] in E. injection E as _ <- _. unfold zcost. cbn [cost]. lia. }
  destruct (negb _); [|apply T1 in E; rewrite E; lia].
  rewrite exec_bind in E. rewrite zcost_bind. destruct (exec at_ (integral_digits_steps _ _ _ _ _) buf) as [[b1 [l1 k1]]|] eqn:F; cbn [bind fst snd] in *; [|discriminate].
  apply integral_cost in F. rewrite F. destruct (_ <=? _).
  - pure_step E. cbn [exec] in E. injection E as _ <- _. unfold zcost. cbn [cost]. lia.
  - rewrite exec_bind in E. rewrite zcost_bind. destruct (exec at_ (memset_steps _ _ _) b1) as [[b2 u]|] eqn:G; cbn [bind fst snd] in *; [|discriminate].
    unfold memset_steps in *. rewrite (zcost_list_ok _ _ _ _ _ G), repeat_length. apply T1 in E. rewrite E. lia.
Qed.
Lemma grisu_cost : forall at_ T v base buf b l k, exec at_ (grisu2_steps T v base) buf = Ok (b, (l, k)) -> zcost at_ (grisu2_steps T v base) buf = l.
Proof.
  intros at_ T v base buf b l k E. unfold grisu2_steps in *.
  rewrite exec_bind, exec_pure in E. rewrite zcost_bind, exec_pure, zcost_pure. destruct (boundaries T v) as [[w_m w_p]|]; cbn [bind fst snd] in *; [|discriminate].
  pure_step E. pure_step E. pure_step E. pure_step E. apply digit_gen_cost in E. lia.
Qed.

(** formatting *)
Lemma fill_cost : forall at_ K base buf, zcost at_ (fill_exponent_steps K base) buf <= 4.
Proof.
  intros. unfold fill_exponent_steps. cbv zeta. change 4 with (1 + (0 + (0 + (1 + (1 + (1 + 0)))))).
  apply zcost_le; [apply zcost_store|lia|]. intros ? _ _. apply zcost_le; [rewrite zcost_pure; lia|lia|]. intros ? d _. apply zcost_le; [rewrite zcost_pure; lia|lia|]. intros ? d' _.
  apply zcost_le; [apply zcost_store|lia|]. intros ? _ _. apply zcost_le; [apply zcost_store|lia|]. intros ? _ _. apply zcost_le; [apply zcost_store|lia|]. intros ? _ _. unfold zcost. cbn [cost]. lia.
Qed.
Lemma scientific_cost : forall at_ base len dp buf, 1 <= len -> zcost at_ (print_scientific_steps base len dp) buf <= 2 * (len - 1) + 7.
Proof.
  intros at_ base len dp buf L. unfold print_scientific_steps. replace (2 * (len - 1) + 7) with (0 + ((2 * (len - 1) + 1) + (1 + (1 + (4 + 0))))) by lia.
  apply zcost_le; [rewrite zcost_pure; lia|lia|]. intros ? K _. apply zcost_le; [|lia|].
  - destruct (1 <? len); [|unfold zcost; cbn [cost]; lia]. replace (2 * (len - 1) + 1) with (2 * (len - 1) + (1 + 0)) by lia.
    apply zcost_le; [pose proof (zcost_memmove at_ (base + 2) (base + 1) (len - 1) b); lia|lia|]. intros ? _ _. apply zcost_le; [apply zcost_store|lia|]. intros ? _ _. unfold zcost; cbn [cost]; lia.
  - intros ? base' _. apply zcost_le; [apply zcost_store|lia|]. intros ? _ _. apply zcost_le; [apply zcost_store|lia|]. intros ? _ _. cbv zeta. apply zcost_le; [apply fill_cost|lia|]. intros ? n _. unfold zcost; cbn [cost]; lia.
Qed.
Lemma decimal_cost : forall at_ base len k buf, 1 <= len <= 17 -> -500 <= k <= 500 -> Z.max (len + k) (- k) <= 16 -> zcost at_ (print_decimal_steps base len k) buf <= if 0 <? k then k + 2 else if 0 <? len + k then 2 * (- k) + 2 else 2 * len + (2 - (len + k)) + 2.
Proof.
  intros at_ base len k buf L K M. unfold print_decimal_steps. set (bound := if 0 <? k then _ else _).
  assert (B2 : 2 <= bound) by (unfold bound; destruct (Z.ltb_spec 0 k); [lia|]; destruct (Z.ltb_spec 0 (len + k)); lia).
  replace bound with (0 + bound) by lia. apply zcost_le; [rewrite zcost_pure; lia|lia|]. intros b dp E. rewrite exec_pure in E. unfold sint in E. destruct (_ && _); cbn [bind] in E; [|discriminate]. injection E as -> <-.
  cbv zeta. unfold positive_part. set (lo := if 0 <? len + k then 0 else wrap 32 (2 - (len + k))).
  assert (EL : lo = if 0 <? len + k then 0 else 2 - (len + k)) by (unfold lo; destruct (Z.ltb_spec 0 (len + k)); [reflexivity|apply wrap_small; lia]).
  set (sl := Z.max 0 (len - Z.max 0 (len + k))). replace bound with (2 * Z.max 0 sl + (Z.max 0 lo + (Z.max 0 (Z.max 0 k) + (1 + (1 + 0))))).
  2:{ unfold bound, sl. rewrite EL. destruct (Z.ltb_spec 0 k); destruct (Z.ltb_spec 0 (len + k)); lia. }
  apply zcost_le; [apply zcost_memmove|lia|]. intros ? _ _. apply zcost_le; [apply zcost_memset|lia|]. intros ? _ _. apply zcost_le; [apply zcost_memset|lia|]. intros ? _ _.
  apply zcost_le; [apply zcost_store|lia|]. intros ? _ _. apply zcost_le; [apply zcost_store|lia|]. intros ? _ _. unfold zcost; cbn [cost]; lia.
Qed.
Lemma prettify_cost : forall at_ base len k buf, 1 <= len <= 17 -> -500 <= k <= 500 -> zcost at_ (prettify_steps 16 base len k) buf <= Z.max (2 * len + 5) (20 + len).
Proof.
  intros at_ base len k buf L K. unfold prettify_steps. set (bound := Z.max _ _).
  assert (B : 2 <= bound /\ 2 * len + 5 <= bound) by (unfold bound; lia).
  replace bound with (0 + (0 + bound)) by lia. apply zcost_le; [rewrite zcost_pure; lia|lia|]. intros b dp E. rewrite exec_pure in E. unfold sint in E. destruct (_ && _); cbn [bind] in E; [|discriminate]. injection E as -> <-.
  apply zcost_le; [rewrite zcost_pure; lia|lia|]. intros b' mk E. rewrite exec_pure in E. unfold sint in E. destruct (_ && _); cbn [bind] in E; [|discriminate]. injection E as -> <-.
  cbv zeta. rewrite (wrap_small 64) by lia. destruct (Z.ltb_spec 16 (Z.max (len + k) (- k))) as [G|G].
  - pose proof (scientific_cost at_ base len (len + k) b' ltac:(lia)). lia.
  - pose proof (decimal_cost at_ base len k b' L K G) as D. unfold bound. destruct (Z.ltb_spec 0 k); destruct (Z.ltb_spec 0 (len + k)); lia.
Qed.

(** C106: the number of memory accesses of printing *)
Theorem C106_printing : forall t v at_ buf, pattern t v -> max_buffer_size (fmt_of t) <= Z.of_nat (length buf) ->
  (cost at_ (ftoa_steps (fmt_of t) v at_) buf <= match t with Float => 39 | Double => 57 end)%nat.
Proof.
  intros t v at_ buf P L. enough (zcost at_ (ftoa_steps (fmt_of t) v at_) buf <= match t with Float => 39 | Double => 57 end) by (unfold zcost in *; destruct t; lia).
  unfold ftoa_steps.
  assert (C5 : 5 <= match t with Float => 39 | Double => 57 end) by (destruct t; lia). set (bound := match t with Float => 39 | Double => 57 end) in *.
  Ltac steps4 := repeat (apply zcost_le; [apply zcost_store|lia|intros ? ? _]); unfold zcost; cbn [cost]; lia.
  destruct (is_nan (fmt_of t) v) eqn:E1. { apply Z.le_trans with (1 + (1 + (1 + (1 + 0)))); [steps4|lia]. }
  destruct (is_inf (fmt_of t) v) eqn:E2. { destruct (gt_zero (fmt_of t) v); [apply Z.le_trans with (1 + (1 + (1 + (1 + 0))))|apply Z.le_trans with (1 + (1 + (1 + (1 + (1 + 0)))))]; [steps4|lia|steps4|lia]. }
  destruct (is_zero (fmt_of t) v) eqn:E3. { apply Z.le_trans with (1 + (1 + 0)); [steps4|lia]. }
  assert (N : nonzero t v).
  { destruct (classify t v P) as [C|[C|[C|C]]]; [apply is_nan_spec in C; [congruence|exact P]|apply is_inf_spec in C; [congruence|exact P]|apply is_zero_spec in C; [congruence|exact P]|exact C]. }
  clear E1 E2 E3. destruct (ftoa_finite_g t v N) as (ds & K & lo & hi & A1 & A2 & A3 & A4 & A5 & _ & _ & _ & _ & _ & _ & A6).
  assert (HK : -500 <= K <= 500) by (clear - A5; destruct t; cbn [kmin kmax] in A5; lia).
  assert (Hn : zlen ds <= 17) by (clear - A4; destruct t; cbn [max_sig] in A4; lia).
  assert (Hd : 1 <= zlen ds) by (destruct ds; [cbn in A2; congruence|unfold zlen; cbn [length]; lia]).
  replace bound with (1 + (bound - 1)) by lia. apply zcost_le; [apply zcost_store|lia|]. intros b u E. rewrite exec_store in E. replace (at_ + 0 - at_) with 0 in E by lia.
  assert (LB : 20 <= Z.of_nat (length buf)) by (clear - L; destruct t; [change (max_buffer_size (fmt_of Float)) with 24 in L|change (max_buffer_size (fmt_of Double)) with 34 in L]; lia).
  destruct buf as [|c0 buf]; [cbn in LB; lia|]. cbn [length] in LB.
  assert (Eb : b = ch_minus :: buf). { unfold write in E. cbn [length] in E. destruct (_ && _); cbn [bind Z.to_nat update] in E; [|discriminate]. injection E as <- _. reflexivity. }
  subst b. clear E u.
  assert (G : exists b', exec at_ (grisu2_steps (fmt_of t) v (at_ + b2z (lt_zero (fmt_of t) v))) (ch_minus :: buf) = Ok (b', (zlen ds, K))).
  { rewrite exec_grisu2. unfold zlen in Hn. destruct (lt_zero (fmt_of t) v); cbn [b2z].
    - change (ch_minus :: buf) with ([ch_minus] ++ buf). change 1 with (zlen [ch_minus]). rewrite A6 by lia. eexists. reflexivity.
    - change (ch_minus :: buf) with ([] ++ ch_minus :: buf). change 0 with (zlen (@nil Z)). rewrite A6 by (cbn [length]; lia). eexists. reflexivity. }
  destruct G as [b' G]. cbv zeta. rewrite zcost_bind, G, (grisu_cost _ _ _ _ _ _ _ _ G). rewrite (wrap_small 32) by lia. rewrite zcost_bind.
  assert (DN : forall (a : Z) b, zcost at_ (Done a) b = 0) by reflexivity.
  pose proof (prettify_cost at_ (at_ + b2z (lt_zero (fmt_of t) v)) (zlen ds) K b' ltac:(lia) HK) as PC.
  destruct (exec at_ (prettify_steps _ _ _ _) b') as [[b2 n]|]; rewrite ?DN; clear - PC A4; destruct t; cbn [max_sig] in A4; subst bound; lia.
Qed.
