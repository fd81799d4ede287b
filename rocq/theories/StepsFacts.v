(** The step programs of Steps.v do what the functions of Ftoa.v do when nobody interferes. *)
From Verif Require Import Machine BitOps StaticPow Format DiyFp KComp Chars Grisu Prettify Ftoa Steps ThreadSpec.
Open Scope Z_scope.

Lemma exec_bind : forall A B at_ (p : prog A) (k : A -> prog B) buf, exec at_ (pbind p k) buf = (r <- exec at_ p buf ;; exec at_ (k (snd r)) (fst r)).
Proof.
  intros A B at_ p k. induction p as [a|f|i g IH|i c q IH]; intros buf; cbn [pbind exec bind fst snd].
  - reflexivity.
  - reflexivity.
  - destruct (read buf (i - at_)); cbn [bind]; [apply IH|reflexivity].
  - destruct (write buf (i - at_) c); cbn [bind]; [apply IH|reflexivity].
Qed.
Lemma exec_pure : forall A at_ (r : res A) buf, exec at_ (pure r) buf = (a <- r ;; Ok (buf, a)).
Proof. intros A at_ [a|f] buf; reflexivity. Qed.
Lemma exec_store : forall at_ i c buf, exec at_ (store i c) buf = (b <- write buf (i - at_) c ;; Ok (b, tt)).
Proof. reflexivity. Qed.
Lemma exec_store_list : forall at_ xs i buf, exec at_ (store_list i xs) buf = (b <- write_list buf (i - at_) xs ;; Ok (b, tt)).
Proof.
  intros at_. induction xs as [|x xs IH]; intros i buf; cbn [store_list exec write_list bind]; [reflexivity|].
  destruct (write buf (i - at_) x); cbn [bind]; [|reflexivity]. rewrite IH. replace (i + 1 - at_) with (i - at_ + 1) by lia. reflexivity.
Qed.
Lemma exec_load_list : forall at_ n i buf, exec at_ (load_list i n) buf = (xs <- read_list buf (i - at_) n ;; Ok (buf, xs)).
Proof.
  intros at_. induction n as [|n IH]; intros i buf; cbn [load_list exec read_list bind]; [reflexivity|].
  destruct (read buf (i - at_)); cbn [bind]; [|reflexivity]. rewrite exec_bind, IH. replace (i + 1 - at_) with (i - at_ + 1) by lia.
  destruct (read_list buf (i - at_ + 1) n); reflexivity.
Qed.
Lemma exec_memset : forall at_ dest ch count buf, exec at_ (memset_steps (at_ + dest) ch count) buf = (b <- memset buf dest ch count ;; Ok (b, tt)).
Proof. intros. unfold memset_steps, memset. rewrite exec_store_list. replace (at_ + dest - at_) with dest by lia. reflexivity. Qed.
Lemma exec_memmove : forall at_ dest src count buf, exec at_ (memmove_steps (at_ + dest) (at_ + src) count) buf = (b <- memmove buf dest src count ;; Ok (b, tt)).
Proof.
  intros. unfold memmove_steps, memmove. rewrite exec_bind, exec_load_list. replace (at_ + src - at_) with src by lia.
  destruct (read_list buf src (Z.to_nat count)); cbn [bind fst snd]; [|reflexivity]. rewrite exec_store_list. replace (at_ + dest - at_) with dest by lia. reflexivity.
Qed.


Lemma exec_integral : forall at_ kappa p1 div base len buf,
  exec at_ (integral_digits_steps kappa p1 div (at_ + base) len) buf = ('(b, l, k) <- integral_digits kappa p1 div buf base len ;; Ok (b, (l, k))).
Proof.
  intros at_. induction kappa as [|kappa IH]; intros p1 div base len buf; cbn [integral_digits_steps integral_digits]; [reflexivity|].
  destruct (p1 =? 0); [reflexivity|]. destruct (div =? 0); [reflexivity|].
  rewrite exec_bind, exec_store. replace (at_ + base + len - at_) with (base + len) by lia.
  destruct (write buf (base + len) (ch_0 + p1 / div)); cbn [bind fst snd]; [apply IH|reflexivity].
Qed.
Lemma exec_fraction : forall at_ w fuel sh p2 delta some kappa base len buf,
  exec at_ (fraction_digits_steps w fuel sh p2 delta some kappa (at_ + base) len) buf = ('(b, l, k) <- fraction_digits w fuel sh p2 delta some kappa buf base len ;; Ok (b, (l, k))).
Proof.
  intros at_ w. induction fuel as [|fuel IH]; intros sh p2 delta some kappa base len buf; cbn [fraction_digits_steps fraction_digits]; destruct (delta <? p2); try reflexivity.
  cbv zeta. rewrite exec_bind, exec_pure. destruct (shr w (wrap w (p2 * 10)) sh) as [d0|]; cbn [bind fst snd]; [|reflexivity].
  rewrite exec_bind. destruct (some || negb (wrap 8 d0 =? 0)).
  - rewrite exec_bind, exec_store. replace (at_ + base + len - at_) with (base + len) by lia.
    destruct (write buf (base + len) (ch_0 + wrap 8 d0)); cbn [bind fst snd exec]; [|reflexivity].
    rewrite exec_bind, exec_pure. destruct (raised_bit w sh); cbn [bind fst snd]; [apply IH|reflexivity].
  - cbn [bind fst snd exec]. rewrite exec_bind, exec_pure. destruct (raised_bit w sh); cbn [bind fst snd]; [apply IH|reflexivity].
Qed.
Lemma exec_tail : forall at_ w fuel sh p2 delta some base len K buf,
  exec at_ ('(len', kappa) <~ fraction_digits_steps w fuel sh p2 delta some 0 (at_ + base) len ;; K' <~ pure (sint (K - kappa)) ;; Done (len', K')) buf =
  ('(b, l, k) <- ('(buf', len', kappa) <- fraction_digits w fuel sh p2 delta some 0 buf base len ;; K' <- sint (K - kappa) ;; Ok (buf', len', K')) ;; Ok (b, (l, k))).
Proof.
  intros. rewrite exec_bind, exec_fraction. destruct (fraction_digits _ _ _ _ _ _ _ _ _ _) as [[[b l] k]|]; cbn [bind fst snd]; [|reflexivity].
  rewrite exec_bind, exec_pure. destruct (sint (K - k)); reflexivity.
Qed.
Lemma exec_digit_gen : forall at_ T Mp Mm base K buf,
  exec at_ (digit_gen_steps T Mp Mm (at_ + base) K) buf = ('(b, l, k) <- digit_gen T Mp Mm buf base K ;; Ok (b, (l, k))).
Proof.
  intros. unfold digit_gen_steps, digit_gen.
  rewrite exec_bind, exec_pure. destruct (assert_ (m_e Mp <=? 0)); cbn [bind fst snd]; [|reflexivity].
  rewrite exec_bind, exec_pure. destruct (diy_sub T Mp Mm) as [delta|]; cbn [bind fst snd]; [|reflexivity].
  rewrite exec_bind, exec_pure. destruct (raised_bit (fw T) (- m_e Mp)) as [one_m|]; cbn [bind fst snd]; [|reflexivity].
  cbv zeta. rewrite exec_bind, exec_pure. destruct (shr (fw T) (m_f Mp) (- m_e Mp)) as [p1w|]; cbn [bind fst snd]; [|reflexivity].
  rewrite exec_bind, exec_pure. destruct (assert_ (negb (wrap 32 p1w =? 0) || _)); cbn [bind fst snd]; [|reflexivity].
  destruct (negb (wrap 32 p1w =? 0)); [|apply exec_tail].
  rewrite exec_bind, exec_integral. destruct (integral_digits _ _ _ _ _ _) as [[[b l] k]|]; cbn [bind fst snd]; [|reflexivity].
  destruct (Z.land (m_f Mp) (one_m - 1) <=? m_f delta).
  - rewrite exec_bind, exec_pure. destruct (sint (K + Z.of_nat k)); reflexivity.
  - rewrite exec_bind. replace (at_ + base + l) with (at_ + (base + l)) by lia. rewrite exec_memset. destruct (memset b (base + l) ch_0 (Z.of_nat k)); cbn [bind fst snd]; [apply exec_tail|reflexivity].
Qed.
Lemma exec_grisu2 : forall at_ T v base buf,
  exec at_ (grisu2_steps T v (at_ + base)) buf = ('(b, l, k) <- grisu2 T v buf base ;; Ok (b, (l, k))).
Proof.
  intros. unfold grisu2_steps, grisu2.
  rewrite exec_bind, exec_pure. destruct (boundaries T v) as [[w_m w_p]|]; cbn [bind fst snd]; [|reflexivity].
  rewrite exec_bind, exec_pure. destruct (k_comp_exp _ _) as [mk|]; cbn [bind fst snd]; [|reflexivity].
  rewrite exec_bind, exec_pure. destruct (cached_power T mk) as [c|]; cbn [bind fst snd]; [|reflexivity].
  rewrite exec_bind, exec_pure. destruct (diy_inc _ _); cbn [bind fst snd]; [|reflexivity].
  rewrite exec_bind, exec_pure. destruct (diy_dec _ _); cbn [bind fst snd]; [|reflexivity].
  apply exec_digit_gen.
Qed.

(** one store at an address *)
Ltac st x := match goal with |- exec ?at_ (pbind (store ?a ?c) ?k) ?buf = _ =>
  rewrite exec_bind, exec_store; replace (a - at_) with (x : Z) by (cbv beta; lia) end;
  match goal with |- context [write ?b ?i ?c] => destruct (write b i c) end; cbn [bind fst snd]; [|reflexivity].

Lemma exec_fill_exponent : forall at_ K base buf, exec at_ (fill_exponent_steps K (at_ + base)) buf = fill_exponent K buf base.
Proof.
  intros. unfold fill_exponent_steps, fill_exponent. cbv zeta. set (h := wrap 8 (K / 100)).
  st base.
  rewrite exec_bind, exec_pure. destruct (read_tab digits_lut (K mod 100 * 2)); cbn [bind fst snd]; [|reflexivity].
  rewrite exec_bind, exec_pure. destruct (read_tab digits_lut (K mod 100 * 2 + 1)); cbn [bind fst snd]; [|reflexivity].
  st (base + b2z (0 <? h)). st (base + b2z (0 <? h) + 1). st (base + b2z (0 <? h) + 2). reflexivity.
Qed.
Lemma exec_print_scientific : forall at_ base len dot_pos buf, exec at_ (print_scientific_steps (at_ + base) len dot_pos) buf = print_scientific buf base len dot_pos.
Proof.
  intros. unfold print_scientific_steps, print_scientific.
  rewrite exec_bind, exec_pure. destruct (sint (dot_pos - 1)) as [K|]; cbn [bind fst snd]; [|reflexivity].
  assert (R : forall base buf, exec at_ (store (at_ + base + 1) ch_e ~;; store (at_ + base + 2) ch_minus ~;; (let base0 := at_ + base + b2z (K <? 0) in n <~ fill_exponent_steps (Z.abs K) (base0 + 2) ;;
      Done (wrap 64 (len + b2z (1 <? len) + 1 + b2z (K <? 0) + n)))) buf =
    (b <- write buf (base + 1) ch_e ;; b <- write b (base + 2) ch_minus ;; (let base0 := base + b2z (K <? 0) in '(b, n) <- fill_exponent (Z.abs K) b (base0 + 2) ;;
      Ok (b, wrap 64 (len + b2z (1 <? len) + 1 + b2z (K <? 0) + n))))).
  { intros base0 buf0. cbv zeta. st (base0 + 1). st (base0 + 2). rewrite exec_bind.
    replace (at_ + base0 + b2z (K <? 0) + 2) with (at_ + (base0 + b2z (K <? 0) + 2)) by lia. rewrite exec_fill_exponent.
    destruct (fill_exponent _ _ _) as [[b n]|]; reflexivity. }
  rewrite exec_bind. destruct (1 <? len) eqn:E.
  - rewrite exec_bind. replace (at_ + base + 2) with (at_ + (base + 2)) by lia. replace (at_ + base + 1) with (at_ + (base + 1)) by lia. rewrite exec_memmove.
    destruct (memmove buf (base + 2) (base + 1) (len - 1)) as [b|]; cbn [bind fst snd]; [|reflexivity].
    rewrite exec_bind, exec_store. replace (at_ + (base + 1) - at_) with (base + 1) by lia. destruct (write b (base + 1) ch_dot); cbn [bind fst snd exec]; [|reflexivity].
    replace (at_ + base + len) with (at_ + (base + len)) by lia. apply R.
  - cbn [bind fst snd exec]. apply R.
Qed.
Lemma exec_print_decimal : forall at_ base len k buf, exec at_ (print_decimal_steps (at_ + base) len k) buf = print_decimal buf base len k.
Proof.
  intros. unfold print_decimal_steps, print_decimal.
  rewrite exec_bind, exec_pure. destruct (sint (len + k)) as [dp|]; cbn [bind fst snd]; [|reflexivity].
  set (adp := if 0 <? dp then dp else 1). set (lo := if 0 <? dp then 0 else wrap 32 (2 - dp)). set (ro := positive_part k). set (ls := positive_part dp).
  set (ld := if 0 <? dp then wrap 32 (ls + b2z (k <? 0)) else lo). set (ll := positive_part (len - ls)). set (tp := wrap 32 (len + ro + (ld - ls))). cbv zeta.
  replace (at_ + base + ld) with (at_ + (base + ld)) by lia. replace (at_ + base + ls) with (at_ + (base + ls)) by lia. replace (at_ + base + len) with (at_ + (base + len)) by lia.
  rewrite exec_bind, exec_memmove. destruct (memmove _ _ _ _); cbn [bind fst snd]; [|reflexivity].
  rewrite exec_bind, exec_memset. destruct (memset _ _ _ _); cbn [bind fst snd]; [|reflexivity].
  rewrite exec_bind, exec_memset. destruct (memset _ _ _ _); cbn [bind fst snd]; [|reflexivity].
  st (base + adp). st (base + tp). reflexivity.
Qed.
Lemma exec_prettify : forall at_ th base len k buf, exec at_ (prettify_steps th (at_ + base) len k) buf = prettify th buf base len k.
Proof.
  intros. unfold prettify_steps, prettify.
  rewrite exec_bind, exec_pure. destruct (sint (len + k)); cbn [bind fst snd]; [|reflexivity].
  rewrite exec_bind, exec_pure. destruct (sint (- k)); cbn [bind fst snd]; [|reflexivity].
  cbv zeta. destruct (th <? _); [apply exec_print_scientific|apply exec_print_decimal].
Qed.
Theorem exec_ftoa : forall at_ T v buf, exec at_ (ftoa_steps T v at_) buf = ftoa T v buf.
Proof.
  intros. unfold ftoa_steps, ftoa.
  destruct (is_nan T v). { st 0. st 1. st 2. st 3. reflexivity. }
  destruct (is_inf T v). { destruct (gt_zero T v). { st 0. st 1. st 2. st 3. reflexivity. } st 0. st 1. st 2. st 3. st 4. reflexivity. }
  destruct (is_zero T v). { st 0. st 1. reflexivity. }
  st 0. cbv zeta. rewrite exec_bind, exec_grisu2. destruct (grisu2 _ _ _ _) as [[[b l] k]|]; cbn [bind fst snd]; [|reflexivity].
  rewrite exec_bind, exec_prettify. destruct (prettify _ _ _ _ _) as [[b' n]|]; reflexivity.
Qed.
