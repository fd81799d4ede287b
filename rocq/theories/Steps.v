(** Model of ftoa.h, grisu.h (digit generation) and prettify.h again, access by access: the
    program is the sequence of its loads from and stores to memory, so that other threads can run
    in between. The definitions follow Grisu.v, Prettify.v and Ftoa.v line by line with [write],
    [memset] and [memmove] replaced by single accesses; StepsFacts.v proves that they do the same.
    Simplification: memmove is a loop of loads and then a loop of stores (the order of its accesses is
    not specified, and does not matter: nobody else may touch the same cells). *)
From Verif Require Import Machine BitOps StaticPow Format DiyFp KComp Chars Grisu Prettify Ftoa.
Open Scope Z_scope.

(** A program that accesses memory and gives a value of type [A] at the end. *)
Inductive prog (A : Type) : Type :=
| Done (a : A)
| Broken (f : fault)
| Load (i : Z) (k : Z -> prog A)
| Store (i c : Z) (k : prog A).
Arguments Done {A} a.
Arguments Broken {A} f.
Arguments Load {A} i k.
Arguments Store {A} i c k.

Fixpoint pbind {A B} (p : prog A) (k : A -> prog B) : prog B :=
  match p with
  | Done a => k a
  | Broken f => Broken f
  | Load i g => Load i (fun c => pbind (g c) k)
  | Store i c q => Store i c (pbind q k)
  end.
(** a computation without memory accesses *)
Definition pure {A} (r : res A) : prog A := match r with Ok a => Done a | Fault f => Broken f end.
Definition store (i c : Z) : prog unit := Store i c (Done tt).

Notation "x <~ m ;; k" := (pbind m (fun x => k)) (at level 61, m at next level, right associativity).
Notation "' p <~ m ;; k" := (pbind m (fun x => match x with p => k end)) (at level 61, p pattern, m at next level, right associativity).
Notation "m ~;; k" := (pbind m (fun _ => k)) (at level 61, right associativity).

Fixpoint store_list (i : Z) (xs : list Z) : prog unit :=
  match xs with
  | [] => Done tt
  | x :: t => Store i x (store_list (i + 1) t)
  end.
Fixpoint load_list (i : Z) (n : nat) : prog (list Z) :=
  match n with
  | O => Done []
  | S m => Load i (fun x => t <~ load_list (i + 1) m ;; Done (x :: t))
  end.
(** memwrap.h:31-57, as [memset], [memmove] *)
Definition memset_steps (dest ch count : Z) : prog unit := store_list dest (repeat ch (Z.to_nat count)).
Definition memmove_steps (dest src count : Z) : prog unit := xs <~ load_list src (Z.to_nat count) ;; store_list dest xs.

(** grisu.h:150-158, as [integral_digits] *)
Fixpoint integral_digits_steps (kappa : nat) (p1 div : Z) (base len : Z) : prog (Z * nat) :=
  match kappa with
  | O => Done (len, O)
  | S kappa' =>
      if p1 =? 0 then Done (len, kappa) else
      if div =? 0 then Broken DivideByZero else
      store (base + len) (ch_0 + p1 / div) ~;;
      integral_digits_steps kappa' (p1 mod div) (div / 10) base (len + 1)
  end.

(** grisu.h:175-188, as [fraction_digits] *)
Fixpoint fraction_digits_steps (w : Z) (fuel : nat) (sh p2 delta_f : Z) (some : bool) (kappa : Z) (base len : Z) : prog (Z * Z) :=
  if delta_f <? p2 then
    match fuel with
    | O => Broken OutOfFuel
    | S n =>
        let p2' := wrap w (p2 * 10) in
        d0 <~ pure (shr w p2' sh) ;;
        let d := wrap 8 d0 in
        len' <~ (if some || negb (d =? 0)
                 then store (base + len) (ch_0 + d) ~;; Done (len + 1)
                 else Done len) ;;
        one_m <~ pure (raised_bit w sh) ;;
        let p2'' := Z.land p2' (one_m - 1) in
        fraction_digits_steps w n sh p2'' (wrap w (delta_f * 10)) some (wrap 8 (kappa + 1)) base len'
    end
  else Done (len, kappa).

(** grisu.h:123-191, as [digit_gen] *)
Definition digit_gen_steps (T : fmt) (Mp Mm : diy) (base K : Z) : prog (Z * Z) :=
  pure (assert_ (m_e Mp <=? 0)) ~;;
  delta <~ pure (diy_sub T Mp Mm) ;;
  one_m <~ pure (raised_bit (fw T) (- m_e Mp)) ;;
  let one_e := m_e Mp in
  p1w <~ pure (shr (fw T) (m_f Mp) (- one_e)) ;;
  let p1 := wrap 32 p1w in
  let p2 := Z.land (m_f Mp) (one_m - 1) in
  pure (assert_ (negb (p1 =? 0) || negb (p2 =? 0))) ~;;
  let delta_f := m_f delta in
  let close_to_delta := p2 <=? delta_f in
  let tail (len : Z) : prog (Z * Z) :=
    '(len', kappa) <~ fraction_digits_steps (fw T) (Z.to_nat (fw T)) (- one_e) p2 delta_f (0 <? len) 0 base len ;;
    K' <~ pure (sint (K - kappa)) ;;
    Done (len', K') in
  if negb (p1 =? 0) then
    let kd := calculate_kappa_div p1 in
    '(len1, kappa) <~ integral_digits_steps (fst kd) p1 (snd kd) base 0 ;;
    if close_to_delta then
      K' <~ pure (sint (K + Z.of_nat kappa)) ;;
      Done (len1, K')
    else
      memset_steps (base + len1) ch_0 (Z.of_nat kappa) ~;;
      tail (len1 + Z.of_nat kappa)
  else tail 0.

(** grisu.h:262-283, as [grisu2] *)
Definition grisu2_steps (T : fmt) (v : Z) (base : Z) : prog (Z * Z) :=
  '(w_m, w_p) <~ pure (boundaries T v) ;;
  mk <~ pure (k_comp_exp (grisu_alpha T) (m_e w_p)) ;;
  c_mk <~ pure (cached_power T mk) ;;
  w_m' <~ pure (diy_inc T (diy_mul T w_m c_mk)) ;;
  w_p' <~ pure (diy_dec T (diy_mul T w_p c_mk)) ;;
  digit_gen_steps T w_p' w_m' base (- mk).

(** prettify.h:88-102, as [fill_exponent] *)
Definition fill_exponent_steps (K : Z) (base : Z) : prog Z :=
  let hundreds := wrap 8 (K / 100) in
  let K := K mod 100 in
  store base (ch_0 + hundreds) ~;;
  let base := base + b2z (0 <? hundreds) in
  d0 <~ pure (read_tab digits_lut (K * 2)) ;;
  d1 <~ pure (read_tab digits_lut (K * 2 + 1)) ;;
  store base d0 ~;;
  store (base + 1) d1 ~;;
  store (base + 2) ch_nul ~;;
  Done (2 + b2z (0 <? hundreds)).

(** prettify.h:119-136, as [print_scientific] *)
Definition print_scientific_steps (base len dot_pos : Z) : prog Z :=
  K <~ pure (sint (dot_pos - 1)) ;;
  base <~
    (if 1 <? len then
       memmove_steps (base + 2) (base + 1) (len - 1) ~;;
       store (base + 1) ch_dot ~;;
       Done (base + len)
     else Done base) ;;
  store (base + 1) ch_e ~;;
  store (base + 2) ch_minus ~;;
  let base := base + b2z (K <? 0) in
  n <~ fill_exponent_steps (Z.abs K) (base + 2) ;;
  Done (wrap 64 (len + b2z (1 <? len) + 1 + b2z (K <? 0) + n)).

(** prettify.h:152-174, as [print_decimal] *)
Definition print_decimal_steps (base len k : Z) : prog Z :=
  dot_pos <~ pure (sint (len + k)) ;;
  let actual_dot_pos := if 0 <? dot_pos then dot_pos else 1 in
  let left_offset := if 0 <? dot_pos then 0 else wrap 32 (2 - dot_pos) in
  let right_offset := positive_part k in
  let left_shift_src := positive_part dot_pos in
  let left_shift_dest :=
    if 0 <? dot_pos then wrap 32 (left_shift_src + b2z (k <? 0)) else left_offset in
  let left_shift_len := positive_part (len - left_shift_src) in
  let term_pos := wrap 32 (len + right_offset + (left_shift_dest - left_shift_src)) in
  memmove_steps (base + left_shift_dest) (base + left_shift_src) left_shift_len ~;;
  memset_steps base ch_0 left_offset ~;;
  memset_steps (base + len) ch_0 right_offset ~;;
  store (base + actual_dot_pos) ch_dot ~;;
  store (base + term_pos) ch_nul ~;;
  Done term_pos.

(** prettify.h:195-218, as [prettify] *)
Definition prettify_steps (threshold : Z) (base len k : Z) : prog Z :=
  dot_pos <~ pure (sint (len + k)) ;;
  mk <~ pure (sint (- k)) ;;
  let field_width := wrap 64 (Z.max dot_pos mk) in
  if threshold <? field_width
  then print_scientific_steps base len dot_pos
  else print_decimal_steps base len k.

(** ftoa.h:88-141 [ftoa(v, buffer)], as [ftoa]; [buffer] is the address *)
Definition ftoa_steps (T : fmt) (v : Z) (buffer : Z) : prog Z :=
  if is_nan T v then
    store (buffer + 0) ch_n ~;;
    store (buffer + 1) ch_a ~;;
    store (buffer + 2) ch_n ~;;
    store (buffer + 3) ch_nul ~;;
    Done 3
  else if is_inf T v then
    if gt_zero T v then
      store (buffer + 0) ch_i ~;;
      store (buffer + 1) ch_n ~;;
      store (buffer + 2) ch_f ~;;
      store (buffer + 3) ch_nul ~;;
      Done 3
    else
      store (buffer + 0) ch_minus ~;;
      store (buffer + 1) ch_i ~;;
      store (buffer + 2) ch_n ~;;
      store (buffer + 3) ch_f ~;;
      store (buffer + 4) ch_nul ~;;
      Done 4
  else if is_zero T v then
    store (buffer + 0) ch_0 ~;;
    store (buffer + 1) ch_nul ~;;
    Done 1
  else
    store (buffer + 0) ch_minus ~;;
    let base := buffer + b2z (lt_zero T v) in
    '(len, K) <~ grisu2_steps T v base ;;
    n <~ prettify_steps 16 base (wrap 32 len) K ;;
    Done (wrap 64 (b2z (lt_zero T v) + n)).
