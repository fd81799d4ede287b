(** What prettify.h makes of the digits: the final text. *)
From Coq Require Import String Reals Lra List.
From Flocq Require Import Core.
From Verif Require Import Machine MachineFacts BitOps Format Chars Grisu Prettify Spec DvalFacts.
Open Scope Z_scope.

(** two- or three-digit exponent *)
Definition exp_digits (x : Z) : list Z :=
  if x <? 100 then [x / 10; x mod 10] else [x / 100; x mod 100 / 10; x mod 10].

(** The number printed for the digits [ds] and exponent [K]. *)
Definition shown (s : signopt) (ds : list Z) (K : Z) : numeral :=
  let n := zlen ds in
  if 16 <? Z.max (n + K) (- K) then
    {| n_sign := s; n_int := [hd 0 ds]; n_frac := if 1 <? n then Some (tl ds) else None;
       n_exp := Some {| x_upper := false; x_sign := if n + K - 1 <? 0 then Minus else NoSign;
                        x_digits := exp_digits (Z.abs (n + K - 1)) |} |}
  else if 0 <=? K then
    {| n_sign := s; n_int := ds ++ repeat 0 (Z.to_nat K); n_frac := None; n_exp := None |}
  else if 0 <? n + K then
    {| n_sign := s; n_int := firstn (Z.to_nat (n + K)) ds;
       n_frac := Some (skipn (Z.to_nat (n + K)) ds); n_exp := None |}
  else
    {| n_sign := s; n_int := [0];
       n_frac := Some (repeat 0 (Z.to_nat (- (n + K))) ++ ds); n_exp := None |}.

(** the part of the text after the sign *)
Definition body (m : numeral) : list Z :=
  dchars (n_int m) ++ match n_frac m with None => [] | Some ds => text "." ++ dchars ds end
    ++ exponent_text m.

Lemma written_body : forall m, written m = sign_text (n_sign m) ++ body m.
Proof. intros. unfold written, mantissa_text, body. now rewrite <- !app_assoc. Qed.

Lemma digits_lut_ok : forall k, 0 <= k < 100 ->
  read_tab digits_lut (k * 2) = Ok (48 + k / 10) /\ read_tab digits_lut (k * 2 + 1) = Ok (48 + k mod 10).
Proof.
  intros k H.
  assert (A : forallb (fun k => match read_tab digits_lut (k * 2), read_tab digits_lut (k * 2 + 1) with
     | Ok a, Ok b => (a =? 48 + k / 10) && (b =? 48 + k mod 10) | _, _ => false end)
     (map Z.of_nat (seq 0 100)) = true) by (vm_compute; reflexivity).
  rewrite forallb_forall in A. specialize (A k).
  assert (I : In k (map Z.of_nat (seq 0 100))).
  { apply in_map_iff. exists (Z.to_nat k). split; [lia|]. apply in_seq. lia. }
  specialize (A I).
  destruct (read_tab digits_lut (k * 2)); [|discriminate].
  destruct (read_tab digits_lut (k * 2 + 1)); [|discriminate].
  apply andb_prop in A as [A1 A2]. apply Z.eqb_eq in A1, A2. now subst.
Qed.

Lemma take_n : forall (l : list Z) n, (n <= length l)%nat ->
  exists a b, l = a ++ b /\ length a = n.
Proof. intros l n H. exists (firstn n l), (skipn n l). split; [now rewrite firstn_skipn|now apply firstn_length_le]. Qed.

Lemma skipn_exact : forall (a b : list Z) n, n = length a -> skipn n (a ++ b) = b.
Proof. intros a b n ->. rewrite skipn_app, skipn_all, Nat.sub_diag. reflexivity. Qed.

(** fill_exponent: positions [base ..]. *)
Lemma fill_exponent_ok : forall K Q R base, 0 <= K <= 999 -> base = zlen Q ->
  (length (exp_digits K) < length R)%nat ->
  fill_exponent K (Q ++ R) base
  = Ok (Q ++ dchars (exp_digits K) ++ ch_nul :: skipn (S (length (exp_digits K))) R, zlen (exp_digits K)).
Proof.
  intros K Q R base HK -> HR. unfold fill_exponent.
  assert (H1 : 0 <= K / 100 < 10) by (split; [apply Z.div_pos; lia|apply Z.div_lt_upper_bound; lia]).
  rewrite (wrap_small 8 (K / 100)) by (change (2 ^ 8) with 256; lia).
  assert (H2 : 0 <= K mod 100 < 100) by (apply Z.mod_pos_bound; lia).
  destruct (digits_lut_ok (K mod 100) H2) as [L1 L2].
  unfold exp_digits in *. destruct (Z.ltb_spec K 100) as [HK1|HK1].
  - assert (K / 100 = 0) as -> by (apply Z.div_small; lia).
    rewrite (Z.mod_small K 100) in * by lia.
    cbn [length] in HR. destruct R as [|r0 [|r1 [|r2 R]]]; cbn [length] in HR; try lia.
    rewrite (write_app Q r0 (r1 :: r2 :: R)) by reflexivity. cbn [bind].
    change (0 <? 0) with false. cbn [b2z]. rewrite !Z.add_0_r.
    rewrite L1, L2. cbn [bind].
    rewrite (write_app Q _ (r1 :: r2 :: R)) by reflexivity. cbn [bind].
    change (Q ++ (48 + K / 10) :: r1 :: r2 :: R) with (Q ++ [48 + K / 10] ++ r1 :: r2 :: R).
    rewrite app_assoc, (write_app (Q ++ [48 + K / 10]) r1 (r2 :: R)) by (autorewrite with zlen; lia). cbn [bind].
    change ((Q ++ [48 + K / 10]) ++ (48 + K mod 10) :: r2 :: R) with ((Q ++ [48 + K / 10]) ++ [48 + K mod 10] ++ r2 :: R).
    rewrite app_assoc, write_app by (autorewrite with zlen; lia). cbn [bind].
    rewrite <- !app_assoc. cbn [dchars map app length skipn]. reflexivity.
  - assert (K / 100 <> 0) by (intros C; apply Z.div_small_iff in C; lia).
    cbn [length] in HR. destruct R as [|r0 [|r1 [|r2 [|r3 R]]]]; cbn [length] in HR; try lia.
    rewrite (write_app Q r0 (r1 :: r2 :: r3 :: R)) by reflexivity. cbn [bind].
    destruct (Z.ltb_spec 0 (K / 100)) as [_|?]; [|lia]. cbn [b2z].
    rewrite L1, L2. cbn [bind].
    assert (E10 : K mod 100 mod 10 = K mod 10).
    { clear. pose proof (Z.div_mod K 100 ltac:(lia)).
      apply (Z.mod_unique K 10 (K / 100 * 10 + K mod 100 / 10) (K mod 100 mod 10)).
      - left; apply Z.mod_pos_bound; lia.
      - pose proof (Z.div_mod (K mod 100) 10 ltac:(lia)). lia. }
    rewrite E10.
    change ch_0 with 48.
    change (Q ++ (48 + K / 100) :: r1 :: r2 :: r3 :: R) with (Q ++ [48 + K / 100] ++ r1 :: r2 :: r3 :: R).
    rewrite app_assoc, write_app by (autorewrite with zlen; lia). cbn [bind].
    match goal with |- context [(?a ++ ?x :: r2 :: r3 :: R)] => change (a ++ x :: r2 :: r3 :: R) with (a ++ [x] ++ r2 :: r3 :: R) end.
    rewrite app_assoc, write_app by (autorewrite with zlen; lia). cbn [bind].
    match goal with |- context [(?a ++ ?x :: r3 :: R)] => change (a ++ x :: r3 :: R) with (a ++ [x] ++ r3 :: R) end.
    rewrite app_assoc, write_app by (autorewrite with zlen; lia). cbn [bind].
    rewrite <- !app_assoc. cbn [dchars map app length skipn]. reflexivity.
Qed.

Lemma exp_digits_len : forall x, zlen (exp_digits x) = if x <? 100 then 2 else 3.
Proof. intros. unfold exp_digits. destruct (x <? 100); reflexivity. Qed.

(** moving a block by one cell to the right *)
Lemma memmove_right : forall b pre q rest i j n, i = zlen pre + 1 -> j = zlen pre -> n = zlen b ->
  exists c, memmove (pre ++ b ++ q :: rest) i j n = Ok (pre ++ c :: b ++ rest).
Proof.
  intros b pre q rest i j n -> -> ->. unfold memmove.
  rewrite (read_list_app b pre (q :: rest)) by (unfold zlen; lia). cbn [bind].
  assert (exists c b', b ++ [q] = c :: b' /\ length b' = length b) as (c & b' & E & L).
  { destruct b as [|x b]; [exists q, []; split; reflexivity|exists x, (b ++ [q])].
    split; [reflexivity|]. rewrite app_length; cbn; lia. }
  exists c.
  change (q :: rest) with ([q] ++ rest). rewrite (app_assoc b), E.
  replace (pre ++ (c :: b') ++ rest) with ((pre ++ [c]) ++ b' ++ rest) by (rewrite <- app_assoc; reflexivity).
  rewrite write_list_app by (autorewrite with zlen; try lia; congruence).
  now rewrite <- app_assoc.
Qed.

Lemma memset_0 : forall buf i c, memset buf i c 0 = Ok buf.
Proof. reflexivity. Qed.
Lemma memmove_0 : forall buf i j, memmove buf i j 0 = Ok buf.
Proof. reflexivity. Qed.

Lemma prettify_ok : forall s ds K pre rest, ds <> [] -> zlen ds <= 17 -> -500 <= K <= 500 ->
  (length (body (shown s ds K)) < length ds + length rest)%nat ->
  prettify 16 (pre ++ dchars ds ++ rest) (zlen pre) (zlen ds) K
  = Ok (pre ++ body (shown s ds K) ++ ch_nul :: skipn (S (length (body (shown s ds K))) - length ds) rest,
        zlen (body (shown s ds K))).
Proof.
  intros s ds K pre rest Hne Hn HK HR.
  assert (Hn0 : 1 <= zlen ds) by (destruct ds; [congruence|rewrite zlen_cons; pose proof (zlen_nonneg ds); lia]).
  unfold prettify. rewrite !sint_ok by lia. cbn [bind].
  rewrite wrap_small by lia.
  unfold shown in *. cbv zeta in *.
  destruct (Z.ltb_spec 16 (Z.max (zlen ds + K) (- K))) as [Hsci|Hdec].
  - (* scientific *)
    destruct ds as [|d ds]; [congruence|]. cbn [hd tl] in *.
    rewrite zlen_cons in *.
    set (X := 1 + zlen ds + K - 1) in *.
    unfold print_scientific. fold X. rewrite sint_ok by (unfold X; lia). cbn [bind].
    set (eds := exp_digits (Z.abs X)) in *.
    set (neg := X <? 0) in *.
    (* the exponent part, common to both branches *)
    assert (Tail : forall Q R base, base = zlen Q -> (1 + length (if neg then text "-" else []) + length eds < length R)%nat ->
      (buf <- write (Q ++ R) base ch_e ;; buf0 <- write buf (base + 1) ch_minus ;;
       '(buf1, n) <- fill_exponent (Z.abs X) buf0 (base + 1 + b2z neg) ;;
       Ok (buf1, n))
      = Ok (Q ++ ch_e :: sign_text (if neg then Minus else NoSign) ++ dchars eds ++ ch_nul
            :: skipn (S (1 + length (if neg then text "-" else []) + length eds)) R, zlen eds)).
    { intros Q R base -> HRl.
      destruct R as [|r0 R]; [cbn [length] in HRl; lia|].
      rewrite write_app by reflexivity. cbn [bind].
      destruct R as [|r1 R].
      { exfalso. cbn [length] in HRl. assert (1 <= length eds)%nat by (unfold eds, exp_digits; destruct (_ <? 100); cbn; lia). lia. }
      change (Q ++ ch_e :: r1 :: R) with (Q ++ [ch_e] ++ r1 :: R).
      rewrite app_assoc, write_app by (autorewrite with zlen; lia). cbn [bind].
      destruct neg; cbn [b2z length] in *.
      - change (((Q ++ [ch_e]) ++ ch_minus :: R)) with ((Q ++ [ch_e]) ++ [ch_minus] ++ R). rewrite app_assoc.
        change (length (text "-")) with 1%nat in *.
        rewrite fill_exponent_ok; [|unfold X in *; lia|autorewrite with zlen; lia|fold eds; cbn in HRl; lia].
        cbn [bind]. fold eds. rewrite <- !app_assoc. reflexivity.
      - change (((Q ++ [ch_e]) ++ ch_minus :: R)) with ((Q ++ [ch_e]) ++ (ch_minus :: R)).
        rewrite fill_exponent_ok; [|unfold X in *; lia|autorewrite with zlen; lia|fold eds; cbn in HRl |- *; lia].
        cbn [bind]. fold eds. rewrite <- !app_assoc. reflexivity. }
    assert (Hzeds : 2 <= zlen eds <= 3) by (unfold eds; rewrite exp_digits_len; destruct (_ <? 100); lia).
    destruct (Z.ltb_spec 1 (1 + zlen ds)) as [Hn1|Hn1].
    + destruct rest as [|q rest].
      { exfalso. unfold body in HR. cbn [n_int n_frac n_exp exponent_text length x_upper] in HR. rewrite !app_length, !dchars_length in HR. cbn [length text map list_ascii_of_string app] in HR. lia. }
      replace (pre ++ dchars (d :: ds) ++ q :: rest) with ((pre ++ [48 + d]) ++ dchars ds ++ q :: rest).
      2:{ rewrite <- app_assoc. reflexivity. }
      destruct (memmove_right (dchars ds) (pre ++ [48 + d]) q rest (zlen pre + 2) (zlen pre + 1) (1 + zlen ds - 1)) as (c & ->);
        [autorewrite with zlen; lia|autorewrite with zlen; lia|rewrite zlen_dchars; lia|].
      cbn [bind]. rewrite write_app by (autorewrite with zlen; lia). cbn [bind].
      replace ((pre ++ [48 + d]) ++ ch_dot :: dchars ds ++ rest) with ((pre ++ (48 + d) :: ch_dot :: dchars ds) ++ rest).
      2:{ rewrite <- !app_assoc. cbn [app]. now rewrite <- ?app_assoc. }
      specialize (Tail (pre ++ (48 + d) :: ch_dot :: dchars ds) rest (zlen pre + (1 + zlen ds) + 1)).
      assert (Bd : body {| n_sign := s; n_int := [d]; n_frac := Some ds;
         n_exp := Some {| x_upper := false; x_sign := if neg then Minus else NoSign; x_digits := eds |} |}
         = (48 + d) :: ch_dot :: dchars ds ++ ch_e :: sign_text (if neg then Minus else NoSign) ++ dchars eds) by reflexivity.
      rewrite Bd in *. cbn [length] in HR. rewrite app_length, dchars_length in HR. cbn [length] in HR. rewrite app_length, dchars_length in HR.
      assert (Sg : length (sign_text (if neg then Minus else NoSign)) = length (if neg then text "-" else [])) by (destruct neg; reflexivity).
      match type of Tail with ?A -> ?B -> _ => assert (TA : A); [|assert (TB : B)] end.
      { autorewrite with zlen. rewrite zlen_dchars. lia. }
      { rewrite Sg in HR. lia. }
      specialize (Tail TA TB).
      destruct (write ((pre ++ (48 + d) :: ch_dot :: dchars ds) ++ rest) (zlen pre + (1 + zlen ds) + 1) ch_e) as [b1|]; [|discriminate].
      cbn [bind] in *.
      replace (zlen pre + (1 + zlen ds) + 2) with (zlen pre + (1 + zlen ds) + 1 + 1) by lia.
      destruct (write b1 (zlen pre + (1 + zlen ds) + 1 + 1) ch_minus) as [b2|]; [|discriminate].
      cbn [bind] in *.
      replace (zlen pre + (1 + zlen ds) + b2z neg + 2) with (zlen pre + (1 + zlen ds) + 1 + 1 + b2z neg) by lia.
      destruct (fill_exponent (Z.abs X) b2 (zlen pre + (1 + zlen ds) + 1 + 1 + b2z neg)) as [[b3 n3]|]; [|discriminate].
      cbn [bind] in *. injection Tail as -> ->.
      cbn [b2z].
      f_equal. f_equal.
      * rewrite <- !app_assoc. cbn [app]. rewrite <- !app_assoc. cbn [app]. rewrite <- !app_assoc.
        do 8 f_equal.
        cbn [length]. rewrite app_length, dchars_length. cbn [length]. rewrite app_length, dchars_length, Sg.
        match goal with |- _ = skipn ?b _ => replace b with (S (S (S (length (if neg then text "-" else []) + length eds)))) by lia end. reflexivity.
      * assert (Zs : zlen (sign_text (if neg then Minus else NoSign)) = b2z neg) by (destruct neg; reflexivity).
        autorewrite with zlen. rewrite !zlen_dchars, Zs. autorewrite with zlen. rewrite wrap_small; [lia|].
        assert (0 <= b2z neg <= 1) by (destruct neg; cbn; lia). lia.
    + assert (ds = []) as -> by (destruct ds; [reflexivity|rewrite zlen_cons in Hn1; pose proof (zlen_nonneg ds); lia]).
      cbn [bind]. change (zlen []) with 0 in *. change (1 + 0) with 1 in *.
      change (dchars [d]) with [48 + d] in *. rewrite app_assoc.
      specialize (Tail (pre ++ [48 + d]) rest (zlen pre + 1)).
      assert (Bd : body {| n_sign := s; n_int := [d]; n_frac := None;
         n_exp := Some {| x_upper := false; x_sign := if neg then Minus else NoSign; x_digits := eds |} |}
         = (48 + d) :: ch_e :: sign_text (if neg then Minus else NoSign) ++ dchars eds) by reflexivity.
      rewrite Bd in *. cbn [length] in HR. rewrite app_length, dchars_length in HR.
      assert (Sg : length (sign_text (if neg then Minus else NoSign)) = length (if neg then text "-" else [])) by (destruct neg; reflexivity).
      match type of Tail with ?A -> ?B -> _ => assert (TA : A); [|assert (TB : B)] end.
      { autorewrite with zlen. lia. }
      { rewrite Sg in HR. lia. }
      specialize (Tail TA TB).
      destruct (write ((pre ++ [48 + d]) ++ rest) (zlen pre + 1) ch_e) as [b1|]; [|discriminate].
      cbn [bind] in *.
      replace (zlen pre + 2) with (zlen pre + 1 + 1) by lia.
      destruct (write b1 (zlen pre + 1 + 1) ch_minus) as [b2|]; [|discriminate].
      cbn [bind] in *.
      replace (zlen pre + b2z neg + 2) with (zlen pre + 1 + 1 + b2z neg) by lia.
      destruct (fill_exponent (Z.abs X) b2 (zlen pre + 1 + 1 + b2z neg)) as [[b3 n3]|]; [|discriminate].
      cbn [bind] in *. injection Tail as -> ->.
      cbn [b2z].
      f_equal. f_equal.
      * rewrite <- !app_assoc. cbn [app]. rewrite <- !app_assoc.
        do 6 f_equal.
        cbn [length]. rewrite app_length, dchars_length, Sg.
        match goal with |- _ = skipn ?b _ => replace b with (S (S (length (if neg then text "-" else []) + length eds))) by lia end. reflexivity.
      * assert (Zs : zlen (sign_text (if neg then Minus else NoSign)) = b2z neg) by (destruct neg; reflexivity).
        autorewrite with zlen. rewrite !zlen_dchars, Zs. rewrite wrap_small; [lia|].
        assert (0 <= b2z neg <= 1) by (destruct neg; cbn; lia). lia.
  - unfold print_decimal. rewrite !sint_ok by lia. cbn [bind]. cbv zeta.
    unfold positive_part.
    destruct (Z.leb_spec 0 K) as [HK0|HK0].
    + (* integer *)
      destruct (Z.ltb_spec 0 (zlen ds + K)) as [_|?]; [|lia].
      destruct (Z.ltb_spec K 0) as [?|_]; [lia|]. cbn [b2z].
      rewrite (Z.max_r 0 (zlen ds + K)) by lia. rewrite (Z.max_r 0 K) by lia.
      rewrite (Z.max_l 0 (zlen ds - (zlen ds + K))) by lia.
      rewrite memmove_0. cbn [bind]. rewrite memset_0. cbn [bind].
      assert (Bd : body {| n_sign := s; n_int := ds ++ repeat 0 (Z.to_nat K); n_frac := None; n_exp := None |}
         = dchars ds ++ repeat 48 (Z.to_nat K)).
      { unfold body. cbn [n_int n_frac n_exp exponent_text app]. rewrite !app_nil_r, dchars_app, dchars_zeros. reflexivity. }
      rewrite Bd in *. rewrite app_length, dchars_length, repeat_length in HR.
      destruct (take_n rest (Z.to_nat K)) as (A & B & -> & LA); [lia|].
      rewrite app_length in HR. destruct B as [|q B]; [cbn in HR; lia|].
      replace (pre ++ dchars ds ++ A ++ q :: B) with ((pre ++ dchars ds) ++ A ++ q :: B) by now rewrite <- app_assoc.
      unfold memset. change ch_0 with 48.
      rewrite write_list_app; [|autorewrite with zlen; rewrite zlen_dchars; lia|rewrite repeat_length; lia].
      cbn [bind].
      rewrite (app_assoc (pre ++ dchars ds)).
      rewrite write_app by (autorewrite with zlen; rewrite zlen_dchars; lia). cbn [bind].
      rewrite (wrap_small 32 (zlen ds + K + 0)) by lia. rewrite (wrap_small 32) by lia.
      rewrite write_app by (autorewrite with zlen; rewrite zlen_dchars; lia). cbn [bind].
      autorewrite with zlen. rewrite zlen_dchars.
      f_equal. f_equal; [|lia].
      rewrite <- !app_assoc. do 4 f_equal. rewrite app_length, dchars_length, repeat_length.
      change (q :: B) with ([q] ++ B). rewrite app_assoc. rewrite skipn_exact; [reflexivity|].
      rewrite app_length; cbn [length]; lia.
    + destruct (Z.ltb_spec 0 (zlen ds + K)) as [Hp|Hp].
      * (* point inside the digits *)
        destruct (Z.ltb_spec K 0) as [_|?]; [|lia]. cbn [b2z].
        rewrite (Z.max_r 0 (zlen ds + K)) by lia. rewrite (Z.max_l 0 K) by lia.
        rewrite (Z.max_r 0 (zlen ds - (zlen ds + K))) by lia.
        rewrite (wrap_small 32 (zlen ds + K + 1)) by lia.
        rewrite (wrap_small 32) by lia.
        set (a := firstn (Z.to_nat (zlen ds + K)) ds) in *. set (b := skipn (Z.to_nat (zlen ds + K)) ds) in *.
        assert (Eab : ds = a ++ b) by (unfold a, b; now rewrite firstn_skipn).
        assert (La : zlen a = zlen ds + K).
        { unfold a, zlen in *. rewrite firstn_length_le; [lia|]. unfold zlen in *; lia. }
        assert (Lb : zlen b = - K) by (rewrite Eab in La; rewrite zlen_app in La; lia).
        assert (Bd : body {| n_sign := s; n_int := a; n_frac := Some b; n_exp := None |} = dchars a ++ ch_dot :: dchars b).
        { unfold body. cbn [n_int n_frac n_exp exponent_text]. rewrite app_nil_r. reflexivity. }
        rewrite Bd in *. rewrite app_length in HR. cbn [length] in HR. rewrite !dchars_length in HR.
        assert (Ln : length ds = (length a + length b)%nat) by (rewrite Eab at 1; now rewrite app_length).
        destruct rest as [|q [|z rest]]; cbn [length] in HR; try lia.
        replace (pre ++ dchars ds ++ q :: z :: rest) with ((pre ++ dchars a) ++ dchars b ++ q :: z :: rest).
        2:{ rewrite Eab at 1. rewrite dchars_app. now rewrite <- !app_assoc. }
        destruct (memmove_right (dchars b) (pre ++ dchars a) q (z :: rest) (zlen pre + (zlen ds + K + 1)) (zlen pre + (zlen ds + K))
                   (zlen ds - (zlen ds + K))) as (c & ->);
          [rewrite zlen_app, zlen_dchars; lia|rewrite zlen_app, zlen_dchars; lia|rewrite zlen_dchars; lia|].
        cbn [bind]. rewrite memset_0. cbn [bind]. rewrite memset_0. cbn [bind].
        rewrite write_app by (rewrite zlen_app, zlen_dchars; lia). cbn [bind].
        change (ch_dot :: dchars b ++ z :: rest) with ((ch_dot :: dchars b) ++ z :: rest). rewrite app_assoc.
        rewrite write_app by (autorewrite with zlen; rewrite !zlen_dchars; lia). cbn [bind].
        f_equal. f_equal.
        -- rewrite <- !app_assoc. do 2 f_equal. cbn [app]. do 3 f_equal. rewrite app_length. cbn [length]. rewrite !dchars_length, Ln.
           match goal with |- _ = skipn ?n _ => replace n with 2%nat by lia end. reflexivity.
        -- autorewrite with zlen. rewrite !zlen_dchars. lia.
      * (* leading zeros *)
        rewrite (Z.max_l 0 (zlen ds + K)) by lia. rewrite (Z.max_l 0 K) by lia.
        rewrite (Z.max_r 0 (zlen ds - 0)) by lia.
        rewrite (wrap_small 32 (2 - (zlen ds + K))) by lia.
        rewrite (wrap_small 32) by lia. rewrite !Z.sub_0_r, Z.add_0_r.
        set (p := - (zlen ds + K)) in *.
        replace (2 - (zlen ds + K)) with (2 + p) by (unfold p; lia).
        assert (Bd : body {| n_sign := s; n_int := [0]; n_frac := Some (repeat 0 (Z.to_nat p) ++ ds); n_exp := None |}
          = 48 :: ch_dot :: repeat 48 (Z.to_nat p) ++ dchars ds).
        { unfold body. cbn [n_int n_frac n_exp exponent_text]. rewrite app_nil_r, dchars_app, dchars_zeros. reflexivity. }
        rewrite Bd in *. cbn [length] in HR. rewrite app_length, dchars_length, repeat_length in HR.
        destruct (take_n rest (Z.to_nat (2 + p))) as (A & B & -> & LA); [unfold p in *; lia|].
        rewrite app_length in HR. destruct B as [|z B]; [cbn [length] in HR; unfold p in *; lia|].
        unfold memmove.
        rewrite (read_list_app (dchars ds) pre) by (try reflexivity; rewrite dchars_length; unfold zlen; lia).
        cbn [bind].
        destruct (take_n (dchars ds ++ A) (Z.to_nat (2 + p))) as (C & D & ECD & LC).
        { rewrite app_length, LA. lia. }
        assert (LD : length D = length (dchars ds)).
        { apply (f_equal (@length Z)) in ECD. rewrite !app_length in ECD. lia. }
        replace (pre ++ dchars ds ++ A ++ z :: B) with ((pre ++ C) ++ D ++ z :: B).
        2:{ rewrite <- app_assoc. f_equal. rewrite !app_assoc, ECD. reflexivity. }
        rewrite write_list_app; [|assert (0 <= p) by (unfold p; lia); assert (zlen C = 2 + p) by (unfold zlen; lia); rewrite zlen_app; lia|congruence].
        cbn [bind]. unfold memset.
        rewrite <- app_assoc. change ch_0 with 48. rewrite (write_list_app _ C) by (try reflexivity; rewrite repeat_length; congruence).
        cbn [bind]. change (Z.to_nat 0) with 0%nat. cbn [repeat write_list bind].
        replace (Z.to_nat (2 + p)) with (S (S (Z.to_nat p))) by (unfold p; lia). cbn [repeat].
        rewrite <- app_comm_cons. 
        replace (pre ++ 48 :: (48 :: repeat 48 (Z.to_nat p)) ++ dchars ds ++ z :: B)
           with ((pre ++ [48]) ++ 48 :: repeat 48 (Z.to_nat p) ++ dchars ds ++ z :: B) by (rewrite <- app_assoc; reflexivity).
        rewrite write_app by (autorewrite with zlen; lia). cbn [bind].
        replace ((pre ++ [48]) ++ ch_dot :: repeat 48 (Z.to_nat p) ++ dchars ds ++ z :: B)
          with ((pre ++ 48 :: ch_dot :: repeat 48 (Z.to_nat p) ++ dchars ds) ++ z :: B).
        2:{ rewrite <- !app_assoc. cbn [app]. now rewrite <- !app_assoc. }
        rewrite write_app.
        2:{ autorewrite with zlen. rewrite zlen_dchars. unfold p in *; lia. }
        cbn [bind]. f_equal. f_equal.
        -- rewrite <- !app_assoc. cbn [app]. do 5 f_equal. cbn [length]. rewrite app_length, dchars_length, repeat_length.
           change (z :: B) with ([z] ++ B). rewrite app_assoc, skipn_exact; [reflexivity|].
           rewrite app_length, LA. cbn [length]. unfold p in *. lia.
        -- autorewrite with zlen. rewrite zlen_dchars. unfold p in *; lia.
Qed.
