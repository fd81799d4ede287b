(** C100: saving a value as text and loading it again, over and over. *)
From Coq Require Import Reals Lra Lia ZArith Bool List String Ascii.
From Flocq Require Import Core.
From Verif Require Import Machine MachineFacts BitOps StaticPow Fraction Format DiyFp KComp Chars Grisu Ftoa Krosh Atof Spec ParseSpec Api ParseApi Instances   DiyFacts BoundFacts TableFacts DigitGenFacts GrisuFacts PrettifyFacts ShownFacts FtoaFacts RoundFacts WrittenFacts PrintProps PrintProps2 PrintProps3 DownFacts DvalFacts CmpFacts ArithProps ScanFacts LoopFacts ParseFacts GapFacts KroshNum ShortFacts FracFacts LongFacts ParseProps Refuted LocalFacts LocalProps NegProps RoundTrip PowerTrip Protocol MeanSpec ExactSpec WholeSpec Whole PrintSpec ShowSpec ShownText CycleSpec.
Import ListNotations.
Open Scope Z_scope.

(** ** one pass *)
(** [v] comes back as [w] *)
Definition becomes (t : ftype) (v w : Z) : Prop :=
  forall fb errno, good_fallback t fb -> exists r, reload t fb v errno = Ok r /\ at_value r = w.

Lemma passes_kept : forall t v, becomes t v v -> forall fb n errno, good_fallback t fb -> passes t fb n v errno = Ok v.
Proof.
  intros t v B fb n. induction n as [|n IH]; intros errno G; [reflexivity|]. cbn [passes]. destruct (B fb errno G) as (r & -> & E). cbn [bind]. rewrite E. now apply IH.
Qed.
Lemma passes_step : forall t v w fb n errno, becomes t v w -> good_fallback t fb -> exists errno', passes t fb (S n) v errno = passes t fb n w errno'.
Proof. intros t v w fb n errno B G. cbn [passes]. destruct (B fb errno G) as (r & -> & <-). cbn [bind]. eauto. Qed.

Lemma end_zero : ends_number 0.
Proof. repeat split; vm_compute; intuition congruence. Qed.

Lemma text_of : forall t v, nonzero t v -> exists m, well_formed m /\ prints t v (written m) /\ to_basic_string (fmt_of t) v = Ok (written m).
Proof.
  intros t v H. destruct (ftoa_finite_g t v H) as (ds & K & lo & hi & D1 & D2 & D3 & D4 & D5 & _ & _ & _ & _ & PR & _). cbv zeta in *.
  exists (shown (sign_of t v) ds K). split; [apply shown_wf; try assumption; clear - D4 D5; destruct t; cbn [kmin kmax max_sig] in *; lia|]. split; [exact PR|].
  destruct (C15_to_string t v (proj1 (proj1 H))) as (s & S1 & S2). rewrite S2. f_equal. exact (prints_unique _ _ _ _ S1 PR).
Qed.

Lemma reload_atof : forall t v m fb errno w, to_basic_string (fmt_of t) v = Ok (written m) ->
  (exists r, atof (fmt_of t) (written m ++ 0 :: []) true fb errno = Ok r /\ at_value r = w) ->
  exists r, reload t fb v errno = Ok r /\ at_value r = w.
Proof.
  intros t v m fb errno w S (r & E & V). unfold reload. rewrite S. cbn [bind]. unfold from_string.
  destruct (C51_null_end t (written m ++ [0]) fb errno) as [(f & A & _)|(r1 & r2 & e & A1 & A2 & A3 & _)]; [congruence|].
  exists r2. split; [exact A2|congruence].
Qed.

Lemma plain_kept : forall t v, nonzero t v -> ~ normal_power t v -> becomes t v v.
Proof.
  intros t v H N fb errno G. destruct (text_of t v H) as (m & W & P & S). apply (reload_atof t v m fb errno v S).
  apply (C46_exactly t v m 0 [] fb errno H W P end_zero G). tauto.
Qed.

(** ** powers of two *)
Lemma power_place : forall t v u neg m, nonzero t v -> In u (powers t) -> v = u + zero_of t neg -> (sign_field t v =? 1) = neg -> 0 < u < 2 ^ (width t - 1) ->
  well_formed m -> prints t v (written m) ->
  exists p, power_class t u = Some p /\ in_place t (Rabs (value m)) (Rabs (real_of t v)) p.
Proof.
  intros t v u neg m Hnz U1 U2 U3 U4 W P. destruct (powers_checked t u U1) as (pl & C). exists pl. split; [exact C|].
  assert (Pu : pattern t u) by (destruct (bits_fields t u false ltac:(lia)) as (B & _); cbn [zero_of] in B; rewrite Z.add_0_r in B; exact B).
  assert (Vu : v = if neg then opposite t u else u).
  { rewrite U2. destruct neg; cbn [zero_of]; [|lia]. unfold opposite. destruct (Z.ltb_spec u (2 ^ (width t - 1))); lia. }
  destruct (ftoa_finite_g t v Hnz) as (ds & K & lo & hi & D1 & D2 & D3 & D4 & D5 & _ & _ & _ & _ & PR & LN & GR). cbv zeta in *.
  specialize (GR [] (repeat 0 20) ltac:(clear - D4; unfold zlen in D4; rewrite repeat_length; destruct t; cbn [max_sig] in D4; lia)).
  change (zlen []) with 0 in GR. cbn [app] in GR.
  assert (GU : grisu2 (fmt_of t) u (repeat 0 20) 0 = grisu2 (fmt_of t) v (repeat 0 20) 0).
  { rewrite Vu. destruct neg; [|reflexivity]. now rewrite opposite_grisu2. }
  unfold power_class in C. rewrite GU, GR in C. cbv beta iota zeta in C.
  assert (ED : map (fun c => c - 48) (firstn (Z.to_nat (zlen ds)) (dchars ds ++ skipn (List.length ds) (repeat 0 20))) = ds).
  { unfold zlen. rewrite Nat2Z.id. replace (List.length ds) with (List.length (dchars ds)) at 1 by (unfold dchars; now rewrite map_length).
    rewrite firstn_app, Nat.sub_diag, firstn_all. cbn [firstn]. rewrite app_nil_r. unfold dchars. rewrite map_map. change (code "0") with 48.
    rewrite <- (map_id ds) at 2. apply map_ext. intros. lia. }
  rewrite ED in C. clear ED GR GU.
  assert (HT : - table_max t <= K <= table_max t) by (clear - D5; destruct t; cbn [kmin kmax table_max] in *; lia).
  assert (HK : -500 <= K <= 500) by (clear - D5; destruct t; cbn [kmin kmax] in D5; lia).
  assert (Hn : zlen ds <= 17) by (clear - D4; destruct t; cbn [max_sig] in D4; lia).
  pose proof (prints_unique _ _ _ _ P PR) as E. apply written_inj in E; [|assumption|now apply shown_wf].
  assert (V : abs_value m = (IZR (dval ds) * pow10 K)%R) by (rewrite E; now apply shown_value).
  assert (SE : significand t u = significand t v /\ exponent t u = exponent t v).
  { rewrite Vu. destruct neg; [|auto]. destruct (opposite_significand t u Pu) as [-> ->]. auto. }
  destruct SE as [SE1 SE2]. rewrite SE1, SE2 in C.
  pose proof (placed_ok t (dval ds) K (significand t v) (exponent t v) ltac:(pose proof (dval_pos ds D1 D2); lia) HT) as PL.
  rewrite value_abs, abs_real by assumption. change (IZR (significand t v) * bpow radix2 (exponent t v))%R with (magnitude t v) in PL. rewrite <- V in PL.
  match type of C with (if ?b then _ else _) = _ => destruct b; [|discriminate C] end. injection C as <-. exact PL.
Qed.

(** the power of two with exponent field [i + 1] *)
Definition power_at (t : ftype) (neg : bool) (i : nat) : Z := (Z.of_nat i + 1) * 2 ^ (precision t - 1) + zero_of t neg.
Definition how_many (t : ftype) : nat := Z.to_nat (all_ones t - 1).
Lemma powers_length : forall t, List.length (powers t) = how_many t.
Proof. intros t. unfold powers, count, how_many. now rewrite !map_length, seq_length. Qed.
Lemma powers_nth : forall t i, (i < how_many t)%nat -> nth_error (powers t) i = Some ((Z.of_nat i + 1) * 2 ^ (precision t - 1)).
Proof.
  intros t i H. unfold powers, count, how_many in *. rewrite map_map. rewrite (map_nth_error _ i (seq 0 (Z.to_nat (all_ones t - 1))) (d := i)); [reflexivity|].
  rewrite (nth_error_nth' _ 0%nat) by now rewrite seq_length. now rewrite seq_nth.
Qed.
Lemma power_facts : forall t neg i, (i < how_many t)%nat ->
  let u := (Z.of_nat i + 1) * 2 ^ (precision t - 1) in let v := power_at t neg i in
  In u (powers t) /\ v = u + zero_of t neg /\ (sign_field t v =? 1) = neg /\ 0 < u < 2 ^ (width t - 1) /\ nonzero t v /\
  Rabs (real_of t v) = bpow radix2 (min_exp t + Z.of_nat i + precision t - 1).
Proof.
  intros t neg i H u v. pose proof (width_facts t) as W. set (p := 2 ^ (precision t - 1)) in *. pose proof (pow2_pos (precision t - 1) ltac:(lia)) as Pp. fold p in Pp.
  assert (EW : 2 ^ (width t - 1) = 2 ^ (width t - precision t) * p) by (unfold p; rewrite <- Z.pow_add_r by lia; f_equal; lia).
  pose proof (pow2_half (width t) ltac:(lia)) as E2. pose proof (pow2_pos (width t - 1) ltac:(lia)) as PW.
  assert (Hi : 0 <= Z.of_nat i < all_ones t - 1) by (unfold how_many in H; lia).
  assert (U : 0 < u < 2 ^ (width t - 1)) by (rewrite EW; unfold u; fold p; unfold all_ones in Hi; nia).
  assert (EV : v = u + zero_of t neg) by reflexivity.
  destruct (bits_fields t u neg ltac:(lia)) as (P & X & F). rewrite <- EV in P, X, F. fold p in X, F. unfold u in X, F. rewrite Z.div_mul in X by lia. rewrite Z.mod_mul in F by lia.
  split; [apply (nth_error_In _ i); now apply powers_nth|]. split; [exact EV|]. split.
  { unfold sign_field. rewrite EV. destruct neg; cbn [zero_of].
    - replace ((u + 2 ^ (width t - 1)) / 2 ^ (width t - 1)) with 1; [reflexivity|]. apply Z.div_unique with u; lia.
    - rewrite Z.add_0_r, Z.div_small by lia. reflexivity. }
  split; [exact U|]. split.
  { split; [split; [exact P|rewrite X; lia]|]. intros (_ & Q & _). lia. }
  rewrite abs_real. unfold magnitude, significand, exponent. rewrite X, F. destruct (Z.eqb_spec (Z.of_nat i + 1) 0); [lia|]. rewrite Z.max_r, Z.add_0_l by lia.
  change (2 ^ (precision t - 1)) with (radix2 ^ (precision t - 1)). rewrite <- bpow_IZR, <- bpow_plus by lia. f_equal. lia.
Qed.

Definition is_below (o : option place) : bool := match o with Some WellBelow => true | _ => false end.
Lemma power_step : forall t neg i p, (i < how_many t)%nat -> nth_error (map (power_class t) (powers t)) i = Some p ->
  if is_below p then forall i', i = S i' -> becomes t (power_at t neg i) (power_at t neg i') else becomes t (power_at t neg i) (power_at t neg i).
Proof.
  intros t neg i p H N. destruct (power_facts t neg i H) as (U1 & U2 & U3 & U4 & U5 & U6). set (v := power_at t neg i) in *. set (u := (Z.of_nat i + 1) * 2 ^ (precision t - 1)) in *.
  rewrite (map_nth_error _ _ _ (powers_nth t i H)) in N. fold u in N. injection N as N.
  destruct (text_of t v U5) as (m & W & P & S). destruct (power_place t v u neg m U5 U1 U2 U3 U4 W P) as (pl & C & L). rewrite C in N. subst p.
  assert (Np : normal_power t v) by (exists (min_exp t + Z.of_nat i + precision t - 1); split; [lia|exact U6]).
  assert (PV : (0 < Rabs (real_of t v))%R) by (rewrite U6; apply bpow_gt_0). pose proof (bpow_gt_0 radix2 (2 - width t)) as Pw.
  cbn [is_below]. destruct pl; cbn [in_place] in L.
  - intros fb errno G. apply (reload_atof t v m fb errno v S). apply (C46_exactly t v m 0 [] fb errno U5 W P end_zero G). intros [_ Q]. nra.
  - intros i' -> fb errno G. apply (reload_atof t v m fb errno _ S). destruct (power_outcome t v m 0 [] true fb errno (proj1 U5) Np W P end_zero) as (w & E & A & _); [nra|].
    eexists. split; [exact E|]. cbn. rewrite (A L). unfold v, power_at. lia.
  - intros fb errno G. apply (reload_atof t v m fb errno v S). apply (C46_exactly t v m 0 [] fb errno U5 W P end_zero G). intros [_ Q]. nra.
Qed.

Lemma runs_end : forall limit l now i, runs_below limit now l = true -> (i < List.length l)%nat ->
  (exists j q, (j <= i)%nat /\ (j <= limit)%nat /\ nth_error l (i - j) = Some q /\ is_below q = false /\
     forall j', (j' < j)%nat -> exists q', nth_error l (i - j') = Some q' /\ is_below q' = true) \/
  ((now + i + 1 <= limit)%nat /\ forall j, (j <= i)%nat -> exists q', nth_error l j = Some q' /\ is_below q' = true).
Proof.
  intros limit. induction l as [|x l IH]; intros now i H L; [cbn in L; lia|]. cbn [List.length] in L.
  destruct i as [|i].
  - destruct (is_below x) eqn:B.
    + right. destruct x as [[| |]|]; try discriminate B. cbn [runs_below] in H. apply andb_prop in H as [H _]. apply Nat.ltb_lt in H. split; [lia|].
      intros j Hj. replace j with 0%nat by lia. exists (Some WellBelow). auto.
    + left. exists 0%nat, x. split; [lia|]. split; [lia|]. split; [reflexivity|]. split; [exact B|]. intros j' Hj. lia.
  - assert (R : exists now', runs_below limit now' l = true /\ (is_below x = true /\ now' = S now \/ is_below x = false /\ now' = 0%nat)).
    { cbn [runs_below] in H. destruct x as [[| |]|]; [exists 0%nat; auto| |exists 0%nat; auto|discriminate]. apply andb_prop in H as [_ H]. exists (S now). auto. }
    destruct R as (now' & R & X). destruct (IH now' i R ltac:(lia)) as [(j & q & J1 & J2 & J3 & J4 & J5)|[J1 J2]].
    + left. exists j, q. split; [lia|]. split; [exact J2|]. replace (S i - j)%nat with (S (i - j)) by lia. split; [exact J3|]. split; [exact J4|].
      intros j' Hj'. replace (S i - j')%nat with (S (i - j')) by lia. exact (J5 j' Hj').
    + destruct X as [[X ->]|[X ->]].
      * right. split; [lia|]. intros [|j] Hj; [exists x; auto|]. apply J2. lia.
      * left. exists (S i), x. split; [lia|]. split; [lia|]. rewrite Nat.sub_diag. split; [reflexivity|]. split; [exact X|].
        intros j' Hj'. replace (S i - j')%nat with (S (i - j')) by lia. apply J2. lia.
Qed.

Lemma power_settles : forall t neg i, (i < how_many t)%nat ->
  exists j, (j <= i)%nat /\ (j <= settled t)%nat /\ forall fb errno n, good_fallback t fb -> passes t fb (j + n) (power_at t neg i) errno = Ok (power_at t neg (i - j)).
Proof.
  intros t neg i H. set (l := map (power_class t) (powers t)).
  assert (LL : List.length l = how_many t) by (unfold l; rewrite map_length; apply powers_length).
  destruct (runs_end (longest_run t) l (longest_run t) i (powers_classes t) ltac:(lia)) as [(j & q & J1 & J2 & J3 & J4 & J5)|[J _]]; [|lia].
  exists j. split; [exact J1|]. split; [exact J2|].
  assert (K : becomes t (power_at t neg (i - j)) (power_at t neg (i - j))).
  { pose proof (power_step t neg (i - j) q ltac:(lia) J3) as Q. rewrite J4 in Q. exact Q. }
  clear J2 J3 J4. assert (M : forall d, (d <= j)%nat -> forall fb errno n, good_fallback t fb -> passes t fb (d + n) (power_at t neg (i - j + d)) errno = Ok (power_at t neg (i - j))).
  { induction d as [|d IH]; intros Hd fb errno n G; [rewrite Nat.add_0_r; now apply passes_kept|].
    destruct (J5 (j - S d)%nat ltac:(lia)) as (q' & Q1 & Q2). replace (i - (j - S d))%nat with (i - j + S d)%nat in Q1 by lia.
    pose proof (power_step t neg (i - j + S d) q' ltac:(lia) Q1) as Q. rewrite Q2 in Q. specialize (Q (i - j + d)%nat ltac:(lia)).
    destruct (passes_step t _ _ fb (d + n) errno Q G) as (errno' & E). rewrite Nat.add_succ_l. rewrite E. apply IH; [lia|exact G]. }
  intros fb errno n G. pose proof (M j (le_n j) fb errno n G) as R. replace (i - j + j)%nat with i in R by lia. exact R.
Qed.

(** ** special values *)
Lemma special_becomes : forall t v s w st k, pattern t v -> shown_text t v = s -> read_text t s = Returns w st k -> becomes t v w.
Proof.
  intros t v s w st k P S R fb errno _. pose proof (C97_and_back t v fb errno P) as H. cbv zeta in H. rewrite S, R in H. unfold reload. rewrite H. eexists. split; reflexivity.
Qed.
Definition quiet_nan (t : ftype) : Z := match t with Float => 2143289344 | Double => 9221120237041090560 end.
Lemma nan_read : forall t, read_text t (text "nan") = Returns (quiet_nan t) success 3.
Proof. intros []; vm_compute; reflexivity. Qed.
Lemma inf_read : forall t (neg : bool), read_text t (if neg then text "-inf" else text "inf") = Returns (infinity_of t neg) success (if neg then 4 else 3).
Proof. intros [] []; vm_compute; reflexivity. Qed.
Lemma zero_read : forall t, read_text t (text "0") = Returns 0 success 1.
Proof. intros []; vm_compute; reflexivity. Qed.
Lemma shown_nan : forall t v, nan t v -> shown_text t v = text "nan".
Proof. intros t v (_ & E & F). unfold shown_text. apply Z.eqb_eq in E. apply Z.eqb_neq in F. now rewrite E, F. Qed.
Lemma shown_inf : forall t v, infinite t v -> shown_text t v = if sign_field t v =? 1 then text "-inf" else text "inf".
Proof. intros t v (_ & E & F). unfold shown_text. apply Z.eqb_eq in E, F. now rewrite E, F. Qed.
Lemma shown_zero : forall t v, zero t v -> shown_text t v = text "0".
Proof.
  intros t v (_ & E & F). unfold shown_text. assert (E' : exp_field t v <> all_ones t) by (rewrite E; destruct t; discriminate).
  apply Z.eqb_neq in E'. rewrite E'. unfold significand. rewrite E, F. reflexivity.
Qed.
Lemma inf_bits : forall t v, infinite t v -> v = infinity_of t (sign_field t v =? 1).
Proof.
  intros t v ([P0 P1] & E & F). unfold infinity_of. rewrite <- E. unfold exp_field, frac_field, sign_field in *.
  pose proof (width_facts t) as W. set (p := 2 ^ (precision t - 1)) in *. pose proof (pow2_pos (precision t - 1) ltac:(lia)) as Pp. fold p in Pp.
  pose proof (Z.div_mod v p ltac:(lia)) as D. rewrite F in D.
  assert (EW : 2 ^ (width t - 1) = p * 2 ^ (width t - precision t)) by (unfold p; rewrite <- Z.pow_add_r by lia; f_equal; lia).
  pose proof (pow2_pos (width t - precision t) ltac:(lia)) as PQ. pose proof (Z.div_mod (v / p) (2 ^ (width t - precision t)) ltac:(lia)) as D2.
  rewrite Z.div_div in D2 by lia. rewrite <- EW in D2. pose proof (pow2_half (width t) ltac:(lia)) as E2. pose proof (pow2_pos (width t - 1) ltac:(lia)) as PW.
  assert (S : 0 <= v / 2 ^ (width t - 1) < 2) by (split; [apply Z.div_pos; lia|apply Z.div_lt_upper_bound; lia]). unfold zero_of.
  destruct (Z.eqb_spec (v / 2 ^ (width t - 1)) 1) as [S1|S1]; [rewrite S1 in D2; nia|]. replace (v / 2 ^ (width t - 1)) with 0 in D2 by lia. lia.
Qed.

(** ** the theorems *)
(** what has become of [v] *)
Definition left_over (t : ftype) (v w : Z) : Prop :=
  (nan t v -> nan t w) /\ (infinite t v -> w = v) /\ (zero t v -> w = 0) /\
  (nonzero t v -> nonzero t w /\ sign_field t w = sign_field t v /\
     (w = v \/ exists k j, Rabs (real_of t v) = bpow radix2 k /\ Rabs (real_of t w) = bpow radix2 (k - j) /\ 0 < j <= Z.of_nat (settled t) /\ normal t w)).

(** C100: after 9 passes (float: 5) a value does not change any more. It is the value one started with,
    unless that is a power of two, which may have been halved up to so many times. *)
Theorem C100_settles : forall t v, pattern t v -> exists w, left_over t v w /\
  forall fb errno n, good_fallback t fb -> (settled t <= n)%nat -> passes t fb n v errno = Ok w.
Proof.
  intros t v P. pose proof (classify t v P) as C.
  assert (X : forall w, becomes t v w -> becomes t w w -> forall fb errno n, good_fallback t fb -> (settled t <= n)%nat -> passes t fb n v errno = Ok w).
  { intros w B1 B2 fb errno n G L. destruct n as [|n]; [destruct t; cbn in L; lia|]. destruct (passes_step t v w fb n errno B1 G) as (e' & ->). now apply passes_kept. }
  destruct C as [C|[C|[C|C]]].
  - assert (N : nan t (quiet_nan t)) by (destruct t; repeat split; vm_compute; congruence). exists (quiet_nan t). split.
    + split; [auto|]. split; [intros (_ & _ & Q); destruct C as (_ & _ & C); contradiction|]. split; [intros (_ & Q & _); destruct C as (_ & C & _); rewrite Q in C; destruct t; discriminate|].
      intros [[_ Q] _]. destruct C as (_ & C & _). contradiction.
    + apply X; [exact (special_becomes t v _ _ _ _ P (shown_nan t v C) (nan_read t))|exact (special_becomes t _ _ _ _ _ (proj1 N) (shown_nan t _ N) (nan_read t))].
  - exists v. split.
    + split; [intros (_ & _ & Q); destruct C as (_ & _ & C); contradiction|]. split; [auto|]. split; [intros (_ & Q & _); destruct C as (_ & C & _); rewrite Q in C; destruct t; discriminate|].
      intros [[_ Q] _]. destruct C as (_ & C & _). contradiction.
    + assert (B : becomes t v v) by (rewrite (inf_bits t v C) at 2; exact (special_becomes t v _ _ _ _ P (shown_inf t v C) (inf_read t _))). now apply X.
  - assert (N : zero t 0) by (destruct t; repeat split; vm_compute; congruence). exists 0. split.
    + split; [intros (_ & Q & _); destruct C as (_ & C & _); rewrite Q in C; destruct t; discriminate|]. split; [intros (_ & Q & _); destruct C as (_ & C & _); rewrite Q in C; destruct t; discriminate|].
      split; [auto|]. intros [_ Q]. contradiction.
    + apply X; [exact (special_becomes t v _ _ _ _ P (shown_zero t v C) (zero_read t))|exact (special_becomes t 0 _ _ _ _ (proj1 N) (shown_zero t 0 N) (zero_read t))].
  - assert (NL : forall w, (nonzero t v -> nonzero t w /\ sign_field t w = sign_field t v /\
      (w = v \/ exists k j, Rabs (real_of t v) = bpow radix2 k /\ Rabs (real_of t w) = bpow radix2 (k - j) /\ 0 < j <= Z.of_nat (settled t) /\ normal t w)) -> left_over t v w).
    { intros w Q. split; [intros (_ & E & _); destruct C as [[_ C] _]; contradiction|]. split; [intros (_ & E & _); destruct C as [[_ C] _]; contradiction|].
      split; [intros E; destruct C as [_ C]; contradiction|exact Q]. }
    destruct (Classical_Prop.classic (normal_power t v)) as [Np|Np].
    + destruct (powers_complete t v (proj1 C) Np) as (u & neg & U1 & U2 & U3 & U4).
      assert (exists i, (i < how_many t)%nat /\ v = power_at t neg i) as (i & Hi & Ei).
      { apply In_nth_error in U1 as (i & N). exists i. assert (Hi : (i < how_many t)%nat) by (rewrite <- powers_length; apply nth_error_Some; congruence). split; [exact Hi|].
        rewrite powers_nth in N by exact Hi. injection N as <-. exact U2. }
      destruct (power_settles t neg i Hi) as (j & J1 & J2 & J3). exists (power_at t neg (i - j)). split.
      * apply NL. intros _. destruct (power_facts t neg i Hi) as (_ & _ & F3 & _ & F5 & F6). destruct (power_facts t neg (i - j) ltac:(lia)) as (_ & G2 & G3 & G4 & G5 & G6).
        rewrite <- Ei in *. split; [exact G5|]. split.
        { assert (B : forall x, pattern t x -> sign_field t x = 0 \/ sign_field t x = 1).
          { intros x [X0 X1]. unfold sign_field. pose proof (width_facts t) as W. pose proof (pow2_half (width t) ltac:(lia)) as E2. pose proof (pow2_pos (width t - 1) ltac:(lia)) as PW.
            assert (0 <= x / 2 ^ (width t - 1) < 2) by (split; [apply Z.div_pos; lia|apply Z.div_lt_upper_bound; lia]). lia. }
          destruct (B v P) as [B1|B1]; destruct (B _ (proj1 (proj1 G5))) as [B2|B2]; rewrite B1, B2 in *; try reflexivity; rewrite <- G3 in F3; discriminate F3. }
        destruct j as [|j]; [left; rewrite Nat.sub_0_r; symmetry; exact Ei|right]. exists (min_exp t + Z.of_nat i + precision t - 1), (Z.of_nat (S j)). split; [exact F6|].
        split; [rewrite G6; f_equal; lia|]. split; [lia|]. split; [exact (proj1 G5)|].
        pose proof (width_facts t) as W. destruct (bits_fields t ((Z.of_nat (i - S j) + 1) * 2 ^ (precision t - 1)) neg ltac:(lia)) as (_ & X1 & _). rewrite <- G2 in X1. rewrite X1, Z.div_mul; [lia|].
        pose proof (pow2_pos (precision t - 1) ltac:(lia)). lia.
      * intros fb errno n G L. rewrite Ei. replace n with (j + (n - j))%nat by lia. now apply J3.
    + exists v. split; [apply NL; auto|]. intros fb errno n G _. apply passes_kept; [now apply plain_kept|exact G].
Qed.

(** C100: and so many passes can be needed, whatever the fallback *)
Lemma power_halves : forall t i, (S i < how_many t)%nat -> power_class t ((Z.of_nat (S i) + 1) * 2 ^ (precision t - 1)) = Some WellBelow ->
  forall fb n errno, exists errno', passes t fb (S n) (power_at t false (S i)) errno = passes t fb n (power_at t false i) errno'.
Proof.
  intros t i H N fb n errno. destruct (power_facts t false (S i) H) as (U1 & U2 & U3 & U4 & U5 & U6). set (v := power_at t false (S i)) in *.
  destruct (text_of t v U5) as (m & W & P & S). destruct (power_place t v _ false m U5 U1 U2 U3 U4 W P) as (pl & C & L). rewrite C in N. injection N as ->. cbn [in_place] in L.
  assert (Np : normal_power t v) by (exists (min_exp t + Z.of_nat (Datatypes.S i) + precision t - 1); split; [lia|exact U6]).
  assert (PV : (0 < Rabs (real_of t v))%R) by (rewrite U6; apply bpow_gt_0). pose proof (bpow_gt_0 radix2 (2 - width t)) as Pw.
  assert (B : exists r, reload t fb v errno = Ok r /\ at_value r = power_at t false i).
  { apply (reload_atof t v m fb errno _ S). destruct (power_outcome t v m 0 [] true fb errno (proj1 U5) Np W P end_zero) as (w & E & A & _); [nra|].
    eexists. split; [exact E|]. cbn. rewrite (A L). unfold v, power_at. lia. }
  cbn [passes]. destruct B as (r & -> & <-). cbn [bind]. eauto.
Qed.
Definition slowest (t : ftype) : nat := match t with Float => 76 | Double => 1878 end.
Lemma slowest_below : forall t j, (j < settled t)%nat -> power_class t ((Z.of_nat (slowest t - j) + 1) * 2 ^ (precision t - 1)) = Some WellBelow.
Proof.
  intros t j H.
  assert (A : forallb (fun j => is_below (power_class t ((Z.of_nat (slowest t - j) + 1) * 2 ^ (precision t - 1)))) (seq 0 (settled t)) = true) by (destruct t; vm_compute; reflexivity).
  rewrite forallb_forall in A. specialize (A j ltac:(apply in_seq; lia)). destruct (power_class t _) as [[| |]|]; try discriminate A. reflexivity.
Qed.
Lemma slowest_enough : forall t, (settled t < slowest t < how_many t)%nat.
Proof. intros t. split; apply Nat.ltb_lt; destruct t; vm_compute; reflexivity. Qed.
Theorem C100_needed : forall t, exists v, nonzero t v /\ forall j, (j <= settled t)%nat -> exists w, real_of t w = (real_of t v * bpow radix2 (- Z.of_nat j))%R /\
  forall fb errno, passes t fb j v errno = Ok w.
Proof.
  intros t. pose proof (slowest_enough t) as [S1 S2].
  assert (D : forall n i j fb errno, slowest t = (j + i)%nat -> (j + n <= settled t)%nat -> passes t fb n (power_at t false i) errno = Ok (power_at t false (i - n))).
  { induction n as [|n IH]; intros i j fb errno E L; [now rewrite Nat.sub_0_r|]. destruct i as [|i]; [lia|].
    destruct (power_halves t i ltac:(lia)) with (fb := fb) (n := n) (errno := errno) as (errno' & ->).
    - replace (S i) with (slowest t - j)%nat by lia. apply slowest_below. lia.
    - rewrite (IH i (S j) fb errno' ltac:(lia) ltac:(lia)). reflexivity. }
  assert (RE : forall i, (i < how_many t)%nat -> real_of t (power_at t false i) = bpow radix2 (min_exp t + Z.of_nat i + precision t - 1)).
  { intros i H. destruct (power_facts t false i H) as (_ & _ & F3 & _ & _ & F6). rewrite <- F6, abs_real. unfold real_of. now rewrite F3. }
  exists (power_at t false (slowest t)). split; [exact (proj1 (proj2 (proj2 (proj2 (proj2 (power_facts t false _ S2))))))|].
  intros j L. exists (power_at t false (slowest t - j)). split.
  - rewrite !RE by lia. rewrite <- bpow_plus. f_equal. lia.
  - intros fb errno. now apply (D j (slowest t) 0%nat).
Qed.
