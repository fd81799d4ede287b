(** Numbers written by other programs (C114). *)
From Coq Require Import Reals Lra Lia ZArith List String Ascii.
From Flocq Require Import Core.
From Verif Require Import Machine MachineFacts BitOps StaticPow Fraction Format DiyFp KComp Chars Grisu Ftoa Krosh Atof Spec ParseSpec Api ParseApi Instances
  DiyFacts BoundFacts TableFacts GrisuFacts DvalFacts RoundFacts ArithProps PrintProps PrintExamples CmpFacts ParseProps Refuted ParseExamples RoundTrip ShortFacts RangeProps DownFacts GoodFallback Writers.
Import ListNotations.
Open Scope Z_scope.

Lemma rounded_dec : forall p t v n i, sign_field t v = 0 -> is_minus (n_sign n) = false ->
  let d := coefficient n * 10 ^ i in let k := scale n - i in let e := exponent t v + 1 in
  (0 <=? i) && (10 ^ (p - 1) <=? d) && (d <? 10 ^ p) && (dec_part (2 * d - 1) k e <? bin_part (significand t v) e k) &&
    (bin_part (significand t v) e k <? dec_part (2 * d + 1) k e) = true -> rounded_to p t v n.
Proof.
  intros p t v n i S M d k e H. apply andb_prop in H as [H H5]. apply andb_prop in H as [H H4]. apply andb_prop in H as [H H3]. apply andb_prop in H as [H1 H2].
  apply Z.leb_le in H1, H2. apply Z.ltb_lt in H3. apply dec_lt_bin in H4. apply bin_lt_dec in H5.
  unfold rounded_to, negative. rewrite S, M. split; [split; intros C; discriminate|].
  exists d, k. split; [lia|].
  assert (A : abs_value n = (IZR d * pow10 k)%R).
  { unfold abs_value, d, k. rewrite mult_IZR, Rmult_assoc, pow10_steps by exact H1. do 2 f_equal. lia. }
  split; [exact A|]. rewrite A, abs_real. unfold e in *. rewrite bpow_plus in H4, H5. change (bpow radix2 1) with 2%R in *. rewrite minus_IZR, mult_IZR in H4. rewrite plus_IZR, mult_IZR in H5.
  unfold magnitude. apply Rabs_le. split; lra.
Qed.
Ltac rto i := apply rounded_dec with i; vm_compute; reflexivity.

(** 0.1, printed with %.17g; 0.1f, printed with %.9g *)
Definition tenth17 : numeral := num NoSign [0] (Some [1;0;0;0;0;0;0;0;0;0;0;0;0;0;0;0;1]).
Definition tenth9 : numeral := num NoSign [0] (Some [1;0;0;0;0;0;0;0;1]).
Definition tenth_text (t : ftype) : numeral := match t with Float => tenth9 | Double => tenth17 end.
Definition tenth_of (t : ftype) : Z := match t with Float => 1036831949 | Double => 4591870180066957722 end.
Example C114_meets : forall t, nonzero t (tenth_of t) /\ well_formed (tenth_text t) /\ ends_number 0 /\ within_limits (tenth_text t) /\
  rounded_to (enough_digits t) t (tenth_of t) (tenth_text t) /\ (t = Float -> (pow10 (-42) <= Rabs (real_of t (tenth_of t)))%R) /\
  good_fallback t (reference_fallback t) /\ (~ normal_power t (tenth_of t) /\ significand t (tenth_of t) <> 1).
Proof.
  intros t. split; [destruct t; nz|]. split; [destruct t; wfn|]. split; [exact nul_ends|]. split; [destruct t; lim|].
  split; [destruct t; [rto 0|rto 0]|]. split; [|split; [apply good_fallback_exists|]].
  - intros ->. rewrite abs_real. unfold magnitude. replace (significand Float (tenth_of Float)) with 13421773 by (vm_compute; reflexivity).
    replace (exponent Float (tenth_of Float)) with (-27) by (vm_compute; reflexivity). left. rewrite <- (Rmult_1_l (pow10 (-42))). apply dec_lt_bin. vm_compute. reflexivity.
  - split; [|destruct t; vm_compute; discriminate]. intros (k & K1 & K2). rewrite abs_real in K2. apply power_significand in K2; [|exact K1].
    destruct t; vm_compute in K2; discriminate.
Qed.
Example C114_at_work : forall t, exists r, atof (fmt_of t) (written (tenth_text t) ++ [0]) true (reference_fallback t) 0 = Ok r /\ at_value r = tenth_of t.
Proof.
  intros t. destruct (C114_meets t) as (A & B & C & D & E & F & G & I).
  destruct (C114_printf t (tenth_of t) (tenth_text t) 0 [] (reference_fallback t) 0 A B C D E F G (or_introl I)) as (r & R1 & R2 & _). eauto.
Qed.

(** 2^57 printed with 17 digits is read as 2^56, without asking the fallback *)
Definition p57_text : numeral := nume NoSign [1] (Some [4;4;1;1;5;1;8;8;0;7;5;8;5;5;8;7]) Plus [1;7].
Definition p57 : Z := 4863887597560135680.
Lemma p57_is : Rabs (real_of Double p57) = bpow radix2 57.
Proof.
  rewrite abs_real. unfold magnitude. replace (significand Double p57) with (2 ^ 52) by (vm_compute; reflexivity). replace (exponent Double p57) with 5 by (vm_compute; reflexivity).
  change (2 ^ 52) with (radix2 ^ 52). rewrite <- (bpow_IZR radix2 52) by lia. rewrite <- bpow_plus. reflexivity.
Qed.
Theorem C114_refuted_power : nonzero Double p57 /\ well_formed p57_text /\ rounded_to 17 Double p57 p57_text /\ Rabs (real_of Double p57) = bpow radix2 57 /\
  written p57_text = text "1.4411518807585587e+17" /\
  forall want fb errno, atof (fmt_of Double) (written p57_text ++ [0]) want fb errno = Ok (answer want errno (p57 - 2 ^ 52) success 22).
Proof.
  split; [nz|]. split; [wfn|]. split; [rto 0|]. split; [exact p57_is|]. split; [reflexivity|run].
Qed.
(** it meets what C114_power_lost asks for *)
Example C114_power_meets : nonzero Double p57 /\ well_formed p57_text /\ ends_number 0 /\ within_limits p57_text /\ short_decimal Double p57_text /\
  names Double p57 p57_text /\ min_exp Double + precision Double - 1 <= 57 /\ Rabs (real_of Double p57) = bpow radix2 57 /\
  (Rabs (value p57_text) <= bpow radix2 57 * (1 - bpow radix2 (2 - width Double)))%R.
Proof.
  assert (Nz : nonzero Double p57) by nz.
  assert (W : well_formed p57_text) by wfn.
  split; [exact Nz|]. split; [exact W|]. split; [exact nul_ends|]. split; [lim|].
  assert (RT : rounded_to (enough_digits Double) Double p57 p57_text) by (rto 0).
  destruct (C114_digits_enough Double p57 p57_text Nz W RT) as [A B]; [discriminate|].
  split; [exact B|]. split; [exact A|]. split; [vm_compute; discriminate|]. split; [exact p57_is|].
  rewrite value_abs by exact W. replace (bpow radix2 57 * (1 - bpow radix2 (2 - width Double)))%R with (IZR (2 ^ 62 - 1) * bpow radix2 (-5))%R.
  - left. unfold abs_value. apply dec_lt_bin. vm_compute. reflexivity.
  - rewrite minus_IZR. change (2 ^ 62) with (radix2 ^ 62). rewrite <- (bpow_IZR radix2 62) by lia. change (2 - width Double) with (-62).
    replace (bpow radix2 57) with (bpow radix2 62 * bpow radix2 (-5))%R by (rewrite <- bpow_plus; reflexivity).
    assert (I : (bpow radix2 62 * bpow radix2 (-62) = 1)%R) by (rewrite <- bpow_plus; reflexivity).
    transitivity ((bpow radix2 62 - bpow radix2 62 * bpow radix2 (-62)) * bpow radix2 (-5))%R; [|ring]. rewrite I. reflexivity.
Qed.

(** the smallest normal float as <float.h> usually writes it, FLT_MIN: read as zero, with status success *)
Definition flt_min_text : numeral := nume NoSign [1] (Some [1;7;5;4;9;4;3;5]) Minus [3;8].
Theorem C114_refuted_flt_min : nonzero Float (2 ^ 23) /\ well_formed flt_min_text /\ rounded_to 9 Float (2 ^ 23) flt_min_text /\
  written flt_min_text = text "1.17549435e-38" /\
  forall want fb errno, atof (fmt_of Float) (written flt_min_text ++ [0]) want fb errno = Ok (answer want errno 0 success 14).
Proof.
  split; [nz|]. split; [wfn|]. split; [rto 0|]. split; [reflexivity|run].
Qed.

(** the smallest double, rounded down: read as zero *)
Definition smallest17 : numeral := nume NoSign [4] (Some [9;4;0;6;5;6;4;5;8;4;1;2;4;6;5;4]) Minus [3;2;4].
Theorem C114_refuted_smallest : nonzero Double 1 /\ well_formed smallest17 /\ rounded_to 17 Double 1 smallest17 /\ written smallest17 = text "4.9406564584124654e-324" /\
  forall want fb errno, atof (fmt_of Double) (written smallest17 ++ [0]) want fb errno = Ok (answer want errno 0 underflow 23).
Proof.
  split; [nz|]. split; [wfn|]. split; [rto 0|]. split; [reflexivity|run].
Qed.

(** a float below 10^-42 with nine digits -- twice the smallest: read as zero *)
Definition tiny9 : numeral := nume NoSign [2] (Some [8;0;2;5;9;6;9;3]) Minus [4;5].
Theorem C114_refuted_tiny : nonzero Float 2 /\ significand Float 2 <> 1 /\ well_formed tiny9 /\ rounded_to 9 Float 2 tiny9 /\ written tiny9 = text "2.80259693e-45" /\
  forall want fb errno, atof (fmt_of Float) (written tiny9 ++ [0]) want fb errno = Ok (answer want errno 0 underflow 14).
Proof.
  split; [nz|]. split; [vm_compute; discriminate|]. split; [wfn|]. split; [rto 0|]. split; [reflexivity|run].
Qed.
