(** The repository's own test programs, evaluated in the model.

    These are tests, not theorems, and no claim rests on them: every assertion below is an
    assertion of a program in /repo/test that states a definite outcome, with the inputs and the
    expected results copied from there.  They show that the model behaves as the authors of the
    code say the code behaves.  Not covered: test/default_fallback.cpp (the C library), and the
    programs that run over test/short_numbers.h, which is not in the repository (ftoa_len,
    fullcircle, fullcirclew, roundtrip). *)
From Coq Require Import Reals ZArith Lia List String Ascii.
From Flocq Require Import Core.
From Verif Require Import Machine BitOps Format DiyFp Chars Ftoa Krosh Atof Spec ParseSpec Api ParseApi Instances
  CmpFacts Refuted PrintExamples ParseProps.
Import ListNotations.
Open Scope Z_scope.

(** a literal, as the C string it is *)
Definition c_str (s : string) : list Z := text s ++ [0].
(** the number of characters of a literal *)
Definition size (s : string) : Z := Z.of_nat (String.length s).

(** * test/parse_digits.cpp *)
(** parse_digits<double>(s): all of [s] is consumed, and it has this value, sign and K *)
Definition digits_are (s : string) (v : Z) (sg : bool) (K : Z) : bool :=
  match parse_digits double (c_str s) with
  | Ok r => (dp_value r =? v) && Bool.eqb (dp_sign r) sg && (dp_K r =? K) && (dp_str_end r =? size s)
  | Fault _ => false
  end.
Example parse_digits_1 : digits_are "12345" 12345 true (0) = true.
Proof. vm_compute. reflexivity. Qed.
Example parse_digits_2 : digits_are "-12345" 12345 false (0) = true.
Proof. vm_compute. reflexivity. Qed.
Example parse_digits_3 : digits_are "0000123400.0000000000" 1234 true (2) = true.
Proof. vm_compute. reflexivity. Qed.
Example parse_digits_4 : digits_are "0000123400.05678900000" 123400056789 true (-6) = true.
Proof. vm_compute. reflexivity. Qed.
Example parse_digits_5 : digits_are "-0.000123400000" 1234 false (-7) = true.
Proof. vm_compute. reflexivity. Qed.
Example parse_digits_6 : digits_are "123.00000" 123 true (0) = true.
Proof. vm_compute. reflexivity. Qed.
(** parse_mantissa<double>(s), then parse_exponent on what is left: [s] is consumed, the mantissa
    is the normalised [m], the exponent is [x], and K together with it is [k] *)
Definition whole_is (s : string) (m x : Z) (sg : bool) (k : Z) : bool :=
  match parse_mantissa double (c_str s), normalize double (mk_diy m 0) with
  | Ok mp, Ok d =>
    match parse_exponent (skipn (Z.to_nat (mp_str_end mp)) (c_str s)) with
    | Ok (e, used) => diy_eqb (mp_value mp) d && (e =? x) && Bool.eqb (mp_sign mp) sg && (mp_K mp + e =? k) && (mp_str_end mp + used =? size s)
    | Fault _ => false
    end
  | _, _ => false
  end.
Example whole_1 : whole_is "00001234.000567e000012" 1234000567 12 true 6 = true.
Proof. vm_compute. reflexivity. Qed.
Example whole_2 : whole_is "-1234.000567e-000012" 1234000567 (-12) false (-18) = true.
Proof. vm_compute. reflexivity. Qed.

(** * test/round_up.cpp: eight bits, rounding to the third *)
Definition rounded (tail : Z) (up accurate : bool) : Prop := round_up 8 tail 3 = Ok {| rr_value := up; rr_is_accurate := accurate |}.
Example round_down : rounded 11 false true /\ rounded 0 false true /\ rounded 4 false false /\ rounded 16 false true /\ rounded 20 false false.
Proof. repeat split. Qed.
Example round_up_by_fraction_bits : rounded 5 true true /\ rounded 6 true true /\ rounded 7 true true.
Proof. repeat split. Qed.
Example round_by_least_significant_bit : rounded 12 true false.
Proof. reflexivity. Qed.

(** * test/diy_fp_conversion.cpp: pi, there and back *)
Definition pi_bits : Z := 4614256656552045848.
Example double_conversion : exists d, normalize double (diy_of_bits double pi_bits) = Ok d /\
  match downsample double d with Ok r => ds_value r = pi_bits | Fault _ => False end.
Proof. eexists. split; [vm_compute; reflexivity|]. vm_compute. reflexivity. Qed.

(** * test/diy_fp_inc_dec.cpp, for diy_fp<float> *)
Example inc_dec : diy_inc single (mk_diy 1 0) = Ok (mk_diy 2 0) /\ diy_dec single (mk_diy 2 0) = Ok (mk_diy 1 0) /\
  diy_inc single (mk_diy (2 ^ 32 - 1) 2) = Ok (mk_diy (2 ^ 31 - 1 + 1) 3) /\ diy_dec single (mk_diy 1 2) = Ok (mk_diy 1 1).
Proof. repeat split. Qed.

(** * test/diy_fp_uoflow.cpp *)
Example uoflow_1 : match downsample single (mk_diy (2 ^ 32 - 1) (128 + 1)) with Ok r => ds_status r = overflow | Fault _ => False end.
Proof. reflexivity. Qed.
Example uoflow_2 : match downsample single (mk_diy (2 ^ 32 - 1) (- 125 - 256)) with Ok r => ds_status r = underflow /\ is_zero single (ds_value r) = true | Fault _ => False end.
Proof. split; reflexivity. Qed.

(** * test/ftoa_zero.cpp, test/string_wrappers.cpp *)
Example ftoa_zero : prints Double 0 (text "0") /\ size "0" = 1.
Proof. split; [pr|reflexivity]. Qed.
Example to_string_half : prints Float 1056964608 (text "0.5").
Proof. pr. Qed.
Example from_string_quarter : forall fb errno, exists r, from_string double (text "0.25") fb errno = Ok r /\ at_value r = 4598175219545276416 /\ at_used_fallback r = false.
Proof. intros fb errno. eexists. split; [unfold from_string; run|]. split; reflexivity. Qed.

(** * What atof is tested for: whatever the fallback and errno are, [s] is read without the
    fallback as a value with the property [c], with status [st], [n] characters being consumed *)
Definition reads (t : ftype) (s : string) (c : Z -> bool) (st : conversion_status) (n : Z) : Prop :=
  forall fb errno, exists v, atof (fmt_of t) (c_str s) true fb errno = Ok (answer true errno v st n) /\ c v = true.
Ltac rd := intros fb errno; eexists; split; [run|vm_compute; reflexivity].
Definition nan_ (v : Z) : bool := is_nan double v.
Definition inf_ (v : Z) : bool := is_inf double v.
Definition not_nan (v : Z) : bool := negb (is_nan double v).
Definition not_inf (v : Z) : bool := negb (is_inf double v).
Definition pinf (v : Z) : bool := is_inf double v && negb (lt_zero double v).
Definition ninf (v : Z) : bool := is_inf double v && lt_zero double v.

(** test/nan.cpp *)
Example nan :
  reads Double "nan" nan_ success 3 /\
  reads Double "0nan" not_nan success 1 /\
  reads Double "+nan" nan_ success 4 /\
  reads Double "-nan" nan_ success 4 /\
  reads Double "NaN" nan_ success 3 /\
  reads Double "+Nan" nan_ success 4 /\
  reads Double "-naN" nan_ success 4 /\
  reads Double "naN(12356)" nan_ success 10 /\
  reads Double "naN(12356" nan_ success 3.
Proof. repeat match goal with |- _ /\ _ => split end; rd. Qed.
(** test/inf.cpp *)
Example inf :
  reads Double "inf" inf_ success 3 /\
  reads Double "0inf" not_inf success 1 /\
  reads Double "+inf" pinf success 4 /\
  reads Double "-inf" ninf success 4 /\
  reads Double "INf" inf_ success 3 /\
  reads Double "+InfINitY" pinf success 9 /\
  reads Double "-inFIniTy" ninf success 9 /\
  reads Double "infini" inf_ success 3.
Proof. repeat match goal with |- _ /\ _ => split end; rd. Qed.
(** test/overflow.cpp *)
Example overflow_1 :
  reads Double "5e577" pinf overflow 5.
Proof. repeat match goal with |- _ /\ _ => split end; rd. Qed.
(** test/underflow.cpp *)
Example underflow_123 :
  reads Float "5e-577" (is_zero single) underflow 6 /\
  reads Float "0.00000000000000000000000000000000000000000000000000001" (is_zero single) underflow 55 /\
  reads Float "0.0000000000000000000000000000000000000000000000001e49" (Z.eqb 1065353216) success 54.
Proof. repeat match goal with |- _ /\ _ => split end; rd. Qed.

(** * test/atof_test.cpp *)
(** The literals that atof decides itself. *)
Definition reads_exactly (p : string * Z) : Prop := reads Double (fst p) (Z.eqb (snd p)) success (size (fst p)).
Definition chain_decided : list (string * Z) := [
  ("0"%string, 0);
  ("0.0"%string, 0);
  ("0."%string, 0);
  ("18014398509481993"%string, 4850376798678024194);
  ("0.9199"%string, 4606460942139712655);
  ("1.89"%string, 4611190622468377149);
  ("3.50582559e-71"%string, 3553050549384115601);
  ("3.14159265358979323846264"%string, 4614256656552045848);
  ("1.2345689012e37"%string, 5161850176014077616);
  ("7.65801751e-323"%string, 15);
  ("675698e-312"%string, 26562073369184682);
  ("0.0000763761"%string, 4545263985869652160);
  ("7.41098468e-324"%string, 1)].
Example atof_decided : Forall reads_exactly chain_decided.
Proof. unfold chain_decided. repeat (apply Forall_cons; [unfold reads_exactly, reads, fst, snd, size; rd|]). apply Forall_nil. Qed.
(** The literals that atof hands to the fallback: for these the expected outcome of the test is the
    C library's; it is the correct rounding of the number. *)
(** [v] is the double nearest to the number, or the even one of the two nearest (compared as integers) *)
Definition nearest_even (n : numeral) (v : Z) : bool :=
  let f := significand Double v in let e := exponent Double v - 2 in
  let lower := if (f =? 2 ^ (precision Double - 1)) && (min_exp Double <? exponent Double v) then 4 * f - 1 else 4 * f - 2 in
  let x := dec_part (coefficient n) (scale n) e in
  let a := bin_part lower e (scale n) in let b := bin_part (4 * f + 2) e (scale n) in
  (0 <? f) && (a <=? x) && (x <=? b) && (Z.even f || negb ((x =? a) || (x =? b))).
Definition handed_over (n : numeral) (s : string) (v : Z) : Prop :=
  well_formed n /\ written n = text s /\
  (forall fb errno, atof double (c_str s) true fb errno = fallback_answer Double (c_str s) true fb errno) /\
  nearest_even n v = true.
Definition chain_handed_over : list (numeral * string * Z) := [
  ((num NoSign [0] (Some [5;0;0;0;0;0;0;0;0;0;0;0;0;0;0;1;6;6;5;3;3;4;5;3;6;9;3;7;7;3;4;8;1;0;6;3;5;4;4;7;5;0;2;1;3;6;2;3;0;4;6;8;7;5])), "0.500000000000000166533453693773481063544750213623046875"%string, 4602678819172646914);
  ((nume NoSign [7] (Some [8;4;5;9;7;3;5;7;9;1;2;7;1;9;2;1]) Plus [6;5]), "7.8459735791271921e+65"%string, 5592851714458857806);
  ((nume NoSign [3] (Some [5;7;1]) NoSign [2;6;6]), "3.571e266"%string, 8594599015706608042);
  ((nume NoSign [3] (Some [0;8;9;8;4;9;2;6;1;6;8;5;5;0;1;5;2;8;1;1]) Minus [3;2]), "3.08984926168550152811e-32"%string, 4135445632992568635);
  ((nume NoSign [3] (Some [5;1;8;4;3;7;2;0;8;8;8;3;2;0;1;1;7;1;8;7;5]) NoSign [1;3]), "3.518437208883201171875e13"%string, 4809844402031689730);
  ((num NoSign [6;2] (Some [5;3;6;4;9;3;9;7;6;8;2;7;1;8;4;5;8;2;8])), "62.5364939768271845828"%string, 4633998046402346148);
  ((nume NoSign [8] (Some [1;0;1;0;9;1;7;2;3;5;1]) Minus [1;0]), "8.10109172351e-10"%string, 4470902125885455628);
  ((num NoSign [1] (Some [5;0;0;0;0;0;0;0;0;0;0;0;0;0;0;1;1;1;0;2;2;3;0;2;4;6;2;5;1;5;6;5;4;0;4;2;3;6;3;1;6;6;8;0;9;0;8;2;0;3;1;2;5])), "1.50000000000000011102230246251565404236316680908203125"%string, 4609434218613702656);
  ((num NoSign [9;0;0;7;1;9;9;2;5;4;7;4;0;9;9;1] (Some [4;9;9;9;9;9;9;9;9;9;9;9;9;9;9;9;9;9;9;9;9;9;9;9;9;9;9;9;9;9;9;9;9;5])), "9007199254740991.4999999999999999999999999999999995"%string, 4845873199050653695);
  ((num NoSign [9;2;1;4;8;4;3;0;8;4;0;0;8;4;9;9] None), "9214843084008499"%string, 4845977020965287450);
  ((num NoSign [3;0;0;7;8;5;0;5;1;2;9;3;8;1;1;4;7;4;4;6;2;0;0] None), "30078505129381147446200"%string, 4943116466052509729);
  ((num NoSign [1;7;7;7;8;2;0;0;0;0;0;0;0;0;0;0;0;0;0;0;0;1] None), "1777820000000000000001"%string, 4924712638181355070);
  ((num NoSign [0] (Some [5;0;0;0;0;0;0;0;0;0;0;0;0;0;0;1;6;6;5;4;7;0;0;6;2;2;0;9;2;9;5;4;9;8;6;8;9;6;9;8;4;3;3;7;3;6;3;3;9;2;1;1;4;6;3;9;2;8;2;2;2;6;5;6;2;5])), "0.500000000000000166547006220929549868969843373633921146392822265625"%string, 4602678819172646914);
  ((num NoSign [0] (Some [5;0;0;0;0;0;0;0;0;0;0;0;0;0;0;1;6;6;5;6;0;5;5;8;7;4;8;0;8;5;6;1;8;6;7;4;3;9;4;9;3;6;5;3;3;6;4;4;7;9;5;4;1;7;7;8;5;6;4;4;5;3;1;2;5])), "0.50000000000000016656055874808561867439493653364479541778564453125"%string, 4602678819172646914);
  ((num NoSign [0] (Some [3;9;3;2;9;2;2;6;5;7;2;7;3])), "0.3932922657273"%string, 4600756543523414586);
  ((nume NoSign [6] (Some [9;5;2;5;5]) NoSign [1;1;8]), "6.95255e118"%string, 6384857499101993020);
  ((nume NoSign [3] (Some [6;8;7;1;5]) Minus [2;2;7]), "3.68715e-227"%string, 1219335809975845169);
  ((nume NoSign [4] (Some [3;0;5;8;3]) NoSign [9;2]), "4.30583e92"%string, 5992721079505305647);
  ((nume NoSign [3] (Some [0;1;4;4;2]) NoSign [4;9]), "3.01442e49"%string, 5347074719804368028);
  ((nume NoSign [1] (Some [6;5;6;4]) Minus [1;7;4]), "1.6564e-174"%string, 2006978338692177377)].
Example atof_handed_over : Forall (fun p => handed_over (fst (fst p)) (snd (fst p)) (snd p)) chain_handed_over.
Proof.
  unfold chain_handed_over.
  repeat (apply Forall_cons; [unfold handed_over, fst, snd; split; [wfn|split; [reflexivity|split; [run|vm_compute; reflexivity]]]|]).
  apply Forall_nil.
Qed.
(** "also check parsing of non-numeric string", "check conversion with no str_end specified" *)
Example non_numeric : reads Double "aazz" (Z.eqb 0) success 0.
Proof. rd. Qed.
Example no_str_end : forall fb errno, atof double (c_str "0.5") false fb errno = Ok (answer false errno 4602678819172646912 success 3).
Proof. run. Qed.
