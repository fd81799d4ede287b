(** Concrete cases for C101. *)
From Coq Require Import Reals Lra ZArith List String Ascii Lia.
From Flocq Require Import Core.
From Verif Require Import Machine Format DiyFp Ftoa Krosh Atof Spec ParseSpec ParseApi Instances GoodFallback CycleSpec ListSpec Lists.
Import ListNotations.
Open Scope Z_scope.

(** 1.5, -0.1 and infinity, separated by commas *)
Definition three : list Z := [4609434218613702656; 13815242216921733530; 9218868437227405312].
Example C101_text : save_all Double (code ",") three (repeat 7 20) 0 = Ok (text "1.5,-0.1,inf," ++ 0 :: repeat 7 6, 13).
Proof. vm_compute. reflexivity. Qed.
Example C101_back : exists b n, save_all Double (code ",") three (repeat 7 200) 0 = Ok (b, n) /\
  forall errno, load_all 4 Double (reference_fallback Double) (code ",") b errno = Ok (Some three).
Proof.
  destruct (C101_same Double (reference_fallback Double) (code ",") three (repeat 7 200) (good_fallback_exists Double)) as (b & n & S & L).
  - repeat split; vm_compute; intuition congruence.
  - assert (NP : forall v, sign_field Double v = 0 \/ sign_field Double v = 1 -> exp_field Double v = 1023 \/ exp_field Double v = 1019 -> frac_field Double v <> 0 -> forall k, Rabs (real_of Double v) <> bpow radix2 k).
    { intros v HS HE HF k Q.
      assert (A : Rabs (real_of Double v) = magnitude Double v).
      { unfold real_of, magnitude. assert (0 <= IZR (significand Double v) * bpow radix2 (exponent Double v))%R.
        { apply Rmult_le_pos; [|apply bpow_ge_0]. apply IZR_le. unfold significand, frac_field. pose proof (Z.mod_pos_bound v (2 ^ (precision Double - 1)) eq_refl). destruct (_ =? 0); [lia|]. change (2 ^ (precision Double - 1)) with 4503599627370496 in *. lia. }
        destruct (_ =? 1); [rewrite Rabs_Ropp|]; now apply Rabs_pos_eq. }
      rewrite A in Q. unfold magnitude, significand in Q. destruct (Z.eqb_spec (exp_field Double v) 0) as [|_]; [lia|].
      pose proof (Z.mod_pos_bound v (2 ^ (precision Double - 1)) eq_refl) as B. fold (frac_field Double v) in B. change (2 ^ (precision Double - 1)) with 4503599627370496 in *.
      assert (E : bpow radix2 (k - exponent Double v) = IZR (4503599627370496 + frac_field Double v)).
      { unfold Z.sub. rewrite bpow_plus, <- Q, Rmult_assoc, <- bpow_plus. replace (exponent Double v + - exponent Double v) with 0 by lia. cbn [bpow]. rewrite Z.add_comm. ring. }
      assert (L : 52 < k - exponent Double v).
      { apply (lt_bpow radix2). rewrite E. change (bpow radix2 52) with 4503599627370496%R. apply IZR_lt. lia. }
      assert (U : k - exponent Double v < 53).
      { apply (lt_bpow radix2). rewrite E. change (bpow radix2 53) with 9007199254740992%R. apply IZR_lt. lia. }
      lia. }
    constructor; [|constructor; [|constructor; [|constructor]]].
    + right. split; [split; [split; [split; vm_compute; congruence|vm_compute; congruence]|intros (_ & Q & _); vm_compute in Q; discriminate]|]. apply NP; vm_compute; auto; discriminate.
    + right. split; [split; [split; [split; vm_compute; congruence|vm_compute; congruence]|intros (_ & Q & _); vm_compute in Q; discriminate]|]. apply NP; vm_compute; auto; discriminate.
    + left. split; [split; vm_compute; congruence|]. split; vm_compute; reflexivity.
  - apply Nat.ltb_lt. vm_compute. reflexivity.
  - exists b, n. split; [exact S|]. intros errno. apply L. cbn. lia.
Qed.
