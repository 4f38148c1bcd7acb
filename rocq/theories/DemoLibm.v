(** * A libm for the examples *)

From Coq Require Import ZArith Reals Lia Lra.
From Flocq Require Import Core IEEE754.BinarySingleNaN IEEE754.Binary.
From Verif Require Import Base FloatModel Rng SpecBits FloatFacts ArithFacts DemoFloats.

(** [powf] returns its base, [exp2] a power of two (correctly rounded). *)
Definition demo_libm : Libm f64 :=
  {| fsin := fun x => x; fcos := fun x => x; fpowf := fun x _ => x;
     fexp2 := fun x => Binary.Bldexp 53 1024 Hprec64 Hemax64 mode_NE one64 (Binary.Btrunc 53 1024 x) |}.

Lemma demo_trunc e : (Z.abs e <= 2 ^ 53)%Z -> Binary.Btrunc 53 1024 (b_of_Z e) = e.
Proof.
  intros H. destruct (of_Z_exact (prec := 53) (emax := 1024) e H) as [Fi E].
  apply eq_IZR. rewrite (Binary.Btrunc_correct 53 1024 Hemax64 (b_of_Z e)).
  rewrite E. unfold round, scaled_mantissa, F2R, cexp, FIX_exp. simpl.
  rewrite !Rmult_1_r. now rewrite Ztrunc_IZR.
Qed.

Lemma B2R_one64 : Binary.B2R 53 1024 one64 = 1%R.
Proof. unfold one64, Binary.B2R, F2R. simpl. lra. Qed.

Lemma demo_exp2_rounded e : (-1100 <= e < 1024)%Z ->
  is_finite (@fexp2 f64 demo_libm (b_of_Z e)) = true /\
  Binary.Bsign 53 1024 (@fexp2 f64 demo_libm (b_of_Z e)) = false /\
  Binary.B2R 53 1024 (@fexp2 f64 demo_libm (b_of_Z e)) =
    round radix2 (SpecFloat.fexp 53 1024) (round_mode mode_NE) (bpow radix2 e).
Proof.
  intros H. unfold demo_libm. cbn [fexp2]. rewrite demo_trunc by (simpl; lia).
  pose proof (Binary.Bldexp_correct 53 1024 Hprec64 Hemax64 mode_NE one64 e) as C.
  rewrite B2R_one64, Rmult_1_l in C. rewrite Rlt_bool_true in C.
  - destruct C as [C1 [C2 C3]]. auto.
  - apply Rle_lt_trans with (bpow radix2 1023); [|apply bpow_lt; lia].
    apply abs_round_le_generic.
    + apply BinarySingleNaN.fexp_correct. reflexivity.
    + exact (valid_rnd_round_mode mode_NE).
    + apply generic_format_bpow. unfold SpecFloat.fexp, SpecFloat.emin. lia.
    + rewrite Rabs_pos_eq by apply bpow_ge_0. apply bpow_le. lia.
Qed.

Lemma demo_exact_exp2 : exact_exp2 demo_libm.
Proof.
  split.
  - intros e He. destruct (demo_exp2_rounded e ltac:(lia)) as [A [_ B]]. split; [exact A|].
    etransitivity; [exact B|]. apply rnd_format. apply generic_format_bpow. unfold SpecFloat.fexp, SpecFloat.emin. lia.
  - destruct (demo_exp2_rounded (3 - 1024 - 53 - 1) ltac:(lia)) as [A [B _]]. split; [exact A|exact B].
Qed.
