(** * A cosine for the examples of C69 and C87: the true one, rounded down to a multiple of 1/16384 *)

From Coq Require Import List Arith ZArith Bool Lia Reals Lra Psatz.
From Flocq Require Import Core IEEE754.BinarySingleNaN IEEE754.Binary.
From Verif Require Import Base FloatModel TestFuncModel FloatFacts ArithFacts SpecTest SpecExample StatFacts TestFacts RastriginTest.
Import ListNotations.

Definition step_cos {prec emax} {Hp : Prec_gt_0 prec} {He : Prec_lt_emax prec emax} (np : nan_policy prec emax) (z : bfloat prec emax) : bfloat prec emax :=
  b_div np (b_of_Z (Zfloor (16384 * cos (Binary.B2R prec emax z)))) (b_of_Z 16384).

Section Cosine.
  Context {prec emax : Z} {Hp : Prec_gt_0 prec} {He : Prec_lt_emax prec emax}.
  Variable np : nan_policy prec emax.
  Hypothesis Hprec : (24 <= prec)%Z.
  Hypothesis Hemax : (65 < emax)%Z.
  Notation F := (bfloat prec emax).
  Notation B2R := (Binary.B2R prec emax).
  Notation rnd := (round radix2 (SpecFloat.fexp prec emax) (round_mode mode_NE)).

  Lemma step_value n : (Z.abs n <= 16384)%Z ->
    is_finite (b_div np (b_of_Z n) (b_of_Z 16384) : F) = true /\ B2R (b_div np (b_of_Z n) (b_of_Z 16384)) = (IZR n / 16384)%R.
  Proof.
    intros H.
    assert (P24 : (2 ^ 24 <= 2 ^ prec)%Z) by (apply Z.pow_le_mono_r; lia). simpl (2 ^ 24)%Z in P24.
    destruct (of_Z_exact (prec := prec) (emax := emax) n ltac:(lia)) as [Fn Vn].
    destruct (of_Z_exact (prec := prec) (emax := emax) 16384 ltac:(lia)) as [Fd Vd].
    assert (G : generic_format radix2 (SpecFloat.fexp prec emax) (IZR n / 16384)).
    { assert (P : (prec < emax)%Z) by exact He.
      apply generic_format_FLT. exists (Float radix2 n (-14)).
      - unfold F2R. simpl. lra.
      - simpl. change (Zpower_pos 2) with (Z.pow_pos 2). change (Z.abs n < 2 ^ prec)%Z. lia.
      - simpl. unfold SpecFloat.emin. lia. }
    destruct (div_correct np (b_of_Z n) (b_of_Z 16384)) as [D1 D2].
    - exact Fn.
    - rewrite Vd. lra.
    - rewrite Vn, Vd, (rnd_format (prec := prec) (emax := emax)) by exact G.
      apply Rle_lt_trans with 1%R.
      + apply IZR_le in H. rewrite abs_IZR in H. unfold Rdiv. rewrite Rabs_mult, (Rabs_pos_eq (/ 16384)) by lra. lra.
      + apply (bpow_lt radix2 0 emax). lia.
    - rewrite Vn, Vd, (rnd_format (prec := prec) (emax := emax)) in D2 by exact G. split; [exact D1|exact D2].
  Qed.
  Lemma floor_bounds (z : F) : (Z.abs (Zfloor (16384 * cos (B2R z))) <= 16384)%Z.
  Proof.
    pose proof (COS_bound (B2R z)) as B. apply Z.abs_le. split.
    - change (- (16384))%Z with (-16384)%Z. apply Zfloor_lub. lra.
    - apply le_IZR. eapply Rle_trans; [apply Zfloor_lb|]. lra.
  Qed.
  Lemma step_cos_value (z : F) : is_finite (step_cos np z) = true /\ B2R (step_cos np z) = (IZR (Zfloor (16384 * cos (B2R z))) / 16384)%R.
  Proof. apply step_value, floor_bounds. Qed.
  Lemma step_cos_bounded : cos_bounded (step_cos np).
  Proof.
    intros z _. destruct (step_cos_value z) as [A B]. split; [exact A|]. rewrite B.
    pose proof (floor_bounds z) as H. apply IZR_le in H. rewrite abs_IZR in H.
    unfold Rdiv. rewrite Rabs_mult, (Rabs_pos_eq (/ 16384)) by lra. lra.
  Qed.
  Lemma step_cos_near : cos_near (step_cos np).
  Proof.
    intros z _ _. destruct (step_cos_value z) as [_ B]. rewrite B.
    pose proof (Zfloor_lb (16384 * cos (B2R z))) as L. pose proof (Zfloor_ub (16384 * cos (B2R z))) as U.
    apply Rabs_le. lra.
  Qed.
End Cosine.

Definition step_libm (np : nan_policy 24 128) : Libm f32 :=
  {| fsin := fun _ => b_of_Z 0; fcos := step_cos np; fpowf := fun x _ => x; fexp2 := fun x => x |}.
(** The point (1/1024). *)
Definition thousandth : f32 := b_div np32_default (b_of_Z 1) (b_of_Z 1024).
Lemma demo_value : @rastrigin f32 (FloatIEEE np32_default) (step_libm np32_default) (ToF64_32 np64_default) [thousandth] =
  fconv (np_of32 np64_default) (b_add np32_default (b_of_Z 10)
    (b_sub np32_default (b_mul np32_default thousandth thousandth) (b_mul np32_default (b_of_Z 10) (b_div np32_default (b_of_Z 16383) (b_of_Z 16384))))).
Proof.
  unfold rastrigin. unfold to_f64, ToF64_32. f_equal.
  rewrite (rastrigin_fold np32_default (lit_32 np32_default)). cbn [fold_left length]. unfold wave.
  cbn [fcos step_libm]. unfold step_cos.
  match goal with |- context [Zfloor ?e] => replace (Zfloor e) with 16383%Z end.
  - apply Binary.B2FF_inj. vm_compute. reflexivity.
  - symmetry. apply Zfloor_imp.
    match goal with |- context [Binary.B2R 24 128 ?z] => set (y := z) end.
    assert (E : Binary.B2FF 24 128 y = Binary.F754_finite false 13176795 (-31)) by (vm_compute; reflexivity).
    rewrite <- (Binary.FF2R_B2FF 24 128 y), E. unfold Binary.FF2R, F2R. cbn [Fnum Fexp cond_Zopp].
    change (bpow radix2 (-31)) with (/ IZR (2 ^ 31))%R. simpl Z.pow.
    match goal with |- context [cos ?r] => set (t := r) end.
    assert (T : (6 / 1000 <= t <= 62 / 10000)%R) by (unfold t; lra).
    destruct (pre_cos_bound t 0) as [A B]; [lra|lra|].
    unfold cos_approx, sum_f_R0, cos_term in A, B. simpl in A, B. simpl IZR.
    assert (Q1 : (36 / 1000000 <= t * t <= 39 / 1000000)%R) by nra.
    split; nra.
Qed.
Lemma demo_small_rastrigin :
  cos_bounded (@fcos f32 (step_libm np32_default)) /\ cos_near (@fcos f32 (step_libm np32_default)) /\
  ltb (@rastrigin f32 (FloatIEEE np32_default) (step_libm np32_default) (ToF64_32 np64_default) [thousandth]) (decimal64 78125 7) = true /\
  ltb (b_of_Z 0) (@rastrigin f32 (FloatIEEE np32_default) (step_libm np32_default) (ToF64_32 np64_default) [thousandth]) = true.
Proof.
  split; [apply step_cos_bounded; lia|]. split; [apply step_cos_near; lia|].
  rewrite demo_value. split; vm_compute; reflexivity.
Qed.
