(** * A sine and a cosine for the examples of C105: the true ones, rounded down to a multiple of 2^-22 *)

From Coq Require Import List Arith ZArith Bool Lia Reals Lra Psatz.
From Flocq Require Import Core IEEE754.BinarySingleNaN IEEE754.Binary.
From Verif Require Import Base FloatModel FloatFacts ArithFacts Rng GaModel LogModel ExampleModel SpecTest SpecExample SpecAccuracy StatFacts RangeFacts ExampleRuns ExampleAsserts AccTest DemoFloats DemoExample.
Import ListNotations.

Definition fine {prec emax} {Hp : Prec_gt_0 prec} {He : Prec_lt_emax prec emax} (np : nan_policy prec emax) (f : R -> R)
    (z : bfloat prec emax) : bfloat prec emax :=
  b_div np (b_of_Z (Zfloor (4194304 * f (Binary.B2R prec emax z)))) (b_of_Z 4194304).

Section Fine.
  Context {prec emax : Z} {Hp : Prec_gt_0 prec} {He : Prec_lt_emax prec emax}.
  Variable np : nan_policy prec emax.
  Hypothesis Hprec : (24 <= prec)%Z.
  Hypothesis Hemax : (65 < emax)%Z.
  Notation F := (bfloat prec emax).
  Notation B2R := (Binary.B2R prec emax).
  Notation rnd := (round radix2 (SpecFloat.fexp prec emax) (round_mode mode_NE)).
  Variable f : R -> R.
  Hypothesis Hf : forall t, (-1 <= f t <= 1)%R.

  Lemma fine_step n : (Z.abs n <= 4194304)%Z ->
    is_finite (b_div np (b_of_Z n) (b_of_Z 4194304) : F) = true /\ B2R (b_div np (b_of_Z n) (b_of_Z 4194304)) = (IZR n / 4194304)%R.
  Proof.
    intros H.
    assert (P24 : (2 ^ 24 <= 2 ^ prec)%Z) by (apply Z.pow_le_mono_r; lia). simpl (2 ^ 24)%Z in P24.
    destruct (of_Z_exact (prec := prec) (emax := emax) n ltac:(lia)) as [Fn Vn].
    destruct (of_Z_exact (prec := prec) (emax := emax) 4194304 ltac:(lia)) as [Fd Vd].
    assert (G : generic_format radix2 (SpecFloat.fexp prec emax) (IZR n / 4194304)).
    { assert (P : (prec < emax)%Z) by exact He.
      apply generic_format_FLT. exists (Float radix2 n (-22)).
      - unfold F2R. simpl. lra.
      - simpl. change (Zpower_pos 2) with (Z.pow_pos 2). change (Z.abs n < 2 ^ prec)%Z. lia.
      - simpl. unfold SpecFloat.emin. lia. }
    destruct (div_correct np (b_of_Z n) (b_of_Z 4194304)) as [D1 D2].
    - exact Fn.
    - rewrite Vd. lra.
    - rewrite Vn, Vd, (rnd_format (prec := prec) (emax := emax)) by exact G.
      apply Rle_lt_trans with 1%R.
      + apply IZR_le in H. rewrite abs_IZR in H. unfold Rdiv. rewrite Rabs_mult, (Rabs_pos_eq (/ 4194304)) by lra. lra.
      + apply (bpow_lt radix2 0 emax). lia.
    - rewrite Vn, Vd, (rnd_format (prec := prec) (emax := emax)) in D2 by exact G. split; [exact D1|exact D2].
  Qed.
  Lemma fine_floor (z : F) : (Z.abs (Zfloor (4194304 * f (B2R z))) <= 4194304)%Z.
  Proof.
    pose proof (Hf (B2R z)) as B. apply Z.abs_le. split.
    - change (- (4194304))%Z with (-4194304)%Z. apply Zfloor_lub. lra.
    - apply le_IZR. eapply Rle_trans; [apply Zfloor_lb|]. lra.
  Qed.
  Lemma fine_near r : trig_near f (1 / 10 ^ 6) r (fine np f).
  Proof.
    assert (V : forall z : F, is_finite (fine np f z) = true /\ B2R (fine np f z) = (IZR (Zfloor (4194304 * f (B2R z))) / 4194304)%R)
      by (intros z; apply fine_step, fine_floor).
    split; intros z _.
    - destruct (V z) as [A B]. split; [exact A|]. rewrite B.
      pose proof (fine_floor z) as H. apply IZR_le in H. rewrite abs_IZR in H.
      unfold Rdiv. rewrite Rabs_mult, (Rabs_pos_eq (/ 4194304)) by lra. lra.
    - intros _. destruct (V z) as [_ B]. rewrite B.
      pose proof (Zfloor_lb (4194304 * f (B2R z))) as L. pose proof (Zfloor_ub (4194304 * f (B2R z))) as U.
      apply Rabs_le. lra.
  Qed.
End Fine.
Definition fine_libm (np : nan_policy 24 128) : Libm f32 :=
  {| fsin := fine np sin; fcos := fine np cos; fpowf := fun x _ => x; fexp2 := fun x => x |}.
Lemma fine_libm_near np : trig_near cos (1 / 10 ^ 6) 48 (@fcos f32 (fine_libm np)) /\ trig_near sin (1 / 10 ^ 6) 500 (@fsin f32 (fine_libm np)).
Proof. split; apply fine_near; try lia; [apply COS_bound|apply SIN_bound]. Qed.
Lemma fine_64_near np : trig_near cos (1 / 10 ^ 6) (8 * 2) (fine (prec := 53) (emax := 1024) np cos) /\ trig_near sin (1 / 10 ^ 6) 2 (fine (prec := 53) (emax := 1024) np sin).
Proof. split; apply fine_near; try lia; [apply COS_bound|apply SIN_bound]. Qed.

Definition point64 : list f64 := [b_div np64_default (b_of_Z 1) (b_of_Z 3); b_of_Z 2].
Definition point32 : list f32 := [b_div np32_default (b_of_Z 1) (b_of_Z 3); b_of_Z 2].

Lemma between_within {prec emax} {Hp : Prec_gt_0 prec} {He : Prec_lt_emax prec emax} (x : bfloat prec emax) : (24 <= prec)%Z ->
  is_finite x && leb (b_of_Z (-2)) x && leb x (b_of_Z 2) = true -> within 2 x.
Proof.
  intros P H. rewrite !Bool.andb_true_iff in H. destruct H as [[A B] C].
  assert (P24 : (2 ^ 24 <= 2 ^ prec)%Z) by (apply Z.pow_le_mono_r; lia). simpl (2 ^ 24)%Z in P24.
  destruct (of_Z_exact (prec := prec) (emax := emax) (-2) ltac:(lia)) as [Fm Vm].
  destruct (of_Z_exact (prec := prec) (emax := emax) 2 ltac:(lia)) as [Fp Vp].
  split; [exact A|]. apply leb_key in B. apply leb_key in C. destruct B as (_ & _ & B), C as (_ & _ & C). rewrite !key_finite in B, C by auto. rewrite Vm in B. rewrite Vp in C. apply Rabs_le. split; lra.
Qed.
Lemma points_within : Forall (within 2) point64 /\ Forall (within 2) point32.
Proof.
  split; (constructor; [|constructor; [|constructor]]); (apply between_within; [lia|vm_compute; reflexivity]).
Qed.
Lemma schwefel_run_met r : exists x v p' u' t,
  ga_main (@genetic_schwefel unit discard (cret 0%Z) blank np32_default np64_default (fine_libm np32_default) true) 3001 r tt
    = (Ret (Some (x, v), p'), u', t) /\ off_by (1 / 25) schwefel_doc x v.
Proof.
  destruct (fine_libm_near np32_default) as [_ N].
  destruct (@genetic_schwefel_ends unit discard (cret 0%Z) blank np32_default np64_default (fine_libm np32_default) true
    discard_accepts zero_ticks 3001 r tt (proj1 N) ltac:(lia)) as (x & v & p' & u' & t & Run & _).
  exists x, v, p', u', t. refine (conj Run _).
  exact (@genetic_schwefel_true unit discard (cret 0%Z) blank np32_default np64_default (fine_libm np32_default) true
    discard_accepts zero_ticks 3001 r tt x v p' u' t N ltac:(lia) Run).
Qed.
