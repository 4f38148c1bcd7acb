(** * A libm and a stream for the runs under unlucky draws *)

From Coq Require Import List Arith ZArith Bool Reals Lia Lra String.
From Flocq Require Import Core IEEE754.BinarySingleNaN IEEE754.Binary.
From Verif Require Import Base FloatModel Rng GaModel GaComponents StopModel ExampleModel SpecBits SpecBox SpecTest SpecExample SpecClosed SpecSteady
  FloatFacts ArithFacts ExampleFacts ExampleRuns SteadyRuns DemoFloats DemoTrig DemoWorst.
Import ListNotations.

(** Sine and cosine of [fine_libm]; [exp2] is a power of two (correctly rounded). *)
Definition full_libm (np : nan_policy 24 128) : Libm f32 :=
  {| fsin := @fsin f32 (fine_libm np); fcos := @fcos f32 (fine_libm np); fpowf := fun x _ => x;
     fexp2 := fun x => Binary.Bldexp 24 128 Hprec32 Hemax32 mode_NE (b_of_Z 1) (Binary.Btrunc 24 128 x) |}.

Lemma full_trunc e : (Z.abs e <= 2 ^ 24)%Z -> Binary.Btrunc 24 128 (b_of_Z e) = e.
Proof.
  intros H. destruct (of_Z_exact (prec := 24) (emax := 128) e H) as [Fi E].
  apply eq_IZR. rewrite (Binary.Btrunc_correct 24 128 Hemax32 (b_of_Z e)).
  rewrite E. unfold round, scaled_mantissa, F2R, cexp, FIX_exp. simpl.
  rewrite !Rmult_1_r. now rewrite Ztrunc_IZR.
Qed.
Lemma full_exp2_rounded np e : (-160 <= e < 128)%Z ->
  is_finite (@fexp2 f32 (full_libm np) (b_of_Z e)) = true /\
  Binary.Bsign 24 128 (@fexp2 f32 (full_libm np) (b_of_Z e)) = false /\
  Binary.B2R 24 128 (@fexp2 f32 (full_libm np) (b_of_Z e)) =
    round radix2 (SpecFloat.fexp 24 128) (round_mode mode_NE) (bpow radix2 e).
Proof.
  intros H. unfold full_libm. cbn [fexp2]. rewrite full_trunc by (simpl; lia).
  pose proof (Binary.Bldexp_correct 24 128 Hprec32 Hemax32 mode_NE (b_of_Z 1) e) as C.
  destruct (of_Z_exact (prec := 24) (emax := 128) 1 ltac:(simpl; lia)) as [F1 E1].
  rewrite E1, Rmult_1_l in C. rewrite Rlt_bool_true in C.
  - destruct C as [C1 [C2 C3]]. split; [exact (eq_trans C2 F1)|]. split; [exact C3|exact C1].
  - apply Rle_lt_trans with (bpow radix2 127); [|apply bpow_lt; lia].
    apply abs_round_le_generic.
    + apply BinarySingleNaN.fexp_correct. reflexivity.
    + exact (valid_rnd_round_mode mode_NE).
    + apply generic_format_bpow. unfold SpecFloat.fexp, SpecFloat.emin. lia.
    + rewrite Rabs_pos_eq by apply bpow_ge_0. apply bpow_le. lia.
Qed.
Lemma full_exact_exp2 np : exact_exp2 (full_libm np).
Proof.
  split.
  - intros e He. destruct (full_exp2_rounded np e ltac:(lia)) as [A [_ B]]. split; [exact A|].
    etransitivity; [exact B|]. apply rnd_format. apply generic_format_bpow. unfold SpecFloat.fexp, SpecFloat.emin. lia.
  - destruct (full_exp2_rounded np (3 - 128 - 24 - 1) ltac:(lia)) as [A [B _]]. split; [exact A|exact B].
Qed.
Lemma full_bounded np : cos_bounded (@fcos f32 (full_libm np)) /\ cos_bounded (@fsin f32 (full_libm np)).
Proof. destruct (fine_bounded np) as (A & _ & B). exact (conj A B). Qed.

(** Always 99. *)
Definition ninety_nines : rng := fun _ => 4636666922610458624%Z.
Lemma ninety_nines_unlucky : unlucky (b_of_Z 15) ninety_nines /\ unlucky (b_of_Z 85) ninety_nines.
Proof. split; intros k; split; vm_compute; reflexivity. Qed.

(** The test genetic-paraboloid meets the hypotheses about runs. *)
Lemma demo_steady (W : Type) np32 np64 dbg : exists cfg,
  @test_genetic_paraboloid W np32 np64 (full_libm np32) dbg = Ret cfg /\
  all_steady (fun u => unlucky (b_of_Z 15) (w_rng u)) cfg /\
  closed_while (fun u => unlucky (b_of_Z 15) (w_rng u)) (eq (repeat (b_of_Z 0) 5)) cfg.
Proof.
  unfold test_genetic_paraboloid. rewrite any_cons.
  match goal with |- exists cfg, ?p = _ /\ _ => assert (P : exists cfg, p = Ret cfg) end.
  { eexists. apply program_is; [vm_compute; reflexivity|lia|lia]. }
  destruct P as [cfg P]. exists cfg. split; [exact P|]. split.
  - eapply program_steady; [| | | | | |exact P]; [vm_compute; reflexivity|lia|lia| | |].
    + intros ?. apply steady_tournament.
    + apply steady_any. repeat (apply Forall_cons; [intros ?; first [apply steady_threshold|apply steady_max|apply steady_not_change]|]). apply Forall_nil.
    + apply Forall_nil.
  - eapply program_closed; [apply full_exact_exp2| | | |exact P|apply far_ok; auto]; [vm_compute; reflexivity|lia|lia].
Qed.
