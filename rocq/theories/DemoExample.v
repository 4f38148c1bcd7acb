(** * A terminal, a clock and points for the examples of C87 *)

From Coq Require Import List Arith ZArith Bool String Reals Lra.
From Flocq Require Import Core IEEE754.BinarySingleNaN IEEE754.Binary.
From Verif Require Import Base FloatModel TestFuncModel ExampleModel SpecTest SpecExample ArithFacts ExampleAsserts.
Import ListNotations.

Definition record_lines : string -> comp (list string) bool := fun s w => (Ret true, s :: w).
Definition clock_at_7 {W} : comp W Z := cret 7%Z.

Lemma demo_terminal :
  accepts record_lines /\ ticks (W := list string) clock_at_7 /\ cos_bounded (@fcos f32 demo_libm32) /\ cos_bounded (@fsin f32 demo_libm32) /\
  record_lines "a" ["b"%string] = (Ret true, ["a"; "b"]%string).
Proof.
  split; [intros s w; eexists; reflexivity|]. split; [intros w; eexists; eexists; reflexivity|].
  assert (B : forall z, (z = 0 \/ z = 1)%Z -> is_finite (b_of_Z z : f32) = true /\ (Rabs (Binary.B2R 24 128 (b_of_Z z)) <= 1)%R).
  { intros z Hz. destruct (of_Z_exact (prec := 24) (emax := 128) z) as [F E].
    - destruct Hz as [-> | ->]; vm_compute; discriminate.
    - split; [exact F|]. rewrite E. destruct Hz as [-> | ->]; rewrite Rabs_pos_eq; lra. }
  split; [intros x _; apply B; auto|]. split; [intros x _; apply B; auto|]. reflexivity.
Qed.

Definition near : list f32 := [from_bits32 1065353232; b_of_Z 2; b_of_Z 3; b_of_Z 4; b_of_Z 5].
Definition off : list f32 := [from_bits32 1066401792; b_of_Z 2; b_of_Z 3; b_of_Z 4; b_of_Z 5].
Lemma demo_near :
  leb (@paraboloid f32 (FloatIEEE np32_default) (ToF64_32 np64_default) near) (decimal64 1 6) = true /\
  ltb (b_of_Z 0) (@paraboloid f32 (FloatIEEE np32_default) (ToF64_32 np64_default) near) = true /\
  genetic_paraboloid_asserts np32_default (Some (near, b_of_Z 0)) = Ret tt /\
  genetic_paraboloid_asserts np32_default (Some (off, b_of_Z 0)) = Panic /\
  particleswarm_paraboloid_asserts np32_default (Some (off, b_of_Z 0)) = Ret tt.
Proof. repeat split; vm_compute; reflexivity. Qed.

Lemma demo_other_asserts :
  genetic_schwefel_asserts np32_default (Some (repeat (decimal32 4209687 4) 5, b_of_Z 0)) = Ret tt /\
  genetic_schwefel_asserts np32_default (Some (repeat (decimal32 421125 3) 5, b_of_Z 0)) = Panic /\
  genetic_rastrigin_asserts np32_default (Some (repeat (decimal32 78125 7) 30, b_of_Z 0)) = Ret tt /\
  genetic_rastrigin_asserts np32_default (Some (repeat (decimal32 15625 6) 30, b_of_Z 0)) = Panic.
Proof. repeat split; vm_compute; reflexivity. Qed.
