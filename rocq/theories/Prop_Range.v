(** * Property C86: the range of the test functions *)

From Coq Require Import List Arith ZArith Bool Lia Reals Lra.
From Flocq Require Import Core IEEE754.BinarySingleNaN IEEE754.Binary.
From Verif Require Import Base FloatModel TestFuncModel SpecStat SpecReal SpecTest RangeFacts DemoFloats.
Import ListNotations.

(** ** C86: on a box the values are finite and bounded *)
Theorem C86_paraboloid_f64 :
  forall (np : nan_policy 53 1024) (b : Z) (x : list f64), Forall (within b) x ->
    let top := (Z.of_nat (length x) * (b + Z.of_nat (length x)) ^ 2)%Z in
    (top <= 2 ^ 53)%Z -> within top (@paraboloid f64 (FloatIEEE np) ToF64_64 x).
Proof. exact paraboloid_64_within. Qed.
Print Assumptions C86_paraboloid_f64.
Theorem C86_paraboloid_f32 :
  forall (np : nan_policy 24 128) (np64 : nan_policy 53 1024) (b : Z) (x : list f32), Forall (within b) x ->
    let top := (Z.of_nat (length x) * (b + Z.of_nat (length x)) ^ 2)%Z in
    (top <= 2 ^ 24)%Z -> within top (@paraboloid f32 (FloatIEEE np) (ToF64_32 np64) x).
Proof. exact paraboloid_32_within. Qed.
Print Assumptions C86_paraboloid_f32.
Theorem C86_rosenbrock_f64 :
  forall (np : nan_policy 53 1024) (b : Z) (x : list f64), x <> [] -> Forall (within b) x ->
    let top := (Z.of_nat (length x - 1) * (100 * (b + b ^ 2) ^ 2 + (1 + b) ^ 2))%Z in
    (top <= 2 ^ 53)%Z -> exists r, @rosenbrock f64 (FloatIEEE np) ToF64_64 x = Ret r /\ within top r.
Proof. exact rosenbrock_64_within. Qed.
Print Assumptions C86_rosenbrock_f64.
Theorem C86_rosenbrock_f32 :
  forall (np : nan_policy 24 128) (np64 : nan_policy 53 1024) (b : Z) (x : list f32), x <> [] -> Forall (within b) x ->
    let top := (Z.of_nat (length x - 1) * (100 * (b + b ^ 2) ^ 2 + (1 + b) ^ 2))%Z in
    (top <= 2 ^ 24)%Z -> exists r, @rosenbrock f32 (FloatIEEE np) (ToF64_32 np64) x = Ret r /\ within top r.
Proof. exact rosenbrock_32_within. Qed.
Print Assumptions C86_rosenbrock_f32.
Theorem C86_rastrigin_f64 :
  forall (np : nan_policy 53 1024) (LM : Libm f64) (b : Z) (x : list f64), cos_bounded fcos -> Forall (within b) x ->
    let top := (Z.of_nat (length x) * (b ^ 2 + 20))%Z in
    (8 * b <= 2 ^ 53)%Z -> (top <= 2 ^ 53)%Z -> within top (@rastrigin f64 (FloatIEEE np) LM ToF64_64 x).
Proof. exact rastrigin_64_within. Qed.
Print Assumptions C86_rastrigin_f64.
Theorem C86_rastrigin_f32 :
  forall (np : nan_policy 24 128) (np64 : nan_policy 53 1024) (LM : Libm f32) (b : Z) (x : list f32),
    cos_bounded fcos -> Forall (within b) x ->
    let top := (Z.of_nat (length x) * (b ^ 2 + 20))%Z in
    (8 * b <= 2 ^ 24)%Z -> (top <= 2 ^ 24)%Z -> within top (@rastrigin f32 (FloatIEEE np) LM (ToF64_32 np64) x).
Proof. exact rastrigin_32_within. Qed.
Print Assumptions C86_rastrigin_f32.
Theorem C86_schwefel_f64 :
  forall (np : nan_policy 53 1024) (LM : Libm f64) (b : Z) (x : list f64), cos_bounded fsin -> Forall (within b) x ->
    let top := (Z.of_nat (length x) * (b + 419))%Z in
    (top <= 2 ^ 53)%Z -> within top (@schwefel f64 (FloatIEEE np) LM ToF64_64 x).
Proof. exact schwefel_64_within. Qed.
Print Assumptions C86_schwefel_f64.
Theorem C86_schwefel_f32 :
  forall (np : nan_policy 24 128) (np64 : nan_policy 53 1024) (LM : Libm f32) (b : Z) (x : list f32),
    cos_bounded fsin -> Forall (within b) x ->
    let top := (Z.of_nat (length x) * (b + 419))%Z in
    (top <= 2 ^ 24)%Z -> within top (@schwefel f32 (FloatIEEE np) LM (ToF64_32 np64) x).
Proof. exact schwefel_32_within. Qed.
Print Assumptions C86_schwefel_f32.
(** The boxes of the example programs, and a point in them. *)
Example C86_boxes :
  forallb (fun top => top <=? 2 ^ 24)%Z
    [5 * (100 + 5) ^ 2; 2 * (100 * (2 + 2 ^ 2) ^ 2 + (1 + 2) ^ 2); 8 * 6; 30 * (6 ^ 2 + 20); 15 * (500 + 419)]%Z = true /\
  Forall (within 2) [two64; minus_two64; one64].
Proof.
  split; [reflexivity|].
  repeat apply Forall_cons; [split; [reflexivity|]..|constructor];
    unfold two64, minus_two64, one64; simpl; unfold F2R; simpl; rewrite ?Rabs_mult, ?Rabs_pos_eq, ?Rabs_Ropp by lra;
    unfold Rabs; repeat destruct (Rcase_abs _); lra.
Qed.
(** The bound is met: paraboloid at -2 is 9. *)
Example C86_met :
  to_bits64 (@paraboloid f64 (FloatIEEE np64_default) ToF64_64 [minus_two64]) = to_bits64 (b_of_Z 9).
Proof. vm_compute. reflexivity. Qed.
