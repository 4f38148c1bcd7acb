(** * Properties C67-C70: the test functions *)

From Coq Require Import List Arith ZArith Bool Lia Reals Lra Permutation.
From Flocq Require Import Core IEEE754.BinarySingleNaN IEEE754.Binary.
From Verif Require Import Base FloatModel TestFuncModel SpecStat SpecReal SpecTest SpecExample SchwefelFacts TestFacts RastriginTest DemoFloats DemoRastrigin.
Import ListNotations.

(** ** C67: paraboloid *)
Theorem C67_paraboloid_f64 :
  forall (np : nan_policy 53 1024) (x : list f64), usize (length x) ->
    let r := @paraboloid f64 (FloatIEEE np) ToF64_64 x in
    (is_nan r = true <-> exists v, In v x /\ is_nan v = true) /\
    (Forall (fun v => is_nan v = false) x ->
       non_negative r /\
       ((Z.of_nat (length x) <= 2 ^ 53)%Z -> x <> map float_count (seq 1 (length x)) -> strictly_positive r)).
Proof. exact paraboloid_64. Qed.
Print Assumptions C67_paraboloid_f64.
Theorem C67_paraboloid_f32 :
  forall (np : nan_policy 24 128) (np64 : nan_policy 53 1024) (x : list f32), usize (length x) ->
    let r := @paraboloid f32 (FloatIEEE np) (ToF64_32 np64) x in
    (is_nan r = true <-> exists v, In v x /\ is_nan v = true) /\
    (Forall (fun v => is_nan v = false) x ->
       non_negative r /\
       ((Z.of_nat (length x) <= 2 ^ 24)%Z -> x <> map float_count (seq 1 (length x)) -> strictly_positive r)).
Proof. exact paraboloid_32. Qed.
Print Assumptions C67_paraboloid_f32.
Theorem C67_minimum_f64 :
  forall (np : nan_policy 53 1024) n, (Z.of_nat n <= 2 ^ 53)%Z ->
    @paraboloid f64 (FloatIEEE np) ToF64_64 (map float_count (seq 1 n)) = Binary.B754_zero false.
Proof. exact paraboloid_64_zero. Qed.
Print Assumptions C67_minimum_f64.
Theorem C67_minimum_f32 :
  forall (np : nan_policy 24 128) (np64 : nan_policy 53 1024) n, (Z.of_nat n <= 2 ^ 24)%Z ->
    @paraboloid f32 (FloatIEEE np) (ToF64_32 np64) (map float_count (seq 1 n)) = Binary.B754_zero false.
Proof. exact paraboloid_32_zero. Qed.
Print Assumptions C67_minimum_f32.
(** In exact arithmetic. *)
Theorem C67_exact :
  forall x : list R,
    @paraboloid_g R FloatR x = paraboloid_real x /\
    (0 <= @paraboloid_g R FloatR x)%R /\
    (@paraboloid_g R FloatR x = 0%R <-> x = map INR (seq 1 (length x))).
Proof. exact (fun x => conj (paraboloid_exact x) (paraboloid_min x)). Qed.
Print Assumptions C67_exact.
Example C67_nonvacuous :
  to_bits64 (@paraboloid f64 (FloatIEEE np64_default) ToF64_64 [one64; one64]) = to_bits64 one64 /\
  forallb (fun v => negb (is_nan v)) [one64; one64] = true.
Proof. vm_compute. auto. Qed.

(** ** C68: rosenbrock *)
Theorem C68_panics :
  forall (G : Type) (FT : FloatTrait G) (TF : ToF64 G) (x : list G), rosenbrock x = Panic <-> x = [].
Proof. exact @rosenbrock_panic. Qed.
Print Assumptions C68_panics.
Theorem C68_rosenbrock_f64 :
  forall (np : nan_policy 53 1024) (x : list f64),
    Forall (fun v => is_finite v = true) x -> x <> [] ->
    exists r,
      @rosenbrock f64 (FloatIEEE np) ToF64_64 x = Ret r /\ non_negative r /\
      (length x = 1 -> r = Binary.B754_zero false) /\
      (2 <= length x -> x <> repeat (float_count 1) (length x) -> strictly_positive r).
Proof. exact rosenbrock_64. Qed.
Print Assumptions C68_rosenbrock_f64.
Theorem C68_rosenbrock_f32 :
  forall (np : nan_policy 24 128) (np64 : nan_policy 53 1024) (x : list f32),
    Forall (fun v => is_finite v = true) x -> x <> [] ->
    exists r,
      @rosenbrock f32 (FloatIEEE np) (ToF64_32 np64) x = Ret r /\ non_negative r /\
      (length x = 1 -> r = Binary.B754_zero false) /\
      (2 <= length x -> x <> repeat (float_count 1) (length x) -> strictly_positive r).
Proof. exact rosenbrock_32. Qed.
Print Assumptions C68_rosenbrock_f32.
Theorem C68_minimum_f64 :
  forall (np : nan_policy 53 1024) n,
    @rosenbrock f64 (FloatIEEE np) ToF64_64 (repeat (float_count 1) (S n)) = Ret (Binary.B754_zero false).
Proof. exact rosenbrock_64_ones. Qed.
Print Assumptions C68_minimum_f64.
Theorem C68_minimum_f32 :
  forall (np : nan_policy 24 128) (np64 : nan_policy 53 1024) n,
    @rosenbrock f32 (FloatIEEE np) (ToF64_32 np64) (repeat (float_count 1) (S n)) = Ret (Binary.B754_zero false).
Proof. exact rosenbrock_32_ones. Qed.
Print Assumptions C68_minimum_f32.
Theorem C68_exact :
  forall x : list R, x <> [] ->
    @rosenbrock_g R FloatR x = Ret (rosenbrock_real x) /\
    exists r, @rosenbrock_g R FloatR x = Ret r /\ (0 <= r)%R /\ (length x = 1 -> r = 0%R) /\
      (2 <= length x -> (r = 0%R <-> Forall (fun a => a = 1%R) x)).
Proof. exact (fun x H => conj (rosenbrock_exact x H) (rosenbrock_min x H)). Qed.
Print Assumptions C68_exact.
Example C68_nonvacuous :
  show to_bits64 (@rosenbrock f64 (FloatIEEE np64_default) ToF64_64 [one64; two64]) =
  Some (to_bits64 (b_of_Z 100)).
Proof. vm_compute. reflexivity. Qed.

(** ** C69: rastrigin *)
Theorem C69_rastrigin_f64 :
  forall (np : nan_policy 53 1024) (LM : Libm f64) (x : list f64), cos_bounded fcos ->
    (10 * Z.of_nat (length x) <= 2 ^ 53)%Z ->
    Forall (fun v => is_finite v = true /\ (Rabs (Binary.B2R 53 1024 v) <= bpow radix2 1020)%R) x ->
    non_negative (@rastrigin f64 (FloatIEEE np) LM ToF64_64 x).
Proof. exact rastrigin_64. Qed.
Print Assumptions C69_rastrigin_f64.
Theorem C69_rastrigin_f32 :
  forall (np : nan_policy 24 128) (np64 : nan_policy 53 1024) (LM : Libm f32) (x : list f32), cos_bounded fcos ->
    (10 * Z.of_nat (length x) <= 2 ^ 24)%Z ->
    Forall (fun v => is_finite v = true /\ (Rabs (Binary.B2R 24 128 v) <= bpow radix2 124)%R) x ->
    non_negative (@rastrigin f32 (FloatIEEE np) LM (ToF64_32 np64) x).
Proof. exact rastrigin_32. Qed.
Print Assumptions C69_rastrigin_f32.
Theorem C69_minimum_f64 :
  forall (np : nan_policy 53 1024) (LM : Libm f64) (x : list f64), cos_zero fcos ->
    (10 * Z.of_nat (length x) <= 2 ^ 53)%Z -> Forall (fun v => exists s, v = Binary.B754_zero s) x ->
    @rastrigin f64 (FloatIEEE np) LM ToF64_64 x = Binary.B754_zero false.
Proof. exact rastrigin_64_zero. Qed.
Print Assumptions C69_minimum_f64.
Theorem C69_minimum_f32 :
  forall (np : nan_policy 24 128) (np64 : nan_policy 53 1024) (LM : Libm f32) (x : list f32), cos_zero fcos ->
    (10 * Z.of_nat (length x) <= 2 ^ 24)%Z -> Forall (fun v => exists s, v = Binary.B754_zero s) x ->
    @rastrigin f32 (FloatIEEE np) LM (ToF64_32 np64) x = Binary.B754_zero false.
Proof. exact rastrigin_32_zero. Qed.
Print Assumptions C69_minimum_f32.
Theorem C69_exact :
  forall x : list R,
    @rastrigin_g R FloatR LibmR x = rastrigin_real x /\
    (0 <= @rastrigin_g R FloatR LibmR x)%R /\
    (@rastrigin_g R FloatR LibmR x = 0%R <-> Forall (fun a => a = 0%R) x).
Proof. exact (fun x => conj (rastrigin_exact x) (rastrigin_min x)). Qed.
Print Assumptions C69_exact.
(** A small computed value means a point near the minimum: it has no false minima. *)
Theorem C69_near_f64 :
  forall (np : nan_policy 53 1024) (LM : Libm f64) (x : list f64), cos_bounded fcos -> cos_near fcos ->
    (10240 * Z.of_nat (length x) <= 2 ^ 53)%Z ->
    Forall (fun v => is_finite v = true /\ (Rabs (Binary.B2R 53 1024 v) <= bpow radix2 1020)%R) x ->
    ltb (@rastrigin f64 (FloatIEEE np) LM ToF64_64 x) (decimal64 78125 7) = true ->
    Forall (fun v => Rabs (Binary.B2R 53 1024 v) < 99 / 10000)%R x.
Proof. exact rastrigin_64_near. Qed.
Print Assumptions C69_near_f64.
Theorem C69_near_f32 :
  forall (np : nan_policy 24 128) (np64 : nan_policy 53 1024) (LM : Libm f32) (x : list f32), cos_bounded fcos -> cos_near fcos ->
    (10240 * Z.of_nat (length x) <= 2 ^ 24)%Z ->
    Forall (fun v => is_finite v = true /\ (Rabs (Binary.B2R 24 128 v) <= bpow radix2 124)%R) x ->
    ltb (@rastrigin f32 (FloatIEEE np) LM (ToF64_32 np64) x) (decimal64 78125 7) = true ->
    Forall (fun v => Rabs (Binary.B2R 24 128 v) < 99 / 10000)%R x.
Proof. exact rastrigin_32_near. Qed.
Print Assumptions C69_near_f32.
(** The true cosine, rounded down to a multiple of 1/16384, and the point (1/1024). *)
Example C69_near_met :
  cos_bounded (@fcos f32 (step_libm np32_default)) /\ cos_near (@fcos f32 (step_libm np32_default)) /\
  ltb (@rastrigin f32 (FloatIEEE np32_default) (step_libm np32_default) (ToF64_32 np64_default) [thousandth]) (decimal64 78125 7) = true /\
  ltb (b_of_Z 0) (@rastrigin f32 (FloatIEEE np32_default) (step_libm np32_default) (ToF64_32 np64_default) [thousandth]) = true.
Proof. exact demo_small_rastrigin. Qed.
(** A cosine that meets both conditions: 1 everywhere. *)
Definition flat_libm : Libm f64 :=
  {| fsin := fun x => x; fcos := fun _ => float_count 1; fexp2 := fun x => x; fpowf := fun x _ => x |}.
Example C69_nonvacuous :
  @cos_bounded 53 1024 (@fcos _ flat_libm) /\ @cos_zero 53 1024 _ _ (@fcos _ flat_libm) /\
  to_bits64 (@rastrigin f64 (FloatIEEE np64_default) flat_libm ToF64_64 [two64; Binary.B754_zero true]) =
  to_bits64 (b_of_Z 4).
Proof.
  split; [|split; [|vm_compute; reflexivity]].
  - intros z _. destruct (StatFacts.count_exact (prec := 53) (emax := 1024) 1) as [F V]; [simpl; lia|].
    cbn [fcos flat_libm]. split; [exact F|]. change (Rabs (Binary.B2R 53 1024 (float_count 1)) <= 1)%R.
    rewrite V. simpl. rewrite Rabs_R1. lra.
  - intros z _ _. reflexivity.
Qed.

(** ** C70: schwefel *)
Theorem C70_sum :
  forall x : list R, @schwefel_g R FloatR LibmR x = schwefel_real x.
Proof. exact schwefel_exact. Qed.
Print Assumptions C70_sum.
Theorem C70_order :
  forall x y : list R, Permutation x y -> @schwefel_g R FloatR LibmR x = @schwefel_g R FloatR LibmR y.
Proof. exact schwefel_perm. Qed.
Print Assumptions C70_order.
(** The documented minimum 0 at 420.9687 is a lower bound on [-500, 500]^n and is met there
    up to 21e-6 per coordinate. *)
Theorem C70_box :
  forall x : list R, Forall (fun a => (Rabs a <= 500)%R) x -> (0 <= @schwefel_g R FloatR LibmR x)%R.
Proof. exact schwefel_box. Qed.
Print Assumptions C70_box.
Theorem C70_near_minimum :
  forall n, (@schwefel_g R FloatR LibmR (repeat (4209687 / 10 ^ 4) n) <= INR n * (21 / 10 ^ 6))%R.
Proof. exact schwefel_point. Qed.
Print Assumptions C70_near_minimum.
Theorem C70_literal :
  (Rabs (Binary.B2R 53 1024 schwefel_const - 4189829 / 10 ^ 4) <= 1 / 10 ^ 13)%R.
Proof. exact schwefel_literal. Qed.
Print Assumptions C70_literal.
Example C70_nonvacuous : Forall (fun a => (Rabs a <= 500)%R) (repeat (4209687 / 10 ^ 4)%R 2).
Proof. repeat constructor; rewrite Rabs_pos_eq; lra. Qed.
