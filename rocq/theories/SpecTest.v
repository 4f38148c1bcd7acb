(** * Specification vocabulary for the test functions: the documented formulas over
    real numbers *)

From Coq Require Import List ZArith Reals.
From Flocq Require Import Core IEEE754.BinarySingleNaN IEEE754.Binary.
From Verif Require Import Base FloatModel TestFuncModel SpecStat.
Import ListNotations.
Local Open Scope R_scope.

(** The real functions in the place of the library's. *)
Definition LibmR : Libm R := {|
  fsin := sin; fcos := cos; fexp2 := fun x => Rpower 2 x; fpowf := Rpower
|}.

(** (x0 - 1)^2 + (x1 - 2)^2 + ... *)
Definition paraboloid_real (x : list R) : R :=
  real_sum (map (fun nv => (snd nv - INR (fst nv))²) (combine (seq 1 (length x)) x)).
(** The sum over neighbours of 100 (x1 - x0^2)^2 + (1 - x0)^2 *)
Definition rosenbrock_real (x : list R) : R :=
  real_sum (map (fun ab => 100 * (snd ab - (fst ab)²)² + (1 - fst ab)²) (combine x (tl x))).
(** The sum of x^2 + 10 - 10 cos (2 pi x), pi being the literal 3.14159265358979. *)
Definition rastrigin_real (x : list R) : R :=
  real_sum (map (fun a => a² + 10 - 10 * cos (2 * Binary.B2R 53 1024 pi_const * a)) x).
(** The sum of 418.9829 - x sin (sqrt |x|) *)
Definition schwefel_real (x : list R) : R :=
  real_sum (map (fun a => Binary.B2R 53 1024 schwefel_const - a * sin (sqrt (Rabs a))) x).

(** What a cosine of floating point numbers has to fulfil. *)
Definition cos_bounded {prec emax} (cos : bfloat prec emax -> bfloat prec emax) : Prop :=
  forall z, is_finite z = true -> is_finite (cos z) = true /\ Rabs (Binary.B2R prec emax (cos z)) <= 1.
Definition cos_zero {prec emax} {Hp : Prec_gt_0 prec} {He : Prec_lt_emax prec emax}
    (cos : bfloat prec emax -> bfloat prec emax) : Prop :=
  forall z, is_finite z = true -> Binary.B2R prec emax z = 0 -> cos z = float_count 1.
(** A cosine that is right to three decimals between -1 and 1. *)
Definition cos_near {prec emax} (cosine : bfloat prec emax -> bfloat prec emax) : Prop :=
  forall z, is_finite z = true -> Rabs (Binary.B2R prec emax z) <= 1 ->
    Rabs (Binary.B2R prec emax (cosine z) - cos (Binary.B2R prec emax z)) <= 1 / 2000.
(** x > 0 *)
Definition strictly_positive {prec emax} (x : bfloat prec emax) : Prop := ltb (Binary.B754_zero false) x = true.
(** A finite number between -z and z *)
Definition within {prec emax} (z : Z) (x : bfloat prec emax) : Prop :=
  is_finite x = true /\ Rabs (Binary.B2R prec emax x) <= IZR z.
