(** * Specification vocabulary for the accuracy of the computed test functions

    The documented formulas of paraboloid and rosenbrock over real numbers are those of
    SpecTest.v; those of rastrigin and schwefel follow, with the number pi and the decimal. *)

From Coq Require Import List Arith ZArith Reals.
From Flocq Require Import Core IEEE754.BinarySingleNaN IEEE754.Binary.
From Verif Require Import Base FloatModel SpecStat SpecMean SpecTest.
Local Open Scope R_scope.

Definition rastrigin_doc (x : list R) : R := real_sum (map (fun a => a² + 10 - 10 * cos (2 * PI * a)) x).
Definition schwefel_doc (x : list R) : R := real_sum (map (fun a => 4189829 / 10 ^ 4 - a * sin (sqrt (Rabs a))) x).

(** A sine or a cosine of floating point numbers that is off by at most [e] on the finite
    numbers between [-r] and [r], and never outside -1 and 1. *)
Definition trig_near {prec emax} (f : R -> R) (e r : R) (g : bfloat prec emax -> bfloat prec emax) : Prop :=
  cos_bounded g /\
  forall z, is_finite z = true -> Rabs (Binary.B2R prec emax z) <= r ->
    Rabs (Binary.B2R prec emax (g z) - f (Binary.B2R prec emax z)) <= e.

Section Accuracy.
  Context (prec emax : Z).
  Notation u := (roundoff (prec := prec)).
  (** Half the smallest positive float: what a product may lose by underflow. *)
  Definition tiny : R := bpow radix2 (3 - emax - prec) / 2.
  (** Rosenbrock on [m + 1] arguments within [b]: what the square root of the value may lose
      by the rounding of x0 * x0, and by underflow. *)
  Definition rosenbrock_slack (m : nat) (b : R) : R :=
    sqrt (INR (2 * m)) * (10 * (u * b² + tiny)) + sqrt (INR m * (102 * tiny)).
  (** Rastrigin on [n] arguments within [b], with a cosine off by [e] and
      a literal of pi off by 2 units of its last digit. *)
  Definition rastrigin_error (n : nat) (b e : R) : R :=
    INR n * (10 * e + 40 * b / 10 ^ 14 + u * (INR (2 * n + 2) * (b² + 20) + 160 * b) + 12 * tiny).
  (** Schwefel on [n] arguments within [b], with a sine off by [e]. *)
  Definition schwefel_error (n : nat) (b e : R) : R :=
    INR n * (b * e + 1 / 10 ^ 13 + u * (b * sqrt b + INR (n + 2) * b + 1257) + 2 * tiny).
End Accuracy.

(** The value [v] reported for the point [x], against the documented function [f]. *)
Definition off_by (k : R) (f : list R -> R) (x : list f32) (v : f64) : Prop :=
  Rabs (Binary.B2R 53 1024 v - f (map (Binary.B2R 24 128) x)) <= k.
(** Right to six significant digits. *)
Definition right_to_six (f : list R -> R) (x : list f32) (v : f64) : Prop :=
  off_by (f (map (Binary.B2R 24 128) x) / 10 ^ 6 + 1 / 10 ^ 40) f x v.
(** The square root is right to six significant digits, or to five decimals. *)
Definition root_right (f : list R -> R) (x : list f32) (v : f64) : Prop :=
  Rabs (sqrt (Binary.B2R 53 1024 v) - sqrt (f (map (Binary.B2R 24 128) x))) <=
    sqrt (f (map (Binary.B2R 24 128) x)) / 10 ^ 6 + 5 / 10 ^ 6.
