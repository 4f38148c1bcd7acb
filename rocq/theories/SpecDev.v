(** * Specification vocabulary for the accuracy of standard deviations *)

From Coq Require Import List Arith ZArith Bool Reals.
From Flocq Require Import Core IEEE754.BinarySingleNaN IEEE754.Binary.
From Verif Require Import Base FloatModel SpecStat SpecMean SpecSpeed.
Import ListNotations.
Local Open Scope R_scope.

(** The sample standard deviation of real numbers. *)
Definition real_mean (rs : list R) : R := real_sum rs / INR (length rs).
Definition real_deviation (rs : list R) : R :=
  sqrt (real_sum (map (fun x => Rsqr (x - real_mean rs)) rs) / INR (length rs - 1)).

Section Dev.
  Context {prec emax : Z} {Hp : Prec_gt_0 prec} {He : Prec_lt_emax prec emax}.
  Notation F := (bfloat prec emax).
  Notation B2R := (Binary.B2R prec emax).
  (** The error of the computed mean (SpecMean.near_mean). *)
  Definition mean_error (l : list F) : R :=
    ((1 + roundoff (prec := prec)) ^ length l - 1) * (total l / INR (length l)) + bpow radix2 (3 - emax - prec) / 2.
  (** [d] is the standard deviation of [l] up to [n + 5] relative roundings, twice
      the error of the mean and the underflow of the squares. *)
  Definition near_deviation (d : F) (l : list F) : Prop :=
    close prec (length l + 5) (2 * mean_error l + 2 * underflow prec emax 1)
      (B2R d) (real_deviation (map B2R l)).
End Dev.
