(** * Specification vocabulary for the accuracy of lengths of vectors *)

From Coq Require Import List Arith ZArith Reals.
From Flocq Require Import Core.
From Verif Require Import Base FloatModel SpecMean.
Local Open Scope R_scope.

Section Close.
  Context (prec emax : Z).
  (** What the [n] squares of a sum of squares may lose by underflow, after the
      square root: each square loses at most half the smallest positive float. *)
  Definition underflow (n : nat) : R := sqrt (INR n * (bpow radix2 (3 - emax - prec) / 2)).
  (** Two numbers that are not negative differ by at most [k] relative roundings
      and the absolute amount [s]. *)
  Definition close (k : nat) (s a b : R) : Prop :=
    a <= (1 + bpow radix2 (- prec)) ^ k * (b + s) /\ b <= (1 + bpow radix2 (- prec)) ^ k * (a + s).
End Close.
