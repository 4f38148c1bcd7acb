(** * Specification vocabulary for the accuracy of means *)

From Coq Require Import List Arith ZArith Bool Reals.
From Flocq Require Import Core IEEE754.BinarySingleNaN IEEE754.Binary.
From Verif Require Import Base FloatModel SpecStat.
Import ListNotations.
Local Open Scope R_scope.

Section Mean.
  Context {prec emax : Z} {Hp : Prec_gt_0 prec} {He : Prec_lt_emax prec emax}.
  Notation F := (bfloat prec emax).
  Notation B2R := (Binary.B2R prec emax).
  (** Half the distance between 1 and the next float. *)
  Definition roundoff : R := bpow radix2 (- prec).
  (** The sum of the absolute values. *)
  Definition total (l : list F) : R := real_sum (map (fun x : F => Rabs (B2R x)) l).
  (** Finite numbers, not too many to count, whose sum stays clear of overflow. *)
  Definition summable (l : list F) : Prop :=
    (forall x, In x l -> is_finite x = true) /\ (Z.of_nat (length l) <= 2 ^ prec)%Z /\
    (1 + roundoff) ^ (length l - 1) * total l < bpow radix2 emax.
  (** [c] is the mean of [l] up to the rounding of its [n] operations and of a
      subnormal quotient. *)
  Definition near_mean (c : F) (l : list F) : Prop :=
    is_finite c = true /\
    Rabs (B2R c - real_sum (map B2R l) / INR (length l))
      <= ((1 + roundoff) ^ length l - 1) * (total l / INR (length l)) + bpow radix2 (3 - emax - prec) / 2.
End Mean.
