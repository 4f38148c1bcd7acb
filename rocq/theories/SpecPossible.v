(** * Specification vocabulary: what the random components can do

    The theorems about random components elsewhere say what can *not* happen: they hold
    for every stream of random numbers.  Here is the converse: an outcome is possible when
    some finite sequence of draws leads to it, whatever is drawn later. *)

From Coq Require Import List Arith ZArith Bool.
From Flocq Require Import Core.FLX IEEE754.BinarySingleNaN.
From Verif Require Import Base FloatModel Rng.
Import ListNotations.

(** First the numbers of [zs] are drawn, then those of [r]. *)
Fixpoint prepend (zs : list Z) (r : rng) : rng :=
  match zs with
  | [] => r
  | z :: zs' => fun n => match n with O => z | S m => prepend zs' r m end
  end.

(** Some finite sequence of draws makes [c] return [a], and nothing else is drawn. *)
Definition possible {A} (c : comp rng A) (a : A) : Prop :=
  exists zs, forall r, c (prepend zs r) = (Ret a, r).

(** Numbers that a draw between 0 and 1 can give. *)
Definition unit_number {prec emax} {Hp : Prec_gt_0 prec} {He : Prec_lt_emax prec emax} (x : bfloat prec emax) : Prop :=
  leb (b_of_Z 0) x = true /\ leb x (b_of_Z 1) = true.
