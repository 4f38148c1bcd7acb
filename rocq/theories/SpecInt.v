(** * Specification vocabulary for integer genes *)

From Coq Require Import List Arith ZArith Bool.
From Verif Require Import Base FloatModel.
Import ListNotations.
Local Open Scope Z_scope.

Definition zsum (l : list Z) : Z := fold_right Z.add 0 l.
(** Every sum of the first [k] numbers lies between [mn] and [mx]. *)
Definition sums_fit (mn mx : Z) (l : list Z) : Prop :=
  forall k, mn <= zsum (firstn k l) <= mx.
(** [x] rounded toward zero to an integer. *)
Definition toward_zero (x : f64) : Z := Flocq.IEEE754.Binary.Btrunc 53 1024 x.
