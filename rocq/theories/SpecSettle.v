(** * Specification vocabulary: runs that end because the goal settles *)

From Coq Require Import List Arith ZArith Bool Reals.
From Flocq Require Import Core IEEE754.BinarySingleNaN IEEE754.Binary.
From Verif Require Import Base FloatModel GaModel SpecGa.
Import ListNotations.

(** The checker [c] never goes on when the checker object [stop], which lives in the
    part [l] of the environment, wants to stop: it asks [stop] before it goes on. *)
Definition no_later {U G T} (l : lens U G) (stop : alg_state T -> comp G bool)
    (c : alg_state T -> comp U bool) : Prop :=
  forall s u u', c s u = (Ret false, u') -> stop s (lget l u) = (Ret false, lget l u').

(** No more than [n] steps of [delta] fit between [lo] and [hi]. *)
Definition steps_between (lo hi delta : f64) (n : nat) : Prop :=
  is_finite lo = true /\ is_finite hi = true /\ is_finite delta = true /\
  ltb (b_of_Z 0) delta = true /\
  (Binary.B2R 53 1024 hi - Binary.B2R 53 1024 lo <= INR n * Binary.B2R 53 1024 delta)%R.

(** All goal values of the run lie between [lo] and [hi]. *)
Definition values_between {T S X} (lo hi : f64) (t : list (event T S X)) : Prop :=
  forall x v, evaluated t x v -> leb lo v = true /\ leb v hi = true.
