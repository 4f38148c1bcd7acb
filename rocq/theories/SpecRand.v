(** * Specification vocabulary for randomised components

    The random generator is a stream of raw integers; the [k]-th number drawn
    from a range is a function of the [k]-th element of the stream. *)

From Coq Require Import List Arith ZArith Bool.
From Verif Require Import Base FloatModel Rng.
Import ListNotations.

(** The stream without its first [n] elements. *)
Definition shift (n : nat) (r : rng) : rng := fun k => r (n + k).

(** The [k]-th draw, read as a number of [lo .. hi-1]. *)
Definition drawn (r : rng) (lo hi k : nat) : nat := lo + Z.to_nat (r k mod Z.of_nat (hi - lo)).
(** The [k]-th draw, read as a number of the half-open float range, as a coin and
    as a number of a closed float range (see Rng.v for the contract). *)
Definition drawn_coin (r : rng) (k : nat) : bool := (r k mod 2 =? 0)%Z.
Definition drawn_excl {T} {FT : FloatTrait T} {SA : Sampler T} (lo hi : T) (r : rng) (k : nat) : T :=
  if ffinite (fsub hi lo)
  then if fle lo (fraw (r k)) && flt (fraw (r k)) hi then fraw (r k) else lo
  else fraw (r k).
Definition drawn_incl {T} {FT : FloatTrait T} {SA : Sampler T} (lo hi : T) (r : rng) (k : nat) : T :=
  if ffinite (fsub hi lo)
  then if fle lo (fraw (r k)) && fle (fraw (r k)) hi then fraw (r k) else lo
  else fraw (r k).
