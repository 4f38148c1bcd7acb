(** * The random generator: [rand::thread_rng] and [rand::distributions::Uniform]

    The rand crate (0.7.3) is a dependency, not part of the code base: it is
    modelled by its contract.  [ThreadRng] is an arbitrary infinite stream of
    raw integers, and sampling a range returns *some* element of the range, every
    element being returned for some stream.  All theorems quantify over the
    stream, hence over every possible sequence of random outcomes. *)

From Coq Require Import List Arith ZArith Bool.
From Verif Require Import Base FloatModel.
Import ListNotations.

Definition rng : Type := nat -> Z.

(** One raw draw: head of the stream, the rest remains. *)
Definition draw : comp rng Z := fun r => (Ret (r 0), fun n => r (S n)).

(** [Uniform::new(lo, hi)] for usize: panics unless [lo < hi]. *)
Definition uniform_usize (lo hi : nat) : outcome (nat * nat) :=
  if lo <? hi then Ret (lo, hi) else Panic.

(** [between.sample(rng)] for [Uniform::new(lo, hi)]: some [n] with [lo <= n < hi]. *)
Definition sample_usize (d : nat * nat) : comp rng nat :=
  do z <- draw ;; cret (fst d + Z.to_nat (z mod Z.of_nat (snd d - fst d))).

(** Interprets a raw draw as an arbitrary value of a float type. *)
Class Sampler (T : Type) := fraw : Z -> T.
#[global] Instance Sampler64 : Sampler f64 := fun z => from_bits64 (z mod 2 ^ 64).
#[global] Instance Sampler32 : Sampler f32 := fun z => from_bits32 (z mod 2 ^ 32).

Section FloatUniform.
  Context {T : Type} {FT : FloatTrait T} {SA : Sampler T}.

  (** [Uniform::new_inclusive(lo, hi)] for floats: panics unless [lo <= hi] and
      both are finite. *)
  Definition uniform_incl (lo hi : T) : outcome (T * T) :=
    if fle lo hi && (ffinite lo && ffinite hi) then Ret (lo, hi) else Panic.
  (** [Uniform::new(lo, hi)] for floats: panics unless [lo < hi] and both are
      finite. *)
  Definition uniform_excl (lo hi : T) : outcome (T * T) :=
    if flt lo hi && (ffinite lo && ffinite hi) then Ret (lo, hi) else Panic.

  (** Some [x] with [lo <= x <= hi], provided the width [hi - lo] does not
      overflow; otherwise rand's arithmetic breaks down and anything may come
      out. *)
  Definition sample_incl (d : T * T) : comp rng T :=
    do z <- draw ;;
    let x := fraw z in
    cret (if ffinite (fsub (snd d) (fst d))
          then if fle (fst d) x && fle x (snd d) then x else fst d
          else x).

  (** Some [x] with [lo <= x < hi] (same proviso). *)
  Definition sample_excl (d : T * T) : comp rng T :=
    do z <- draw ;;
    let x := fraw z in
    cret (if ffinite (fsub (snd d) (fst d))
          then if fle (fst d) x && flt x (snd d) then x else fst d
          else x).
End FloatUniform.
