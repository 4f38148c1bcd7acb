(** * When a test passes *)

From Coq Require Import String.
From Verif Require Import Base Rng.

(** A test passes when it returns without a panic; one marked [#[should_panic]]
    passes when it panics. *)
Definition passes (should_panic : bool) (o : outcome unit) : Prop :=
  if should_panic then o = Panic else o = Ret tt.
Definition plain_passes (t : string * bool * outcome unit) : Prop := passes (snd (fst t)) (snd t).
(** A test that draws random numbers passes when it does so whatever it draws. *)
Definition random_passes (t : string * bool * comp rng unit) : Prop :=
  forall r, passes (snd (fst t)) (fst (snd t r)).
