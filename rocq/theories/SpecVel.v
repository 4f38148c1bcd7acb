(** * Specification vocabulary for the velocity calculators *)

From Coq Require Import List Arith ZArith Bool.
From Verif Require Import Base FloatModel Rng SpecRand PsoModel SpecPso.
Import ListNotations.

Section Draws.
  Context {T : Type} {FT : FloatTrait T}.
  (** The [k]-th draw, read as a number between 0 and 1: the calculators draw
      f32 numbers (NegativeReinforcement: f64) and convert them to [T]. *)
  Definition unit32 (np32 : nan_policy 24 128) (r : rng) (k : nat) : T :=
    fof_f32 (@drawn_incl f32 (FloatIEEE np32) _ (b_of_Z 0) (b_of_Z 1) r k).
  Definition unit64 (np64 : nan_policy 53 1024) (r : rng) (k : nat) : T :=
    fof_f64 (@drawn_incl f64 (FloatIEEE np64) _ (b_of_Z 0) (b_of_Z 1) r k).
End Draws.

(** [v] has at least one component per coordinate of [p]. *)
Definition covers {T} (p : particle T) (v : list T) : Prop := length (coordinates p) <= length v.

(** The same number, or both not a number. *)
Definition same_number {prec emax} (x y : bfloat prec emax) : Prop :=
  partial_cmp x y = Some Eq \/ (is_nan x = true /\ is_nan y = true).

(** [a] and [x] are the same finite point. *)
Definition same_point {prec emax} (a x : list (bfloat prec emax)) : Prop :=
  Forall2 (fun u v => is_finite u = true /\ is_finite v = true /\ partial_cmp u v = Some Eq) a x.

(** The swarm has a best particle and all vectors have enough components. *)
Definition best_usable {T} (s : swarm T) (p : particle T) : Prop :=
  exists b, best_particle s = Some b /\
    covers p (velocity p) /\ covers p (best_personal_coordinates p) /\ covers p (coordinates b).
(** ... a best and a worst particle, of all time ([bg], [wg]) and among the
    present particles ([bc], [wc]). *)
Definition six_usable {T} (s : swarm T) (p : particle T) : Prop :=
  exists bg wg bc wc, best_particle s = Some bg /\ worst_particle s = Some wg /\
    first_least value (particles s) bc /\ last_greatest value (particles s) wc /\
    covers p (velocity p) /\ covers p (best_personal_coordinates p) /\ covers p (worst_personal_coordinates p) /\
    covers p (coordinates bg) /\ covers p (coordinates wg) /\
    covers p (coordinates bc) /\ covers p (coordinates wc).
