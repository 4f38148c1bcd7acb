(** * Specification vocabulary: a coordinate in which a swarm rests *)

From Coq Require Import List Arith ZArith Bool.
From Verif Require Import Base FloatModel GaModel PsoModel SpecGa SpecPso.
Import ListNotations.

Section Rest.
  Context {prec emax : Z}.
  Notation F := (bfloat prec emax).

  (** Component [k] of [x] is the number [c] (zeros of either sign are the same number). *)
  Definition at_number (k : nat) (c : F) (x : list F) : Prop :=
    exists a, nth_error x k = Some a /\ partial_cmp a c = Some Eq.
  Definition still (k : nat) (v : list F) : Prop := exists a, nth_error v k = Some a /\ exists s, a = Binary.B754_zero s.

  (** In coordinate [k] all that the swarm knows is at [c], and nothing moves. *)
  Definition swarm_rests (k : nat) (c : F) (s : swarm F) : Prop :=
    (forall p, In p (particles s) ->
       at_number k c (coordinates p) /\ at_number k c (best_personal_coordinates p) /\
       at_number k c (worst_personal_coordinates p) /\ still k (velocity p)) /\
    (forall b, best_particle s = Some b \/ worst_particle s = Some b -> at_number k c (coordinates b)).

  (** Components that do not disturb the rest. *)
  Definition quiet_calc {U} k c (f : swarm F -> particle F -> comp U (list F)) : Prop :=
    forall s p u v u', swarm_rests k c s -> In p (particles s) -> f s p u = (Ret v, u') -> still k v.
  Definition quiet_velocity {U} k (f : list F -> comp U (list F)) : Prop :=
    forall v u w u', still k v -> f v u = (Ret w, u') -> still k w.
  Definition quiet_move {U} k c (f : list F -> comp U (list F)) : Prop :=
    forall x u y u', at_number k c x -> f x u = (Ret y, u') -> at_number k c y.
  Definition quiet {U} k c (cfg : pso_config U F) : Prop :=
    quiet_calc k c (pso_calc cfg) /\ Forall (quiet_velocity k) (pso_post_velocity cfg) /\
    Forall (quiet_move k c) (pso_post_move cfg).

  (** Every point the goal is asked about, and every swarm that is seen. *)
  Definition rested (k : nat) (c : F) (t : list (pso_event F)) : Prop :=
    (forall x, In (EEval x) t -> at_number k c x) /\
    (forall x y, evaluated t x y -> at_number k c x) /\
    (forall e s, In e t -> shows e = Some s -> swarm_rests k c s).
End Rest.
