(** * Specification vocabulary: how fast the particles of a swarm fly *)

From Coq Require Import List Arith ZArith Bool Reals.
From Flocq Require Import Core IEEE754.BinarySingleNaN.
From Verif Require Import Base FloatModel GaModel PsoModel PsoComponents SpecGa SpecPso SpecReal SpecSpeed.
Import ListNotations.
Local Open Scope R_scope.

Section Pace.
  Context {prec emax : Z}.
  Notation F := (bfloat prec emax).
  Notation B2R := (Binary.B2R prec emax).

  (** [d] finite components of absolute value at most [m]. *)
  Definition bounded (d : nat) (m : R) (v : list F) : Prop :=
    length v = d /\ Forall (fun x => is_finite x = true /\ Rabs (B2R x) <= m) v.
  (** Finite and of absolute value at most [2^e]. *)
  Definition at_most (x : F) (e : Z) : Prop := is_finite x = true /\ Rabs (B2R x) <= bpow radix2 e.
  (** Euclidean length of a velocity. *)
  Definition speed (v : list F) : R := length2 (map B2R v).
  (** [d] finite components and length at most [m]. *)
  Definition slow (d : nat) (m : R) (v : list F) : Prop :=
    length v = d /\ Forall (fun x => is_finite x = true) v /\ speed v <= m.

  (** All points a swarm knows have coordinates of absolute value at most [a]; all
      velocities are as [V] says. *)
  Definition swarm_where (d : nat) (a : R) (V : list F -> Prop) (s : swarm F) : Prop :=
    (forall p, In p (particles s) ->
       bounded d a (coordinates p) /\ bounded d a (best_personal_coordinates p) /\
       bounded d a (worst_personal_coordinates p) /\ V (velocity p)) /\
    (forall b, best_particle s = Some b \/ worst_particle s = Some b -> bounded d a (coordinates b)).

  (** A velocity calculator that answers with components up to [w] when the coordinates
      are at most [a] and the velocities at most [m]. *)
  Definition tame {U} (d : nat) (a m w : R) (calc : swarm F -> particle F -> comp U (list F)) : Prop :=
    forall s p u v u', swarm_where d a (bounded d m) s -> In p (particles s) -> calc s p u = (Ret v, u') -> bounded d w v.

  (** Box with all bounds between [-a] and [a]. *)
  Definition box_within (a : R) (box : list (F * F)) : Prop :=
    Forall (fun i => is_finite (fst i) = true /\ is_finite (snd i) = true /\
                     - a <= B2R (fst i) /\ B2R (fst i) <= B2R (snd i) /\ B2R (snd i) <= a) box.

  (** The velocities of all particles in all swarms that stop checkers and loggers see
      and that the velocity calculator is given. *)
  Definition velocities_seen (V : list F -> Prop) (t : list (pso_event F)) : Prop :=
    forall e s p, In e t -> shows e = Some s -> In p (particles s) -> V (velocity p).

  (** The limit as it is kept by the arithmetic of the format, in [d] dimensions. *)
  Definition rounded_limit (d : nat) (limit : R) : R :=
    (1 + bpow radix2 (- prec)) ^ (d + 5) * (limit + 4 * underflow prec emax d).

  (** An optimizer with a finite speed limit (MaxVelocityAbs) that ends its moves with
      MoveToBoundary, in a box between [-a] and [a], and whose calculator answers with
      components up to [w] while the limit is kept. *)
  Context {Hp : Prec_gt_0 prec} {He : Prec_lt_emax prec emax}.
  Definition limited (np : nan_policy prec emax) {U} (cfg : pso_config U F) (d : nat) (a w : R) (limit : F) (box : list (F * F)) : Prop :=
    is_finite limit = true /\ leb (Binary.B754_zero false) limit = true /\
    length box = d /\ box_within a box /\
    tame d a (rounded_limit d (B2R limit)) w (pso_calc cfg) /\
    pso_post_velocity cfg = [fun v => cret (@max_velocity_abs F (FloatIEEE np) limit v)] /\
    exists moves, pso_post_move cfg = moves ++ [fun x => cpure (@move_to_boundary F (FloatIEEE np) box x)].
End Pace.
