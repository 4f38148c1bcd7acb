(** * Specification vocabulary: configurations made of the components of the library *)

From Coq Require Import List Arith ZArith Bool.
From Flocq Require Import Core.FLX IEEE754.BinarySingleNaN.
From Verif Require Import Base FloatModel Rng GaModel GaComponents PsoModel PsoComponents StopModel SpecBox SpecTotal.
Import ListNotations.

(** [I ph i], kept in phase [ph] of iteration [i], says nothing about the random generator
    and holds on when time passes. *)
Definition lasting {U} (L : lens U rng) (I : phase -> nat -> U -> Prop) : Prop :=
  (forall i u, I Running i u -> I Running (i + 1) u) /\
  forall ph i r u, I ph i u -> I ph i (lput L r u).

Section PsoStandard.
  Context {prec emax : Z} {Hp : Prec_gt_0 prec} {He : Prec_lt_emax prec emax}.
  Variables (np : nan_policy prec emax) (np32 : nan_policy 24 128) (np64 : nan_policy 53 1024).
  Context {SA : Sampler (bfloat prec emax)} {U : Type}.
  Notation F := (bfloat prec emax).
  #[local] Hint Extern 0 (FloatTrait (bfloat prec emax)) => exact (FloatIEEE np) : typeclass_instances.

  (** [L]: the random generator, a part of the environment. *)
  Variable L : lens U rng.

  (** One of the four velocity calculators, with any parameters and any table of weights. *)
  Inductive standard_calc : (swarm F -> particle F -> comp U (list F)) -> Prop :=
  | std_classic phi_p phi_g :
      standard_calc (fun s p => zoom L (classic_velocity np32 phi_p phi_g s p))
  | std_canonical phi_p phi_g xi :
      standard_calc (fun s p => zoom L (canonical_velocity np32 phi_p phi_g xi s p))
  | std_negative k :
      standard_calc (fun s p => zoom L (negative_velocity np64 k s p))
  | std_inertia phi_p phi_g weight :
      standard_calc (inertia_velocity np32 L phi_p phi_g (fun t => cret (weight t))).

  (** MaxVelocityAbs, or MaxVelocityDimensions for [d] dimensions. *)
  Inductive standard_post_velocity (d : nat) : (list F -> comp U (list F)) -> Prop :=
  | std_max_abs limit : standard_post_velocity d (fun v => cret (max_velocity_abs limit v))
  | std_max_dimensions limits : length limits = d ->
      standard_post_velocity d (fun v => cpure (max_velocity_dimensions limits v)).

  (** MoveToBoundary or RandomTeleport, for [d] dimensions. *)
  Inductive standard_post_move (d : nat) : (list F -> comp U (list F)) -> Prop :=
  | std_boundary intervals : length intervals = d ->
      standard_post_move d (fun x => cpure (move_to_boundary intervals x))
  | std_teleport intervals p rt : length intervals = d -> random_teleport_new intervals p = Ret rt ->
      standard_post_move d (fun x => zoom L (random_teleport_post_move np32 rt x)).
End PsoStandard.

(** What MaxIterations(k) and CompositeAny(Threshold(t), MaxIterations(k)) answer. *)
Definition max_answers {T} (k : nat) (q : alg_state T) (b : bool) : Prop := b = true <-> k <= as_iter q.
Definition any_answers {T} (t : f64) (k : nat) (q : alg_state T) (b : bool) : Prop :=
  b = true <-> k <= as_iter q \/ exists x v, as_best q = Some (x, v) /\ leb v t = true.

(** Intervals the initializers accept: lower < upper, and (f64) a finite width. *)
Definition good_intervals64 (np64 : nan_policy 53 1024) (box : list (f64 * f64)) : Prop :=
  forall lo hi, In (lo, hi) box -> ltb lo hi = true /\ is_finite (b_sub np64 hi lo) = true.
Definition good_intervals32 (box : list (f32 * f32)) : Prop :=
  forall lo hi, In (lo, hi) box -> ltb lo hi = true /\ is_finite lo = true /\ is_finite hi = true.

(** ZeroVelocityInitializer or RandomVelocityInitializer, for [n] particles of [d] dimensions. *)
Inductive standard_velocities64 {U} (np64 : nan_policy 53 1024) (L : lens U rng) (d n : nat) :
  comp U (list (list f64)) -> Prop :=
| std_zero64 : standard_velocities64 np64 L d n (cret (@zero_velocities f64 (FloatIEEE np64) d n))
| std_random64 intervals : length intervals = d -> good_intervals64 np64 intervals ->
    standard_velocities64 np64 L d n (zoom L (@random_vectors f64 NumGene64 np64 intervals n)).
Inductive standard_velocities32 {U} (np64 : nan_policy 53 1024) (np32 : nan_policy 24 128)
  (L : lens U rng) (d n : nat) : comp U (list (list f32)) -> Prop :=
| std_zero32 : standard_velocities32 np64 np32 L d n (cret (@zero_velocities f32 (FloatIEEE np32) d n))
| std_random32 intervals : length intervals = d -> good_intervals32 intervals ->
    standard_velocities32 np64 np32 L d n (zoom L (@random_vectors f32 (NumGene32 np64 np32) np64 intervals n)).

(** ** The genetic optimizer *)
Section GaStandard.
  Context {prec emax : Z} {Hp : Prec_gt_0 prec} {He : Prec_lt_emax prec emax}.
  Variable np : nan_policy prec emax.
  Context {LM : Libm (bfloat prec emax)} {FD : FloatDecode (bfloat prec emax)} {U : Type}.
  Notation F := (bfloat prec emax).
  #[local] Hint Extern 0 (FloatTrait (bfloat prec emax)) => exact (FloatIEEE np) : typeclass_instances.
  Variable L : lens U rng.

  (** RandomPairing, or Tournament with families of two. *)
  Inductive standard_pairing : (population (list F) -> comp U (list (list nat))) -> Prop :=
  | std_random_pairing : standard_pairing (fun p => zoom L (random_pairing p))
  | std_tournament t : partners_count t = 2 -> standard_pairing (fun p => zoom L (tournament_pairs t p)).

  (** One of the four crosses of single genes; [bitwise] is CrossBitwise of this float type. *)
  Inductive standard_single_cross (bitwise : bool -> list F -> comp rng (list F))
    : (list F -> comp U (list F)) -> Prop :=
  | std_cross_exp dbg : standard_single_cross bitwise (fun parents => zoom L (float_cross_exp dbg parents))
  | std_cross_bitwise dbg : standard_single_cross bitwise (fun parents => zoom L (bitwise dbg parents))
  | std_cross_mean : standard_single_cross bitwise (fun parents => cpure (@cross_mean F NumOpsFloat parents))
  | std_cross_geometric : standard_single_cross bitwise (fun parents => cpure (cross_geometric_mean parents)).

  (** KillFitnessNaN, LimitPopulation(n > 0), or CheckChromoInterval for the same box. *)
  Inductive standard_selection (box : list (F * F))
    : (population (list F) -> comp U (list (individual (list F)))) -> Prop :=
  | std_kill_nan : standard_selection box (fun p => cret (kill_fitness_nan p))
  | std_limit n : 0 < n -> standard_selection box (fun p => cpure (limit_population n p))
  | std_interval : standard_selection box (fun p => cpure (selection_interval box p)).
End GaStandard.
