(** * Specification vocabulary for constructors and setters *)

From Coq Require Import List.
From Verif Require Import Base FloatModel GaModel PsoModel.
Import ListNotations.

(** The replaceable parts of a [GeneticOptimizer]. *)
Inductive ga_part := GPairing | GCross | GMutation | GSelections | GPreBirths | GStop | GLoggers.
(** [c'] is [c] except perhaps for the part [w]. *)
Definition ga_same_except {U T} (w : ga_part) (c c' : ga_config U T) : Prop :=
  ga_goal c' = ga_goal c /\ ga_creator c' = ga_creator c /\
  (w <> GPairing -> ga_pairing c' = ga_pairing c) /\
  (w <> GCross -> ga_cross c' = ga_cross c) /\
  (w <> GMutation -> ga_mutation c' = ga_mutation c) /\
  (w <> GSelections -> ga_selections c' = ga_selections c) /\
  (w <> GPreBirths -> ga_pre_births c' = ga_pre_births c) /\
  (w <> GStop -> ga_stop c' = ga_stop c) /\
  (w <> GLoggers -> ga_loggers c' = ga_loggers c).

Inductive pso_part := PStop | PLoggers | PMoves | PVelocity.
Definition pso_same_except {U T} (w : pso_part) (c c' : pso_config U T) : Prop :=
  pso_goal c' = pso_goal c /\ pso_coordinates c' = pso_coordinates c /\
  pso_velocities c' = pso_velocities c /\ pso_calc c' = pso_calc c /\
  (w <> PStop -> pso_stop c' = pso_stop c) /\
  (w <> PLoggers -> pso_loggers c' = pso_loggers c) /\
  (w <> PMoves -> pso_post_move c' = pso_post_move c) /\
  (w <> PVelocity -> pso_post_velocity c' = pso_post_velocity c).
