(** * Specification vocabulary: a program that sees a single point *)

From Coq Require Import List ZArith.
From Verif Require Import Base FloatModel GaModel PsoModel SpecGa SpecPso SpecVel SpecPossible Rng.
Import ListNotations.

(** With the first draws [zs], whatever is drawn later and whatever the rest of the world is: the goal
    function is only ever asked about the point [q] (up to the signs of zeros), and if
    there is a result it is [q]. *)
Definition only_sees {U W} (main : rng -> W -> outcome (option (list f32 * f64) * swarm f32) * U * list (pso_event f32))
  (q : list f32) (zs : list Z) : Prop :=
  forall rest w o u' t, main (prepend zs rest) w = (o, u', t) ->
    (forall y v, evaluated t y v -> same_point y q) /\
    (forall x v s', o = Ret (Some (x, v), s') -> same_point x q).
