(** * Specification vocabulary: how much the example programs do *)

From Coq Require Import List Arith ZArith Bool.
From Verif Require Import Base FloatModel GaModel PsoModel SpecGa SpecPso SpecBox.
Import ListNotations.

Notation point := (option (list f32 * f64)).

(** A genetic run with [n] first chromosomes and at most [m] children in a generation: the
    goal is only asked about points of the box, however the run goes.  If it ends after
    [i] iterations, the goal was asked at least [n] and at most [n + m * i] times, and the
    population never had more than [n + 1] individuals when the stop checker saw it. *)
Definition ga_works {U} (n m : nat) (box : list (f32 * f32))
  (run : outcome (point * population (list f32)) * U * list (ga_event (list f32))) : Prop :=
  let '(o, _, t) := run in
  Forall (in_box box) (evals t) /\
  forall res p, o = Ret (res, p) ->
    n <= length (evals t) <= n + m * iteration p /\
    length (individuals p) <= n + 1 /\
    Forall (fun q => length (individuals q) <= n + 1) (consulted t).

(** The same for find_min followed by next_iterations. *)
Definition ga_works_twice {U} (n m : nat) (box : list (f32 * f32))
  (run : outcome (point * population (list f32) * (point * population (list f32))) * U * list (ga_event (list f32))) : Prop :=
  let '(o, _, t) := run in
  Forall (in_box box) (evals t) /\
  forall res1 p1 res2 p2, o = Ret (res1, p1, (res2, p2)) ->
    iteration p1 <= iteration p2 /\
    n <= length (evals t) <= n + m * iteration p2 /\
    length (individuals p1) <= n + 1 /\ length (individuals p2) <= n + 1 /\
    Forall (fun q => length (individuals q) <= n + 1) (consulted t).

(** A swarm run with [n] particles: if it ends after [i] iterations, the goal was asked
    exactly [n * (i + 1)] times. *)
Definition pso_works {U} (n : nat) (box : list (f32 * f32))
  (run : outcome (point * swarm f32) * U * list (pso_event f32)) : Prop :=
  let '(o, _, t) := run in
  Forall (in_box box) (evals t) /\
  forall res s, o = Ret (res, s) ->
    length (particles s) = n /\ length (evals t) = n * (sw_iteration s + 1) /\
    Forall (fun q => length (particles q) = n) (consulted t).
Definition pso_works_twice {U} (n : nat) (box : list (f32 * f32))
  (run : outcome (point * swarm f32 * (point * swarm f32)) * U * list (pso_event f32)) : Prop :=
  let '(o, _, t) := run in
  Forall (in_box box) (evals t) /\
  forall res1 s1 res2 s2, o = Ret (res1, s1, (res2, s2)) ->
    length (particles s1) = n /\ length (particles s2) = n /\
    sw_iteration s1 <= sw_iteration s2 /\ length (evals t) = n * (sw_iteration s2 + 1) /\
    Forall (fun q => length (particles q) = n) (consulted t).
