(** * Specification vocabulary: full populations with values up to a bound *)

From Coq Require Import List Arith ZArith Bool.
From Verif Require Import Base FloatModel Rng GaModel SpecGa SpecBox SpecPossible.
Import ListNotations.

(** A finite value of at most [c]. *)
Definition up_to {T} (c : f64) (i : individual T) : Prop := is_finite (fitness i) = true /\ leb (fitness i) c = true.

(** [n] individuals, all of them alive, with values up to [c]. *)
Definition full {T} (n : nat) (c : f64) (p : population T) : Prop :=
  length (individuals p) = n /\
  (forall i, In i (individuals p) -> alive i = true /\ up_to c i) /\
  (forall i, best_individual p = Some i \/ worst_individual p = Some i -> up_to c i).

(** The first population was made of [xs]. *)
Definition started_from {T} (t : list (ga_event T)) (xs : list T) : Prop := In (ECall (CCreate xs)) t.

(** [v] is at most the value of [f] at some point of [xs]. *)
Definition no_worse_than_worst {T} (f : T -> outcome f64) (xs : list T) (v : f64) : Prop :=
  exists x w, In x xs /\ f x = Ret w /\ leb v w = true.

(** For some first draws, whatever is drawn later, no result is worse than [q]. *)
Definition can_reach {T U W S} (main : nat -> rng -> W -> outcome (option (T * f64) * S) * U * list (ga_event T)) (f : T -> outcome f64) (q : T) : Prop :=
  exists zs, forall fuel rest w x v s' u' t, main fuel (prepend zs rest) w = (Ret (Some (x, v), s'), u', t) ->
    exists vq, f q = Ret vq /\ leb v vq = true.

(** No result is worse than the worst of the [n] first points, and every point of the box can be reached. *)
Definition improves {U W S} (main : nat -> rng -> W -> outcome (option (list f32 * f64) * S) * U * list (ga_event (list f32)))
  (f : list f32 -> outcome f64) (n : nat) (box : list (f32 * f32)) : Prop :=
  (forall fuel r w x v s' u' t, main fuel r w = (Ret (Some (x, v), s'), u', t) ->
     exists xs, started_from t xs /\ length xs = n /\ Forall (in_box box) xs /\ no_worse_than_worst f xs v) /\
  (forall q, in_box box q -> can_reach main f q).
