(** * Specification vocabulary: runs while a condition on the world holds *)

From Coq Require Import List Arith ZArith Bool.
From Verif Require Import Base FloatModel Rng GaModel SpecGa SpecPossible SpecBits SpecClosed.
Import ListNotations.

(** The condition [K] survives every call of [m]. *)
Definition steady {U A} (K : U -> Prop) (m : comp U A) : Prop := forall u, K u -> K (snd (m u)).

(** [K] survives every call that the optimizer makes after the first population. *)
Definition all_steady {U T} (K : U -> Prop) (cfg : ga_config U T) : Prop :=
  (forall x, steady K (ga_goal cfg x)) /\ (forall s, steady K (ga_stop cfg s)) /\
  (forall p, steady K (ga_pairing cfg p)) /\ (forall xs, steady K (ga_cross cfg xs)) /\ (forall x, steady K (ga_mutation cfg x)) /\
  (forall f p xs, In f (ga_pre_births cfg) -> steady K (f p xs)) /\
  (forall f p, In f (ga_selections cfg) -> steady K (f p)) /\
  (forall l s, In l (ga_loggers cfg) -> steady K (lg_start l s) /\ steady K (lg_resume l s) /\ steady K (lg_next l s) /\ steady K (lg_finish l s)).

(** While [K] holds, breeding does not leave [S] (cf. [closed]). *)
Definition closed_while {U T} (K : U -> Prop) (S : T -> Prop) (cfg : ga_config U T) : Prop :=
  (forall xs u ys u', K u -> Forall S xs -> ga_cross cfg xs u = (Ret ys, u') -> Forall S ys) /\
  (forall x u y u', K u -> S x -> ga_mutation cfg x u = (Ret y, u') -> S y) /\
  (forall f p xs u ys u', In f (ga_pre_births cfg) -> K u -> inside S p -> Forall S xs -> f p xs u = (Ret ys, u') -> Forall S ys) /\
  (forall f p u l u', In f (ga_selections cfg) -> K u -> inside S p -> f p u = (Ret l, u') -> Forall (fun i => S (chromosomes i)) l).

(** Every number of the stream, read as a float, lies between [p] and 100. *)
Definition unlucky (p : f64) (r : rng) : Prop :=
  forall k, leb p (from_bits64 (r k mod 2 ^ 64)) = true /\ ltb (from_bits64 (r k mod 2 ^ 64)) (b_of_Z 100) = true.

(** There are first draws after which, if the later ones are unlucky for the probability [p], the run asks the goal only
    about [q] and returns nothing but [q]. *)
Definition can_stay {U W S} (main : nat -> rng -> W -> outcome (option (list f32 * f64) * S) * U * list (ga_event (list f32)))
  (p : f64) (q : list f32) : Prop :=
  exists zs, forall fuel rest w o u' t, unlucky p rest -> main fuel (prepend zs rest) w = (o, u', t) ->
    Forall (eq q) (evals t) /\ forall x v s', o = Ret (Some (x, v), s') -> x = q.

(** It also returns, if the fuel is more than [enough]. *)
Definition can_return {U W S} (main : nat -> rng -> W -> outcome (option (list f32 * f64) * S) * U * list (ga_event (list f32)))
  (p : f64) (enough : nat) (q : list f32) : Prop :=
  exists zs, forall fuel rest w, enough < fuel -> unlucky p rest ->
    exists v s' u' t, main fuel (prepend zs rest) w = (Ret (Some (q, v), s'), u', t) /\ Forall (eq q) (evals t).

(** Points without subnormal coordinates. *)
Definition ordinary (q : list f32) : Prop := Forall zero_or_normal q.
