(** * Specification vocabulary shared by both optimizers: stopping and resuming *)

From Coq Require Import List Arith ZArith Bool RelationClasses.
From Verif Require Import Base FloatModel GaModel PsoModel SpecGa.
Import ListNotations.

Section Reading.
  Context {T S X : Type}.
  Notation ev := (event T S X).
  (** The questions to the stop checker with their answers. *)
  Fixpoint stops (t : list ev) : list (S * bool) :=
    match t with
    | [] => []
    | EStop s b :: t' => (s, b) :: stops t'
    | _ :: t' => stops t'
    end.
  (** Everything but the loggers and the stop checker: goal calls, their answers,
      and the calls of all other components with what they were given and returned. *)
  Fixpoint work (t : list ev) : list ev :=
    match t with
    | [] => []
    | EStop _ _ :: t' => work t'
    | ELog _ _ _ :: t' => work t'
    | e :: t' => e :: work t'
    end.
End Reading.

(** A component that always answers or panics. *)
Definition ends {U A} (c : comp U A) : Prop := forall u, fst (c u) <> NoFuel.

(** A component that cannot tell [R]-related environments apart. *)
Definition comp_respects {U A} (R : U -> U -> Prop) (c : comp U A) : Prop :=
  forall u1 u2, R u1 u2 ->
    fst (c u1) = fst (c u2) /\ (forall a, fst (c u1) = Ret a -> R (snd (c u1)) (snd (c u2))).
(** A logger that always returns and changes nothing the others could notice. *)
Definition harmless {U T} (R : U -> U -> Prop) (l : logger U T) : Prop :=
  forall k s u, fst (told_by k l s u) = Ret tt /\ R u (snd (told_by k l s u)).

(** Goal, creator, pairing, ... are not affected by the loggers. *)
Definition ga_unaffected {U T} (R : U -> U -> Prop) (cfg : ga_config U T) : Prop :=
  Equivalence R /\
  (forall x, comp_respects R (ga_goal cfg x)) /\ comp_respects R (ga_creator cfg) /\
  (forall p, comp_respects R (ga_pairing cfg p)) /\ (forall xs, comp_respects R (ga_cross cfg xs)) /\
  (forall x, comp_respects R (ga_mutation cfg x)) /\
  (forall f p, In f (ga_selections cfg) -> comp_respects R (f p)) /\
  (forall f p xs, In f (ga_pre_births cfg) -> comp_respects R (f p xs)) /\
  (forall l, In l (ga_loggers cfg) -> harmless R l).
Definition pso_unaffected {U T} (R : U -> U -> Prop) (cfg : pso_config U T) : Prop :=
  Equivalence R /\
  (forall x, comp_respects R (pso_goal cfg x)) /\ comp_respects R (pso_coordinates cfg) /\
  comp_respects R (pso_velocities cfg) /\ (forall s p, comp_respects R (pso_calc cfg s p)) /\
  (forall f v, In f (pso_post_velocity cfg) -> comp_respects R (f v)) /\
  (forall f x, In f (pso_post_move cfg) -> comp_respects R (f x)) /\
  (forall l, In l (pso_loggers cfg) -> harmless R l).

(** All components always answer or panic. *)
Definition ga_ends {U T} (cfg : ga_config U T) : Prop :=
  (forall x, ends (ga_goal cfg x)) /\ ends (ga_creator cfg) /\ (forall p, ends (ga_pairing cfg p)) /\
  (forall xs, ends (ga_cross cfg xs)) /\ (forall x, ends (ga_mutation cfg x)) /\
  (forall f p, In f (ga_selections cfg) -> ends (f p)) /\
  (forall f p xs, In f (ga_pre_births cfg) -> ends (f p xs)) /\
  (forall l k s, In l (ga_loggers cfg) -> ends (told_by k l s)).
Definition pso_ends {U T} (cfg : pso_config U T) : Prop :=
  (forall x, ends (pso_goal cfg x)) /\ ends (pso_coordinates cfg) /\ ends (pso_velocities cfg) /\
  (forall s p, ends (pso_calc cfg s p)) /\
  (forall f v, In f (pso_post_velocity cfg) -> ends (f v)) /\
  (forall f x, In f (pso_post_move cfg) -> ends (f x)) /\
  (forall l k s, In l (pso_loggers cfg) -> ends (told_by k l s)).

(** A component that leaves a part of the environment alone, e.g. the state of
    another component. *)
Definition keeps {U G A} (get : U -> G) (c : comp U A) : Prop := forall u, get (snd (c u)) = get u.
(** All components but the stop checker do. *)
Definition ga_keeps {U T G} (get : U -> G) (cfg : ga_config U T) : Prop :=
  (forall x, keeps get (ga_goal cfg x)) /\ keeps get (ga_creator cfg) /\
  (forall p, keeps get (ga_pairing cfg p)) /\ (forall xs, keeps get (ga_cross cfg xs)) /\
  (forall x, keeps get (ga_mutation cfg x)) /\
  (forall f p, In f (ga_selections cfg) -> keeps get (f p)) /\
  (forall f p xs, In f (ga_pre_births cfg) -> keeps get (f p xs)) /\
  (forall l k s, In l (ga_loggers cfg) -> keeps get (told_by k l s)).
Definition pso_keeps {U T G} (get : U -> G) (cfg : pso_config U T) : Prop :=
  (forall x, keeps get (pso_goal cfg x)) /\ keeps get (pso_coordinates cfg) /\
  keeps get (pso_velocities cfg) /\ (forall s p, keeps get (pso_calc cfg s p)) /\
  (forall f v, In f (pso_post_velocity cfg) -> keeps get (f v)) /\
  (forall f x, In f (pso_post_move cfg) -> keeps get (f x)) /\
  (forall l k s, In l (pso_loggers cfg) -> keeps get (told_by k l s)).
