(** * Specification vocabulary: components that never panic *)

From Coq Require Import List Arith ZArith Bool.
From Verif Require Import Base FloatModel GaModel PsoModel SpecGa SpecPso.
Import ListNotations.

(** Whenever its state satisfies [I], the call returns a result that satisfies [Q] and
    leaves a state that satisfies [I]. *)
Definition always {U A} (I : U -> Prop) (Q : A -> Prop) (c : comp U A) : Prop :=
  forall u, I u -> exists a u', c u = (Ret a, u') /\ Q a /\ I u'.
Definition returns {U A} (I : U -> Prop) (c : comp U A) : Prop := always I (fun _ => True) c.

(** The stop checker stops no later than in iteration [k]. *)
Definition stops_by {T} (k : nat) (answers : alg_state T -> bool -> Prop) : Prop :=
  forall q, k <= as_iter q -> ~ answers q false.

(** The loggers are told to resume before each run of the main loop. *)
Inductive phase := Resting | Running.

(** All loggers, one after the other. *)
Fixpoint tell_all {U T} (k : log_kind) (ls : list (logger U T)) (q : alg_state T) : comp U unit :=
  match ls with
  | [] => cret tt
  | l :: rest => do _ <- told_by k l q ;; tell_all k rest q
  end.

(** The loggers never panic when shown states [ok]; [I ph i] holds of the states of the
    components in phase [ph] of iteration [i]; resuming starts the main loop. *)
Record logging_fits {U T} (ok : alg_state T -> Prop) (I : phase -> nat -> U -> Prop) (ls : list (logger U T)) : Prop := {
  log_start : forall l q, In l ls -> ok q -> returns (I Resting (as_iter q)) (told_by LStart l q);
  log_resume : forall q u, ok q -> I Resting (as_iter q) u ->
    exists u', tell_all LResume ls q u = (Ret tt, u') /\ I Running (as_iter q) u';
  log_next : forall l q, In l ls -> ok q -> returns (I Running (as_iter q)) (told_by LNext l q);
  log_finish : forall l q, In l ls -> ok q -> returns (I Running (as_iter q)) (told_by LFinish l q)
}.

Section Pso.
  Context {T : Type}.
  Definition dim (d : nat) (x : list T) : Prop := length x = d.
  Definition particle_dim (d : nat) (p : particle T) : Prop :=
    dim d (coordinates p) /\ dim d (velocity p) /\
    dim d (best_personal_coordinates p) /\ dim d (worst_personal_coordinates p).
  (** All vectors have [d] components, and there is a best and a worst particle exactly
      when the swarm is not empty. *)
  Definition swarm_dim (d : nat) (s : swarm T) : Prop :=
    Forall (particle_dim d) (particles s) /\
    (forall b, best_particle s = Some b -> particle_dim d b) /\
    (forall w, worst_particle s = Some w -> particle_dim d w) /\
    (particles s = [] <-> best_particle s = None) /\ (particles s = [] <-> worst_particle s = None).

  (** Whoever sees the swarm sees [m] particles in shape. *)
  Definition swarm_seen (d m : nat) (e : pso_event T) : Prop :=
    forall s, shows e = Some s -> swarm_dim d s /\ length (particles s) = m.

  (** The components work together on [n] particles of [d] dimensions; [I ph i] holds of
      whatever they keep in their states in phase [ph] of iteration [i], [answers q b]
      whenever the stop checker can answer [b] to [q]. *)
  Record pso_fits {U} (I : phase -> nat -> U -> Prop) (answers : alg_state (list T) -> bool -> Prop) (d n : nat)
    (cfg : pso_config U T) : Prop := {
    fit_age : forall i u, I Running i u -> I Running (i + 1) u;
    fit_goal : forall ph i x, dim d x -> returns (I ph i) (pso_goal cfg x);
    fit_stop : forall s, swarm_dim d s ->
      always (I Running (sw_iteration s)) (answers (pso_view s)) (pso_stop cfg (pso_view s));
    fit_coordinates : always (I Resting 0) (fun xs => length xs = n /\ Forall (dim d) xs) (pso_coordinates cfg);
    fit_velocities : always (I Resting 0) (fun vs => length vs = n /\ Forall (dim d) vs) (pso_velocities cfg);
    fit_calc : forall s p, swarm_dim d s -> In p (particles s) ->
      always (I Running (sw_iteration s)) (dim d) (pso_calc cfg s p);
    fit_post_velocity : forall i f v, In f (pso_post_velocity cfg) -> dim d v -> always (I Running i) (dim d) (f v);
    fit_post_move : forall ph i f x, In f (pso_post_move cfg) -> dim d x -> always (I ph i) (dim d) (f x);
    fit_logging : logging_fits (fun q => exists s, swarm_dim d s /\ q = pso_view s) I (pso_loggers cfg)
  }.
End Pso.

(** The functions can be run one after the other, from [P] to [Q]. *)
Inductive pipeline {U A} (I : U -> Prop) (Q : A -> Prop) : (A -> Prop) -> list (A -> comp U A) -> Prop :=
| pipe_end (P : A -> Prop) : (forall a, P a -> Q a) -> pipeline I Q P []
| pipe_step (P R : A -> Prop) f fs :
    (forall a, P a -> always I R (f a)) -> pipeline I Q R fs -> pipeline I Q P (f :: fs).

Section Ga.
  Context {T : Type}.
  (** [born x]: chromosomes that may be born; [fit v]: their goal values. *)
  Variables (born : T -> Prop) (fit : f64 -> Prop).
  Definition individual_fits (i : individual T) : Prop := born (chromosomes i) /\ fit (fitness i).
  (** Not extinct, nobody is dead, everybody was allowed to be born. *)
  Definition population_fits (p : population T) : Prop :=
    individuals p <> [] /\ Forall (fun i => alive i = true /\ individual_fits i) (individuals p).
  (** The best individual is known after the first generation, and was allowed to be born. *)
  Definition settled_best (p : population T) : Prop :=
    match best_individual p with
    | None => iteration p = 0
    | Some b => iteration p <> 0 /\ individual_fits b
    end.
  (** Not everybody is dead, and all that live were allowed to be born. *)
  Definition some_survive (p : population T) : Prop :=
    (exists i, In i (individuals p) /\ alive i = true) /\
    Forall (fun i => alive i = true -> individual_fits i) (individuals p).

  (** The stop checkers and loggers see such populations only, and the stop checkers see
      the best individual. *)
  Definition population_seen (e : ga_event T) : Prop :=
    match e with
    | EStop p _ => population_fits p /\ settled_best p
    | ELog _ _ p => population_fits p
    | _ => True
    end.

  (** The components work together; [raw] holds of chromosomes before the pre-birth
      checks, [k] is the size of a family, [I ph i] holds of the states of the components
      in phase [ph] of generation [i]. *)
  Record ga_fits {U} (I : phase -> nat -> U -> Prop) (answers : alg_state T -> bool -> Prop) (raw : T -> Prop) (k : nat)
    (cfg : ga_config U T) : Prop := {
    gfit_age : forall i u, I Running i u -> I Running (i + 1) u;
    gfit_goal : forall ph i x, born x -> always (I ph i) fit (ga_goal cfg x);
    gfit_stop : forall p, population_fits p ->
      always (I Running (iteration p)) (answers (ga_view p)) (ga_stop cfg (ga_view p));
    gfit_creator : always (I Resting 0) (fun xs => xs <> [] /\ Forall born xs) (ga_creator cfg);
    gfit_pairing : forall p, population_fits p ->
      always (I Running (iteration p))
        (Forall (fun pair => length pair = k /\ Forall (fun i => i < length (individuals p)) pair)) (ga_pairing cfg p);
    gfit_cross : forall i xs, length xs = k -> Forall born xs -> always (I Running i) (Forall raw) (ga_cross cfg xs);
    gfit_mutation : forall i x, raw x -> always (I Running i) raw (ga_mutation cfg x);
    gfit_pre_births : forall p, population_fits p ->
      pipeline (I Running (iteration p)) (Forall born) (Forall raw) (map (fun f => f p) (ga_pre_births cfg));
    gfit_selections : forall i, pipeline (I Running i) some_survive population_fits
      (map (fun f p => do l <- f p ;; cret (set_individuals p l)) (ga_selections cfg));
    gfit_logging : logging_fits (fun q => exists p, population_fits p /\ q = ga_view p) I (ga_loggers cfg)
  }.
End Ga.
