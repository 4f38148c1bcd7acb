(** * The particle swarm optimizer: optlib/src/particleswarm/mod.rs *)

From Coq Require Import List Arith ZArith Bool.
From Verif Require Import Base FloatModel GaModel.
Import ListNotations.

(** [compare_floats] (particleswarm/mod.rs:426-442). *)
Definition compare_floats (x y : f64) : comparison :=
  if negb (is_finite x) && negb (is_finite y) then Eq
  else if is_finite x && negb (is_finite y) then Lt
  else if negb (is_finite x) && is_finite y then Gt
  else if ltb y x then Gt
  else if ltb x y then Lt
  else Eq.

(** [Particle<T>] (particleswarm/mod.rs:54-75).  [Clone] (77-86) copies every
    field, so it is the identity here. *)
Record particle (T : Type) := Particle {
  coordinates : list T;
  velocity : list T;
  value : f64;
  best_personal_coordinates : list T;
  best_personal_value : f64;
  worst_personal_coordinates : list T;
  worst_personal_value : f64
}.
Arguments Particle {T}.
Arguments coordinates {T} p.
Arguments velocity {T} p.
Arguments value {T} p.
Arguments best_personal_coordinates {T} p.
Arguments best_personal_value {T} p.
Arguments worst_personal_coordinates {T} p.
Arguments worst_personal_value {T} p.

(** [Particle::new] (particleswarm/mod.rs:100-112). *)
Definition particle_new {T} (x v : list T) (y : f64) : particle T :=
  Particle x v y x y x y.

(** [Particle::set_velocity] (particleswarm/mod.rs:114-116). *)
Definition set_velocity {T} (p : particle T) (v : list T) : particle T :=
  Particle (coordinates p) v (value p)
    (best_personal_coordinates p) (best_personal_value p)
    (worst_personal_coordinates p) (worst_personal_value p).

(** [Particle::move_to] (particleswarm/mod.rs:118-131). *)
Definition move_to {T} (p : particle T) (x : list T) (y : f64) : particle T :=
  let is_best := match compare_floats y (best_personal_value p) with Lt => true | _ => false end in
  let is_worst := match compare_floats y (worst_personal_value p) with Gt => true | _ => false end in
  Particle x (velocity p) y
    (if is_best then x else best_personal_coordinates p)
    (if is_best then y else best_personal_value p)
    (if is_worst then x else worst_personal_coordinates p)
    (if is_worst then y else worst_personal_value p).

(** [Swarm<T>] (particleswarm/mod.rs:137-147). *)
Record swarm (T : Type) := Swarm {
  particles : list (particle T);
  best_particle : option (particle T);
  worst_particle : option (particle T);
  sw_iteration : nat
}.
Arguments Swarm {T}.
Arguments particles {T} s.
Arguments best_particle {T} s.
Arguments worst_particle {T} s.
Arguments sw_iteration {T} s.

(** [Swarm::new], [Swarm::reset] (particleswarm/mod.rs:150-157, 165-170). *)
Definition swarm_new {T} : swarm T := Swarm [] None None 0.
Definition swarm_reset {T} (s : swarm T) : swarm T := Swarm [] None None 0.

(** [impl AlgorithmState for Swarm] (particleswarm/mod.rs:399-410). *)
Definition swarm_view {T} (s : swarm T) : alg_state (list T) :=
  AlgState (match best_particle s with
            | None => None
            | Some p => Some (coordinates p, value p)
            end)
           (sw_iteration s).

(** [find_best_particle] (particleswarm/mod.rs:216-226). *)
Definition find_best_particle {T} (ps : list (particle T)) : outcome (option (particle T)) :=
  match ps with
  | [] => Ret None
  | _ => let! m := min_by (fun p1 p2 => Ret (compare_floats (value p1) (value p2))) ps in
         let! p := unwrap m in Ret (Some p)
  end.

(** [find_worst_particle] (particleswarm/mod.rs:228-238). *)
Definition find_worst_particle {T} (ps : list (particle T)) : outcome (option (particle T)) :=
  match ps with
  | [] => Ret None
  | _ => let! m := max_by (fun p1 p2 => Ret (compare_floats (value p1) (value p2))) ps in
         let! p := unwrap m in Ret (Some p)
  end.

(** [Swarm::replace_particles] (particleswarm/mod.rs:176-180). *)
Definition replace_particles {T} (s : swarm T) (ps : list (particle T)) : outcome (swarm T) :=
  let! best := find_best_particle ps in
  let! worst := find_worst_particle ps in
  Ret (Swarm ps best worst (sw_iteration s)).

(** [Swarm::update_best_particle] (particleswarm/mod.rs:182-197). *)
Definition update_best_particle {T} (s : swarm T) : outcome (swarm T) :=
  let! o := find_best_particle (particles s) in
  Ret (match o with
       | None => s
       | Some new_best =>
           match best_particle s with
           | None => Swarm (particles s) (Some new_best) (worst_particle s) (sw_iteration s)
           | Some old_best =>
               match compare_floats (value new_best) (value old_best) with
               | Lt => Swarm (particles s) (Some new_best) (worst_particle s) (sw_iteration s)
               | _ => s
               end
           end
       end).

(** [Swarm::update_worst_particle] (particleswarm/mod.rs:199-214). *)
Definition update_worst_particle {T} (s : swarm T) : outcome (swarm T) :=
  let! o := find_worst_particle (particles s) in
  Ret (match o with
       | None => s
       | Some new_worst =>
           match worst_particle s with
           | None => Swarm (particles s) (best_particle s) (Some new_worst) (sw_iteration s)
           | Some old_worst =>
               match compare_floats (value new_worst) (value old_worst) with
               | Gt => Swarm (particles s) (best_particle s) (Some new_worst) (sw_iteration s)
               | _ => s
               end
           end
       end).

(** [Swarm::next_iteration] (particleswarm/mod.rs:172-174), counter unbounded. *)
Definition swarm_next_iteration {T} (s : swarm T) : swarm T :=
  Swarm (particles s) (best_particle s) (worst_particle s) (sw_iteration s + 1).

Definition set_particles {T} (s : swarm T) (ps : list (particle T)) : swarm T :=
  Swarm ps (best_particle s) (worst_particle s) (sw_iteration s).

(** The boxed trait objects of [ParticleSwarmOptimizer] (particleswarm/mod.rs:249-258). *)
Record pso_config (U T : Type) := PsoConfig {
  pso_goal : list T -> comp U f64;
  pso_stop : alg_state (list T) -> comp U bool;
  pso_coordinates : comp U (list (list T));
  pso_velocities : comp U (list (list T));
  pso_calc : swarm T -> particle T -> comp U (list T);
  pso_post_velocity : list (list T -> comp U (list T));
  pso_post_move : list (list T -> comp U (list T));
  pso_loggers : list (logger U (list T))
}.
Arguments PsoConfig {U T}.
Arguments pso_goal {U T} p.
Arguments pso_stop {U T} p.
Arguments pso_coordinates {U T} p.
Arguments pso_velocities {U T} p.
Arguments pso_calc {U T} p.
Arguments pso_post_velocity {U T} p.
Arguments pso_post_move {U T} p.
Arguments pso_loggers {U T} p.

(** [ParticleSwarmOptimizer::new] (particleswarm/mod.rs:262-282): no post
    processing and no loggers. *)
Definition pso_new {U T} goal stop coords vels calc : pso_config U T :=
  PsoConfig goal stop coords vels calc [] [] [].

(** What the components of the PSO return (with what they were given). *)
Inductive pso_call (T : Type) : Type :=
| PCoordinates (xs : list (list T))                    (* get_coordinates() *)
| PVelocities (vs : list (list T))                     (* get_velocity() *)
| PCalc (s : swarm T) (p : particle T) (v : list T)    (* calc_new_velocity(s, p) *)
| PPostVelocity (before after : list T)                (* correct_velocity(before) *)
| PPostMove (before after : list T).                   (* post_move(&mut x) *)
Arguments PCoordinates {T} xs.
Arguments PVelocities {T} vs.
Arguments PCalc {T} s p v.
Arguments PPostVelocity {T} before after.
Arguments PPostMove {T} before after.

Notation pso_event T := (event (list T) (swarm T) (pso_call T)).

Section Pso.
  Context {U T : Type} {FT : FloatTrait T}.
  Variable cfg : pso_config U T.
  Notation PSO A := (M U (pso_event T) A).

  (** [self.post_move.iter_mut().for_each(|m| m.post_move(&mut x))]
      (particleswarm/mod.rs:306-308, 369-371). *)
  Definition run_post_move (x : list T) : PSO (list T) :=
    mfold (fun x post_move => call_comp (PPostMove x) (post_move x)) (pso_post_move cfg) x.

  (** [renew_swarm] (particleswarm/mod.rs:300-324). *)
  Definition renew_swarm (s : swarm T) : PSO (swarm T) :=
    coords <- call_comp PCoordinates (pso_coordinates cfg) ;;
    vels <- call_comp PVelocities (pso_velocities cfg) ;;
    pure (oassert (length coords =? length vels)) ;;;
    coords' <- mmapM run_post_move coords ;;
    ps <- mmapM (fun cs =>
                   y <- call_goal (pso_goal cfg) (fst cs) ;;
                   mret (particle_new (fst cs) (snd cs) y)) (combine coords' vels) ;;
    pure (replace_particles (swarm_reset s) ps).

  (** Body of [for n in 0..particles.len()] (particleswarm/mod.rs:347-377). *)
  Definition pso_particle (s : swarm T) (n : nat) : PSO (swarm T) :=
    p <- pure (index (particles s) n) ;;
    emit (ESee s) ;;;
    v0 <- call_comp (PCalc s p) (pso_calc cfg s p) ;;
    new_velocity <- mfold (fun v post_velocity => call_comp (PPostVelocity v) (post_velocity v))
                          (pso_post_velocity cfg) v0 ;;
    let p1 := set_velocity p new_velocity in
    let x0 := map (fun cv => fadd (fst cv) (snd cv)) (combine (coordinates p1) (velocity p1)) in
    new_coordinates <- run_post_move x0 ;;
    new_value <- call_goal (pso_goal cfg) new_coordinates ;;
    ps <- pure (update (particles s) n (move_to p1 new_coordinates new_value)) ;;
    mret (set_particles s ps).

  (** One pass of the [while] body (particleswarm/mod.rs:347-385). *)
  Definition pso_iteration (s : swarm T) : PSO (swarm T) :=
    s1 <- mfold pso_particle (seq 0 (length (particles s))) s ;;
    s2 <- pure (update_best_particle s1) ;;
    s3 <- pure (update_worst_particle s2) ;;
    let s4 := swarm_next_iteration s3 in
    call_loggers swarm_view LNext (pso_loggers cfg) s4 ;;;
    mret s4.

  (** [while !self.stop_checker.can_stop(&self.swarm) { ... }]
      (particleswarm/mod.rs:346-386). *)
  Fixpoint pso_loop (fuel : nat) (s : swarm T) : PSO (swarm T) :=
    match fuel with
    | O => nofuel
    | S fuel' =>
        stop <- call_stop swarm_view (pso_stop cfg) s ;;
        if (stop : bool) then mret s
        else s' <- pso_iteration s ;; pso_loop fuel' s'
    end.

  (** [next_iterations] (particleswarm/mod.rs:341-396). *)
  Definition pso_next_iterations (fuel : nat) (s : swarm T)
    : PSO (option (list T * f64) * swarm T) :=
    call_loggers swarm_view LResume (pso_loggers cfg) s ;;;
    s' <- pso_loop fuel s ;;
    call_loggers swarm_view LFinish (pso_loggers cfg) s' ;;;
    mret (match best_particle s' with
          | None => None
          | Some p => Some (coordinates p, value p)
          end, s').

  (** [find_min] (particleswarm/mod.rs:328-336). *)
  Definition pso_find_min (fuel : nat) (s : swarm T)
    : PSO (option (list T * f64) * swarm T) :=
    s1 <- renew_swarm s ;;
    call_loggers swarm_view LStart (pso_loggers cfg) s1 ;;;
    pso_next_iterations fuel s1.
End Pso.

(** ** The setters (particleswarm/mod.rs:284-298) *)
Section Setters.
  Context {U T : Type}.
  Definition pso_set_stop_checker (c : pso_config U T) v := PsoConfig (pso_goal c) v
    (pso_coordinates c) (pso_velocities c) (pso_calc c) (pso_post_velocity c) (pso_post_move c) (pso_loggers c).
  Definition pso_set_loggers (c : pso_config U T) v := PsoConfig (pso_goal c) (pso_stop c)
    (pso_coordinates c) (pso_velocities c) (pso_calc c) (pso_post_velocity c) (pso_post_move c) v.
  Definition pso_set_post_moves (c : pso_config U T) v := PsoConfig (pso_goal c) (pso_stop c)
    (pso_coordinates c) (pso_velocities c) (pso_calc c) (pso_post_velocity c) v (pso_loggers c).
  Definition pso_set_post_velocity_calc (c : pso_config U T) v := PsoConfig (pso_goal c) (pso_stop c)
    (pso_coordinates c) (pso_velocities c) (pso_calc c) v (pso_post_move c) (pso_loggers c).
End Setters.
