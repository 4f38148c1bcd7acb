(** * Property C95: only the order of the goal values matters *)

From Coq Require Import List Arith ZArith Bool Lia.
From Verif Require Import Base Logic FloatModel Rng GaModel GaComponents PsoModel PsoComponents StopModel
  SpecGa SpecOrder OrderFacts OrderComponents DemoFloats DemoPso DemoGa DemoLibm DemoOrder.
Import ListNotations.

(** ** Programs whose components correspond do the same *)
Theorem C95_ga_find_min :
  forall (U1 U2 T : Type) (R : f64 -> f64 -> Prop), same_order R ->
  forall (W : U1 -> U2 -> Prop) (c : ga_config U1 T) (d : ga_config U2 T), alike_ga R W c d ->
  forall fuel p q u1 u2, W u1 u2 ->
    alike_run W (alike_event R (alike_population R) (alike_ga_call R))
      (alike_result R (alike_population R)) (ga_find_min c fuel p u1) (ga_find_min d fuel q u2).
Proof. exact @find_rel. Qed.
Print Assumptions C95_ga_find_min.
Theorem C95_ga_next_iterations :
  forall (U1 U2 T : Type) (R : f64 -> f64 -> Prop), same_order R ->
  forall (W : U1 -> U2 -> Prop) (c : ga_config U1 T) (d : ga_config U2 T), alike_ga R W c d ->
  forall fuel p q, alike_population R p q -> forall u1 u2, W u1 u2 ->
    alike_run W (alike_event R (alike_population R) (alike_ga_call R))
      (alike_result R (alike_population R)) (ga_next_iterations c fuel p u1) (ga_next_iterations d fuel q u2).
Proof. exact @next_rel. Qed.
Print Assumptions C95_ga_next_iterations.
Theorem C95_pso_find_min :
  forall (U1 U2 T : Type) (FT : FloatTrait T) (R : f64 -> f64 -> Prop), same_order R ->
  forall (W : U1 -> U2 -> Prop) (c : pso_config U1 T) (d : pso_config U2 T), alike_pso R W c d ->
  forall fuel s t u1 u2, W u1 u2 ->
    alike_run W (alike_event R (alike_swarm R) (alike_pso_call R))
      (alike_result R (alike_swarm R)) (pso_find_min c fuel s u1) (pso_find_min d fuel t u2).
Proof. exact @pso_find_rel. Qed.
Print Assumptions C95_pso_find_min.
Theorem C95_pso_next_iterations :
  forall (U1 U2 T : Type) (FT : FloatTrait T) (R : f64 -> f64 -> Prop), same_order R ->
  forall (W : U1 -> U2 -> Prop) (c : pso_config U1 T) (d : pso_config U2 T), alike_pso R W c d ->
  forall fuel s t, alike_swarm R s t -> forall u1 u2, W u1 u2 ->
    alike_run W (alike_event R (alike_swarm R) (alike_pso_call R))
      (alike_result R (alike_swarm R)) (pso_next_iterations c fuel s u1) (pso_next_iterations d fuel t u2).
Proof. exact @pso_next_rel. Qed.
Print Assumptions C95_pso_next_iterations.

(** ** The ready-made components only compare goal values *)
Theorem C95_random_pairing :
  forall (R : f64 -> f64 -> Prop) (T : Type) (p q : population T) r, alike_population R p q ->
    random_pairing p r = random_pairing q r.
Proof. exact @random_pairing_blind. Qed.
Print Assumptions C95_random_pairing.
Theorem C95_tournament :
  forall R, same_order R -> forall (T : Type) t (p q : population T) r, alike_population R p q ->
    tournament_pairs t p r = tournament_pairs t q r.
Proof. exact @tournament_blind. Qed.
Print Assumptions C95_tournament.
Theorem C95_limit_population :
  forall R, same_order R -> forall (T : Type) n (p q : population T), alike_population R p q ->
    alike_outcome (Forall2 (alike_individual R)) (limit_population n p) (limit_population n q).
Proof. exact @limit_alike. Qed.
Print Assumptions C95_limit_population.
Theorem C95_kill_fitness_nan :
  forall R, same_order R -> forall (T : Type) (p q : population T), alike_population R p q ->
    Forall2 (alike_individual R) (kill_fitness_nan p) (kill_fitness_nan q).
Proof. exact @kill_nan_alike. Qed.
Print Assumptions C95_kill_fitness_nan.
Theorem C95_selection_interval :
  forall (R : f64 -> f64 -> Prop) (T : Type) (FT : FloatTrait T) intervals (p q : population (list T)), alike_population R p q ->
    alike_outcome (Forall2 (alike_individual R)) (selection_interval intervals p) (selection_interval intervals q).
Proof. exact @interval_alike. Qed.
Print Assumptions C95_selection_interval.
Theorem C95_classic_velocity :
  forall (R : f64 -> f64 -> Prop) (T : Type) (FT : FloatTrait T) np32 phi_p phi_g (s t : swarm T) p q r,
    alike_swarm R s t -> alike_particle R p q ->
    classic_velocity np32 phi_p phi_g s p r = classic_velocity np32 phi_p phi_g t q r.
Proof. exact @classic_blind. Qed.
Print Assumptions C95_classic_velocity.
Theorem C95_canonical_velocity :
  forall (R : f64 -> f64 -> Prop) (T : Type) (FT : FloatTrait T) np32 phi_p phi_g xi (s t : swarm T) p q r,
    alike_swarm R s t -> alike_particle R p q ->
    canonical_velocity np32 phi_p phi_g xi s p r = canonical_velocity np32 phi_p phi_g xi t q r.
Proof. exact @canonical_blind. Qed.
Print Assumptions C95_canonical_velocity.
Theorem C95_inertia_velocity :
  forall (R : f64 -> f64 -> Prop) (T : Type) (FT : FloatTrait T) np32 (U : Type) (L : lens U rng) phi_p phi_g inertia (s t : swarm T) p q u,
    alike_swarm R s t -> alike_particle R p q ->
    inertia_velocity np32 L phi_p phi_g inertia s p u = inertia_velocity np32 L phi_p phi_g inertia t q u.
Proof. exact @inertia_blind. Qed.
Print Assumptions C95_inertia_velocity.
Theorem C95_negative_velocity :
  forall R, same_order R -> forall (T : Type) (FT : FloatTrait T) np64 k (s t : swarm T) p q r,
    alike_swarm R s t -> alike_particle R p q ->
    negative_velocity np64 k s p r = negative_velocity np64 k t q r.
Proof. exact @negative_blind. Qed.
Print Assumptions C95_negative_velocity.
Theorem C95_max_iterations :
  forall (R : f64 -> f64 -> Prop) (U1 U2 T : Type) (W : U1 -> U2 -> Prop) n,
    @alike_stop R U1 U2 W T (max_iterations n) (max_iterations n).
Proof. exact @max_iterations_alike. Qed.
Print Assumptions C95_max_iterations.
(** A Threshold has to be moved with the values. *)
Theorem C95_threshold :
  forall (R : f64 -> f64 -> Prop) (U1 U2 T : Type) (W : U1 -> U2 -> Prop) t t',
    (forall v w, R v w -> leb w t' = leb v t) ->
    @alike_stop R U1 U2 W T (threshold t) (threshold t').
Proof. exact @threshold_alike. Qed.
Print Assumptions C95_threshold.

(** ** Two goal functions that rank all points alike: the same search, the same answer *)
Theorem C95_swarm_same_points :
  forall (U T : Type) (FT : FloatTrait T) (f g : list T -> f64), same_ranking f g ->
  forall (stop : alg_state (list T) -> comp U bool) coords vels calc post_velocity post_move,
    (forall a b, as_iter a = as_iter b -> option_map fst (as_best a) = option_map fst (as_best b) ->
       forall u, stop a u = stop b u) ->
    (forall s t p q, alike_swarm (by_rank f g) s t -> alike_particle (by_rank f g) p q ->
       forall u, calc s p u = calc t q u) ->
  forall fuel s0 u o s u' t,
    pso_find_min (PsoConfig (goal_from_function f) stop coords vels calc post_velocity post_move []) fuel s0 u
      = (Ret (o, s), u', t) ->
    exists o' s' t',
      pso_find_min (PsoConfig (goal_from_function g) stop coords vels calc post_velocity post_move []) fuel s0 u
        = (Ret (o', s'), u', t') /\
      option_map fst o' = option_map fst o /\ map coordinates (particles s') = map coordinates (particles s) /\
      sw_iteration s' = sw_iteration s.
Proof. exact @same_points. Qed.
Print Assumptions C95_swarm_same_points.
Theorem C95_genetic_same_points :
  forall (U T : Type) (f g : T -> f64), same_ranking f g ->
  forall (stop : alg_state T -> comp U bool) creator pairing cross mutation selections pre_births,
    (forall a b, as_iter a = as_iter b -> option_map fst (as_best a) = option_map fst (as_best b) ->
       forall u, stop a u = stop b u) ->
    (forall p q, alike_population (by_rank f g) p q -> forall u, pairing p u = pairing q u) ->
    Forall (fun s => forall p q, alike_population (by_rank f g) p q ->
      alike_comp eq (Forall2 (alike_individual (by_rank f g))) (s p) (s q)) selections ->
    Forall (fun b => forall p q xs, alike_population (by_rank f g) p q -> forall u, b p xs u = b q xs u) pre_births ->
  forall fuel p0 u o p u' t,
    ga_find_min (GaConfig (goal_from_function f) stop creator pairing cross mutation selections pre_births []) fuel p0 u
      = (Ret (o, p), u', t) ->
    exists o' p' t',
      ga_find_min (GaConfig (goal_from_function g) stop creator pairing cross mutation selections pre_births []) fuel p0 u
        = (Ret (o', p'), u', t') /\
      option_map fst o' = option_map fst o /\ map chromosomes (individuals p') = map chromosomes (individuals p) /\
      iteration p' = iteration p.
Proof. exact @same_points_ga. Qed.
Print Assumptions C95_genetic_same_points.

(** Steps of 1 and larger steps: the classic swarm returns the same point. *)
Definition step_swarm (goal : list f64 -> f64) : pso_config rng f64 :=
  PsoConfig (goal_from_function goal) (max_iterations 4)
    (@random_vectors f64 NumGene64 np64_default swarm_box 3) (@random_vectors f64 NumGene64 np64_default swarm_box 3)
    (@classic_velocity f64 (FloatIEEE np64_default) np32_default one64 two64)
    [] [fun x => cpure (@move_to_boundary f64 (FloatIEEE np64_default) swarm_box x)] [].
Example C95_swarm_nonvacuous :
  same_ranking low_steps high_steps /\
  alike_pso (by_rank low_steps high_steps) (@eq rng) (step_swarm low_steps) (step_swarm high_steps) /\
  exists r, fst (fst (@pso_find_min rng f64 (FloatIEEE np64_default) (step_swarm low_steps) 10 swarm_new counter)) = Ret r /\
    sw_iteration (snd r) = 4.
Proof.
  split; [exact steps_ranking|]. split; [|apply show_ret; vm_compute; reflexivity].
  apply same_pso.
  - intros a b E _ u. unfold max_iterations. now rewrite E.
  - intros s t p q Hs Hp u. now apply (C95_classic_velocity (by_rank low_steps high_steps)).
Qed.
(** ... and so does a genetic algorithm with tournament and LimitPopulation. *)
Definition step_ga (goal : list f64 -> f64) : ga_config rng (list f64) :=
  GaConfig (goal_from_function goal) (max_iterations 3)
    (@random_vectors f64 NumGene64 np64_default swarm_box 4)
    (tournament_pairs (set_rounds_count (tournament_new 3) 2))
    (vec_cross_all_genes (cross_bitwise64 true)) (fun x => cret x)
    [fun p => cret (kill_fitness_nan p); fun p => cpure (limit_population 4 p)] [] [].
Example C95_genetic_nonvacuous :
  alike_ga (by_rank low_steps high_steps) (@eq rng) (step_ga low_steps) (step_ga high_steps) /\
  exists r, fst (fst (ga_find_min (step_ga low_steps) 10 pop_new counter)) = Ret r /\ iteration (snd r) = 3.
Proof.
  split; [|apply show_ret; vm_compute; reflexivity].
  apply same_ga.
  - intros a b E _ u. unfold max_iterations. now rewrite E.
  - intros p q H u. now apply (C95_tournament _ steps_ranking).
  - constructor; [|constructor; [|constructor]].
    + intros p q H u1 u2 <-. split; [|reflexivity]. now apply (C95_kill_fitness_nan _ steps_ranking).
    + intros p q H u1 u2 <-. split; [|reflexivity]. now apply (C95_limit_population _ steps_ranking).
  - constructor.
Qed.

(** GoalNotChange measures differences: with it the scale does matter. *)
Theorem C95_goal_not_change_limit :
  same_ranking low_steps high_steps /\
  exists o1 s1 o2 s2,
    fst (fst (walk low_steps)) = Ret (o1, s1) /\ fst (fst (walk high_steps)) = Ret (o2, s2) /\
    option_map fst o1 <> option_map fst o2.
Proof. exact (conj steps_ranking walks_differ). Qed.
Print Assumptions C95_goal_not_change_limit.
