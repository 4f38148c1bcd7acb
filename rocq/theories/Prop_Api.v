(** * Properties C92 and C93: components written against the public methods of a population *)

From Coq Require Import List Arith ZArith Bool Lia.
From Verif Require Import Base FloatModel GaModel PsoModel SpecGa SpecPso SpecRun ApiModel SpecApi ApiFacts AgentFacts GaProofs PsoProofs
  DemoGa DemoPso DemoApi.
Import ListNotations.

(** ** C92: no component can forge an individual *)

(** Whatever a selection written with the public methods does, it leaves and holds copies only. *)
Theorem C92_programs_honest :
  forall (U T : Type) (L : lens U (list (individual T))), lens_ok L ->
  forall (s : sel_prog U T) p, tidy L s ->
    learns_from (lget L) p (selection_of L s p) /\ leaves_copies (lget L) p (selection_of L s p).
Proof. exact @programs_honest. Qed.
Print Assumptions C92_programs_honest.
(** One that never puts saved individuals back meets the hypothesis of C01, C02 and C04, *)
Theorem C92_forgetful_copies :
  forall (U T : Type) (L : lens U (list (individual T))) (s : sel_prog U T),
    forgetful s -> selection_copies (selection_of L s).
Proof. exact @forgetful_copies. Qed.
Print Assumptions C92_forgetful_copies.
(** and one that only kills the hypothesis of C07. *)
Theorem C92_just_kills :
  forall (U T : Type) (L : lens U (list (individual T))) (s : sel_prog U T),
    just_kills s -> selection_kills (selection_of L s).
Proof. exact @just_kills_kills. Qed.
Print Assumptions C92_just_kills.
(** With components that remember individuals, from one generation or run to
    another, observers still see genuine values and the extremes of each generation. *)
Theorem C92_observed :
  forall (U T : Type) (held : U -> list (individual T)) (ok : ga_config U T -> Prop),
    (forall cfg, ok cfg -> honest held cfg) ->
    forall p u h cfg fuel o u' t, ga_life held ok p u h -> ok cfg ->
      ga_find_min cfg fuel p u = (o, u', t) \/ ga_next_iterations cfg fuel p u = (o, u', t) ->
      observed_well (h ++ t).
Proof. exact @life_observed. Qed.
Print Assumptions C92_observed.
Theorem C92_result :
  forall (U T : Type) (held : U -> list (individual T)) (ok : ga_config U T -> Prop),
    (forall cfg, ok cfg -> honest held cfg) ->
    forall p u h cfg fuel x v p' u' t, ga_life held ok p u h -> ok cfg ->
      ga_find_min cfg fuel p u = (Ret (Some (x, v), p'), u', t) \/
      ga_next_iterations cfg fuel p u = (Ret (Some (x, v), p'), u', t) ->
      evaluated (h ++ t) x v.
Proof. exact @life_result. Qed.
Print Assumptions C92_result.
(** ... but [find_min] can return a point that the goal was not called on in this run. *)
Theorem C92_old_point_limit :
  exists (cfg : ga_config elite_env Z) fuel p u h x v p' u' t,
    honest snd cfg /\ ga_life snd (eq cfg) p u h /\
    ga_find_min cfg fuel p u = (Ret (Some (x, v), p'), u', t) /\ ~ In x (evals t).
Proof. exact elite_old_point. Qed.
Print Assumptions C92_old_point_limit.

Example C92_nonvacuous :
  lens_ok (@lens_snd nat (list (individual Z))) /\ tidy lens_snd elite_selection /\
  (forall cfg, elite = cfg -> honest snd cfg) /\
  ga_life snd (eq elite) (snd elite_result1) (snd (fst elite_run1)) (snd elite_run1) /\
  map chromosomes (snd (snd (fst elite_run1))) = [1%Z] /\
  (exists v, ga_find_min elite 3 (snd elite_result1) (snd (fst elite_run1)) =
     (Ret (Some (1%Z, v), snd elite_result2), snd (fst elite_run2), snd elite_run2)) /\
  forgetful (SSwap 0 1 (SKill 0 SDone) : sel_prog elite_env Z) /\
  just_kills (SRead (fun p _ => if length (individuals p) <? 3 then SDone else SKill 2 SDone) : sel_prog elite_env Z).
Proof.
  split; [exact elite_lens|]. split; [exact elite_tidy|]. split; [intros cfg <-; exact elite_honest|].
  split; [exact elite_life|]. split; [vm_compute; reflexivity|]. split.
  { destruct elite_found2 as [v [E _]]. exists v. rewrite <- E. exact elite_returns2. }
  split; [exact I|]. intros p l. destruct (length (individuals p) <? 3); exact I.
Qed.

(** ** C93: what the accessors show *)
Theorem C93_population_accessors :
  forall (T : Type) (p : population T),
    length (pop_get_agents p) = pop_len p /\
    (forall n i, pop_index p n = Ret i <-> nth_error (pop_get_agents p) n = Some i) /\
    (forall n, pop_index p n = Panic <-> pop_len p <= n).
Proof. exact @pop_accessors. Qed.
Print Assumptions C93_population_accessors.
Theorem C93_swarm_accessors :
  forall (T : Type) (s : swarm T),
    length (swarm_get_agents s) = swarm_len s /\ swarm_get_agents s = particles s.
Proof. exact @swarm_accessors. Qed.
Print Assumptions C93_swarm_accessors.
Theorem C93_kill :
  forall (T : Type) (p : population T) n,
    (pop_kill p n = Panic <-> pop_len p <= n) /\
    forall q, pop_kill p n = Ret q ->
      best_individual q = best_individual p /\ worst_individual q = worst_individual p /\ iteration q = iteration p /\
      pop_len q = pop_len p /\
      (exists i, nth_error (individuals p) n = Some i /\
         nth_error (individuals q) n = Some (Individual (chromosomes i) (fitness i) false)) /\
      forall m, m <> n -> nth_error (individuals q) m = nth_error (individuals p) m.
Proof. exact @pop_kill_spec. Qed.
Print Assumptions C93_kill.
(** During a run every agent shows a value that the goal returned for its parameter, *)
Theorem C93_ga_agents :
  forall (U T : Type) (ok : ga_config U T -> Prop),
    (forall cfg, ok cfg -> Forall selection_copies (ga_selections cfg)) ->
    forall p h cfg fuel u o u' t, ga_reach ok p h -> ok cfg ->
      ga_find_min cfg fuel p u = (o, u', t) ->
      forall t1 e t2 q a, t = t1 ++ e :: t2 -> shows e = Some q -> In a (pop_get_agents q) ->
        evaluated t1 (ind_get_parameter a) (ind_get_goal a).
Proof. exact @ga_agents. Qed.
Print Assumptions C93_ga_agents.
Theorem C93_pso_agents :
  forall (U T : Type) (FT : FloatTrait T) (ok : pso_config U T -> Prop) s h (cfg : pso_config U T) fuel u o u' t,
    pso_reach ok s h -> pso_find_min cfg fuel s u = (o, u', t) ->
    forall t1 e t2 q a, t = t1 ++ e :: t2 -> shows e = Some q -> In a (swarm_get_agents q) ->
      evaluated t1 (par_get_parameter a) (par_get_goal a).
Proof. exact @pso_agents. Qed.
Print Assumptions C93_pso_agents.
(** and the best solution reported is no worse than any agent. *)
Theorem C93_ga_best_agent :
  forall (U T : Type) (ok : ga_config U T -> Prop),
    (forall cfg, ok cfg -> Forall selection_copies (ga_selections cfg)) ->
    forall p h cfg fuel u o u' t q, ga_reach ok p h -> ok cfg ->
      ga_find_min cfg fuel p u = (o, u', t) \/ ga_next_iterations cfg fuel p u = (o, u', t) ->
      reported t q -> iteration q > 0 -> pop_get_agents q <> [] ->
      exists a, In a (pop_get_agents q) /\ as_best (pop_view q) = Some (ind_get_parameter a, ind_get_goal a) /\
        forall b, In b (pop_get_agents q) -> le_nan_last (ind_get_goal a) (ind_get_goal b).
Proof. exact @ga_best_agent. Qed.
Print Assumptions C93_ga_best_agent.
Theorem C93_pso_best_agent :
  forall (U T : Type) (FT : FloatTrait T) (ok : pso_config U T -> Prop) s h (cfg : pso_config U T) fuel u o u' t,
    pso_reach ok s h -> pso_find_min cfg fuel s u = (o, u', t) ->
    forall q a, reported t q -> In a (swarm_get_agents q) ->
      exists x v, as_best (swarm_view q) = Some (x, v) /\ le_fin v (par_get_goal a).
Proof. exact @pso_best_agent. Qed.
Print Assumptions C93_pso_best_agent.

Example C93_nonvacuous :
  pop_len demo_pop = 5 /\ returned (pop_kill demo_pop 4) = true /\ returned (pop_kill demo_pop 5) = false /\
  map ind_get_parameter (pop_get_agents demo_pop) = [3; -2; -1; -2; -1]%Z /\ reported demo_trace demo_pop /\
  swarm_len flock_swarm = 2 /\ reported flock_trace flock_swarm.
Proof.
  split; [vm_compute; reflexivity|]. split; [vm_compute; reflexivity|]. split; [vm_compute; reflexivity|].
  split; [vm_compute; reflexivity|].
  split; [|split; [vm_compute; reflexivity|]].
  - destruct (finish_state demo 10 demo_start 0 _ _ _ _ (or_introl demo_returns)) as [[t0 E] _].
    left. exists true. rewrite E. apply in_or_app. right. now left.
  - destruct (pso_finish flock 10 flock_start (0, 0) _ _ _ _ (or_introl flock_returns)) as [[t0 E] _].
    left. exists true. rewrite E. apply in_or_app. right. now left.
Qed.
