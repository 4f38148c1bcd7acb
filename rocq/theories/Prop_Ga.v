(** * Properties C01-C09, C27, C71: the genetic optimizer *)

From Coq Require Import List Arith ZArith Bool Lia.
From Verif Require Import Base Logic FloatModel GaModel SpecGa FloatFacts GaBest GaFacts GaSafety
  GaTheorems GaMore GaProofs GaComponents DemoGa.
Import ListNotations.

(** ** C01: a returned solution was really evaluated.

    After any history of calls, a solution returned by [find_min] was evaluated
    during that call, one returned by [next_iterations] since the last
    [find_min]. *)
Theorem C01_ga_result_evaluated :
  forall (U T : Type) (ok : ga_config U T -> Prop),
    (forall cfg, ok cfg -> Forall selection_copies (ga_selections cfg)) ->
    forall p h cfg fuel u x v p' u' t,
      ga_reach ok p h -> ok cfg ->
      (ga_find_min cfg fuel p u = (Ret (Some (x, v), p'), u', t) -> evaluated t x v) /\
      (ga_next_iterations cfg fuel p u = (Ret (Some (x, v), p'), u', t) -> evaluated (h ++ t) x v).
Proof. exact @result_evaluated. Qed.
Print Assumptions C01_ga_result_evaluated.

(** The recorded answers are answers the components really gave, whatever the outcome. *)
Theorem C01_ga_events_genuine :
  forall (U T : Type) (cfg : ga_config U T) fuel p u o u' t,
    ga_find_min cfg fuel p u = (o, u', t) -> Forall (genuine cfg) t.
Proof. exact @find_min_genuine. Qed.
Print Assumptions C01_ga_events_genuine.
Theorem C01_ga_next_events_genuine :
  forall (U T : Type) (cfg : ga_config U T) fuel p u o u' t,
    ga_next_iterations cfg fuel p u = (o, u', t) -> Forall (genuine cfg) t.
Proof. exact @next_genuine. Qed.
Print Assumptions C01_ga_next_events_genuine.

(** With a [GoalFromFunction f] the returned value is [f] of the returned point. *)
Theorem C01_ga_result_is_goal_value :
  forall (U T : Type) (ok : ga_config U T -> Prop),
    (forall cfg, ok cfg -> Forall selection_copies (ga_selections cfg)) ->
    forall (f : T -> f64) p h cfg fuel u x v p' u' t,
      (forall cfg, ok cfg -> ga_goal cfg = goal_from_function f) ->
      ga_reach ok p h -> ok cfg ->
      ga_find_min cfg fuel p u = (Ret (Some (x, v), p'), u', t) \/
      ga_next_iterations cfg fuel p u = (Ret (Some (x, v), p'), u', t) -> v = f x.
Proof. exact @result_is_f. Qed.
Print Assumptions C01_ga_result_is_goal_value.

Example C01_nonvacuous :
  (forall cfg, demo_ok cfg -> Forall selection_copies (ga_selections cfg)) /\
  (forall cfg, demo_ok cfg -> ga_goal cfg = goal_from_function demo_goal) /\
  demo_ok demo_more /\ ga_reach demo_ok demo_pop demo_trace /\
  (exists v p' u' t, ga_find_min demo 10 demo_start 0 = (Ret (Some ((-1)%Z, v), p'), u', t)) /\
  (exists v p' u' t,
     ga_next_iterations demo_more 10 demo_pop demo_state = (Ret (Some ((-1)%Z, v), p'), u', t)).
Proof.
  split; [intros cfg H; apply H|]. split; [intros cfg H; apply H|].
  split; [split; [apply demo_legal|reflexivity]|]. split; [apply demo_reach|]. split.
  - destruct demo_found as [v [E _]]. exists v. rewrite <- E.
    eexists _, _, _. exact demo_returns.
  - destruct demo_found2 as [v [E _]]. exists v. rewrite <- E.
    eexists _, _, _. exact demo_returns2.
Qed.

(** ** C02: best and worst reported are the extremes of the population. *)
Theorem C02_ga_reports_extremes :
  forall (U T : Type) (ok : ga_config U T -> Prop),
    (forall cfg, ok cfg -> Forall selection_copies (ga_selections cfg)) ->
    forall p h cfg fuel u o u' t q,
      ga_reach ok p h -> ok cfg ->
      ga_find_min cfg fuel p u = (o, u', t) \/ ga_next_iterations cfg fuel p u = (o, u', t) ->
      reported t q -> iteration q > 0 -> settled q.
Proof. exact @reports_settled. Qed.
Print Assumptions C02_ga_reports_extremes.

Example C02_nonvacuous :
  exists q, reported demo_trace q /\ iteration q = 3 /\ individuals q <> [].
Proof.
  exists demo_pop. split; [|split; [apply demo_three|]].
  - destruct (finish_state demo 10 demo_start 0 _ _ _ _ (or_introl demo_returns)) as [[t0 E] _].
    left. exists true. rewrite E. apply in_or_app. right. now left.
  - intros E. destruct demo_three as [_ H]. rewrite E in H. discriminate.
Qed.

(** ** C03: [None] is returned exactly when no iteration left a survivor. *)
Theorem C03_ga_none_iff_no_survivor :
  forall (U T : Type) (cfg : ga_config U T) fuel p u r p' u' t,
    ga_find_min cfg fuel p u = (Ret (r, p'), u', t) ->
    (r = None <-> forall q b, In (EStop q b) t -> iteration q > 0 -> individuals q = []).
Proof. exact @find_min_none. Qed.
Print Assumptions C03_ga_none_iff_no_survivor.

Example C03_nonvacuous :
  (exists r p' u' t, ga_find_min demo 10 demo_start 0 = (Ret (r, p'), u', t) /\ r <> None).
Proof.
  destruct demo_found as [v [E _]]. eexists _, _, _, _. split; [exact demo_returns|]. rewrite E. discriminate.
Qed.

(** ** C04: every observer sees individuals that carry their own goal values. *)
Theorem C04_ga_individuals_carry_their_value :
  forall (U T : Type) (ok : ga_config U T -> Prop),
    (forall cfg, ok cfg -> Forall selection_copies (ga_selections cfg)) ->
    forall p h cfg fuel u o u' t,
      ga_reach ok p h -> ok cfg ->
      (ga_find_min cfg fuel p u = (o, u', t) -> observations_valued t) /\
      (ga_next_iterations cfg fuel p u = (o, u', t) -> observations_valued (h ++ t)).
Proof. exact @observed_valued. Qed.
Print Assumptions C04_ga_individuals_carry_their_value.

Example C04_nonvacuous :
  exists t1 e t2 p, demo_trace = t1 ++ e :: t2 /\ shows e = Some p /\
    map chromosomes (individuals p) = [3; -2; -1; -2; -1]%Z.
Proof.
  destruct (finish_state demo 10 demo_start 0 _ _ _ _ (or_introl demo_returns)) as [[t0 E] _].
  eexists t0, _, _, demo_pop. split; [exact E|]. split; [reflexivity|]. apply demo_three.
Qed.

(** ** C05: one goal call per born individual, in order, and no other. *)
Theorem C05_ga_goal_calls :
  forall (U T : Type) (cfg : ga_config U T) fuel p u r p' u' t,
    ga_find_min cfg fuel p u = (Ret (r, p'), u', t) -> evals t = births [] t.
Proof. exact @find_min_evals. Qed.
Print Assumptions C05_ga_goal_calls.
Theorem C05_ga_next_goal_calls :
  forall (U T : Type) (cfg : ga_config U T) fuel p u r p' u' t,
    ga_next_iterations cfg fuel p u = (Ret (r, p'), u', t) -> evals t = births [] t.
Proof. exact @next_evals. Qed.
Print Assumptions C05_ga_next_goal_calls.

Example C05_nonvacuous : length (evals demo_trace) > 4.
Proof. vm_compute. lia. Qed.

(** ** C06: the protocol seen by each logger and the stop checker. *)
Theorem C06_ga_find_min_protocol :
  forall (U T : Type) (cfg : ga_config U T) fuel p u r p' u' t i,
    ga_find_min cfg fuel p u = (Ret (r, p'), u', t) -> i < length (ga_loggers cfg) ->
    protocol (fun p : population T => iteration p) i t =
      PLog LStart 0 :: PLog LResume 0 :: rounds 0 (iteration p') ++ [PLog LFinish (iteration p')].
Proof. exact @find_min_protocol. Qed.
Print Assumptions C06_ga_find_min_protocol.
Theorem C06_ga_next_iterations_protocol :
  forall (U T : Type) (cfg : ga_config U T) fuel p u r p' u' t i,
    ga_next_iterations cfg fuel p u = (Ret (r, p'), u', t) -> i < length (ga_loggers cfg) ->
    exists k, iteration p' = iteration p + k /\
    protocol (fun p : population T => iteration p) i t =
      PLog LResume (iteration p) :: rounds (iteration p) k ++ [PLog LFinish (iteration p')].
Proof. exact @next_protocol. Qed.
Print Assumptions C06_ga_next_iterations_protocol.
(** The last state seen is the one the result is read from. *)
Theorem C06_ga_finish_state :
  forall (U T : Type) (cfg : ga_config U T) fuel p u r p' u' t,
    ga_find_min cfg fuel p u = (Ret (r, p'), u', t) \/
    ga_next_iterations cfg fuel p u = (Ret (r, p'), u', t) ->
    (exists t0, t = t0 ++ EStop p' true :: log_events LFinish (length (ga_loggers cfg)) p') /\
    r = option_map (fun i => (chromosomes i, fitness i)) (best_individual p').
Proof. exact @finish_state. Qed.
Print Assumptions C06_ga_finish_state.

Example C06_nonvacuous :
  1 < length (ga_loggers demo) /\
  protocol (fun p : population Z => iteration p) 1 demo_trace =
    [PLog LStart 0; PLog LResume 0; PStop 0 false; PLog LNext 1; PStop 1 false; PLog LNext 2;
     PStop 2 false; PLog LNext 3; PStop 3 true; PLog LFinish 3].
Proof. split; [simpl; lia|]. vm_compute. reflexivity. Qed.

(** ** C07: one generation. *)
Theorem C07_ga_generation :
  forall (U T : Type) (cfg : ga_config U T) p u p' u' g,
    Forall selection_kills (ga_selections cfg) ->
    ga_iteration cfg p u = (Ret p', u', g) ->
    exists born vals after,
      generation (length (ga_pre_births cfg)) (length (ga_selections cfg))
                 (length (ga_loggers cfg)) p g p' born vals after /\
      Forall2 killed_from (individuals p ++ newborns born vals) after /\
      individuals p' =
        map fst (filter (fun ij => alive (snd ij))
                        (combine (individuals p ++ newborns born vals) after)).
Proof. exact @iteration_survivors. Qed.
Print Assumptions C07_ga_generation.
(** ... and the whole run is a sequence of generations (with any selections). *)
Theorem C07_ga_run_is_generations :
  forall (U T : Type) (cfg : ga_config U T) fuel p u r p' u' t,
    ga_next_iterations cfg fuel p u = (Ret (r, p'), u', t) ->
    exists gens t1,
      generations (length (ga_pre_births cfg)) (length (ga_selections cfg))
                  (length (ga_loggers cfg)) p t1 p' gens /\
      t = log_events LResume (length (ga_loggers cfg)) p ++ t1
          ++ log_events LFinish (length (ga_loggers cfg)) p'.
Proof. exact @run_generations. Qed.
Print Assumptions C07_ga_run_is_generations.

Example C07_nonvacuous :
  Forall selection_kills (ga_selections demo) /\
  returned (fst (fst (ga_iteration demo demo_pop demo_state))) = true.
Proof. split; [apply demo_kills|]. vm_compute. reflexivity. Qed.

(** ** C08: [find_min] forgets the previous run. *)
Theorem C08_ga_find_min_fresh :
  forall (U T : Type) (cfg : ga_config U T) fuel p1 p2 u,
    ga_find_min cfg fuel p1 u = ga_find_min cfg fuel p2 u.
Proof. reflexivity. Qed.
Print Assumptions C08_ga_find_min_fresh.

Example C08_nonvacuous : iteration demo_pop <> iteration demo_start.
Proof. destruct demo_three as [-> _]. discriminate. Qed.

(** ** C09: the best is kept, if no selection loses it; LimitPopulation may lose it.

    Full statement: for the library's selections the reported best value never
    increases and the returned value is the least one evaluated.  Missing: it is
    false for LimitPopulation ([C09_ga_best_lost_refuted]) and when the best value
    is -infinity. *)
Theorem C09_ga_least_value_partial :
  forall (U T : Type) (cfg : ga_config U T) fuel p u x v p' u' t,
    Forall keeps_best (ga_selections cfg) ->
    ga_find_min cfg fuel p u = (Ret (Some (x, v), p'), u', t) ->
    forall y w, evaluated t y w -> is_finite w = true -> leb v w = true.
Proof. exact @find_min_least. Qed.
Print Assumptions C09_ga_least_value_partial.
Theorem C09_ga_best_monotone_partial :
  forall (U T : Type) (cfg : ga_config U T) fuel p u o u' t,
    Forall selection_copies (ga_selections cfg) -> Forall keeps_best (ga_selections cfg) ->
    ga_find_min cfg fuel p u = (o, u', t) ->
    forall t1 e1 t2 e2 t3 p1 p2 b1,
      t = t1 ++ e1 :: t2 ++ e2 :: t3 -> reported [e1] p1 -> reported [e2] p2 ->
      best_individual p1 = Some b1 -> is_finite (fitness b1) = true -> iteration p2 > 0 ->
      exists b2, best_individual p2 = Some b2 /\ leb (fitness b2) (fitness b1) = true.
Proof. exact @find_min_monotone. Qed.
Print Assumptions C09_ga_best_monotone_partial.
(** KillFitnessNaN keeps the best. *)
Theorem C09_kill_fitness_nan_keeps_best :
  forall U T, @keeps_best U T (fun p => cret (kill_fitness_nan p)).
Proof. exact @kill_fitness_nan_keeps_best. Qed.
Print Assumptions C09_kill_fitness_nan_keeps_best.
Theorem C09_ga_best_lost_refuted :
  exists (cfg : ga_config nat Z) fuel u x v p' u' t y w,
    ga_selections cfg = [fun p => cpure (limit_population 1 p)] /\
    ga_find_min cfg fuel (Population [] None None 0) u = (Ret (Some (x, v), p'), u', t) /\
    evaluated t y w /\ is_finite w = true /\ ltb w v = true.
Proof. exact lose_witness. Qed.
Print Assumptions C09_ga_best_lost_refuted.

Example C09_nonvacuous :
  let cfg := ga_set_selection demo [fun p => cret (kill_fitness_nan p)] in
  Forall keeps_best (ga_selections cfg) /\ Forall selection_copies (ga_selections cfg) /\
  returned (fst (fst (ga_find_min cfg 10 demo_start 0))) = true.
Proof.
  repeat split.
  - repeat constructor. apply kill_fitness_nan_keeps_best.
  - repeat constructor. apply kill_fitness_nan_copies.
Qed.

(** ** C27: the GA never leaves the set its creator and last pre-birth keep to. *)
Theorem C27_ga_stays_in_box :
  forall (U T : Type) (ok : ga_config U T -> Prop),
    (forall cfg, ok cfg -> Forall selection_copies (ga_selections cfg)) ->
    forall (S : T -> Prop) p h cfg fuel u o u' t,
      (forall cfg, ok cfg -> stays_in S cfg) ->
      ga_reach ok p h -> ok cfg ->
      ga_find_min cfg fuel p u = (o, u', t) \/ ga_next_iterations cfg fuel p u = (o, u', t) ->
      Forall S (evals t) /\
      (forall e q, In e t -> shows e = Some q -> inside S q) /\
      (forall x v p', o = Ret (Some (x, v), p') -> S x /\ inside S p').
Proof. exact @run_inside. Qed.
Print Assumptions C27_ga_stays_in_box.

Example C27_nonvacuous :
  Forall selection_copies (ga_selections demo) /\
  stays_in (fun x : Z => (Z.abs x <= 6)%Z) demo /\
  returned (fst (fst (ga_find_min demo 10 demo_start 0))) = true.
Proof.
  split; [apply demo_legal|]. split; [|vm_compute; reflexivity]. split.
  - intros u xs u' H. inversion H; subst. repeat constructor; simpl; lia.
  - exists [], demo_pre_birth. split; [reflexivity|]. intros p xs u ys u' H. inversion H; subst.
    apply Forall_forall. intros x Hx. apply filter_In in Hx. destruct Hx as [_ Hx]. lia.
Qed.

(** ** C71 (GA part): invariants after any history of API calls. *)
Theorem C71_ga_invariants_after_any_history :
  forall (U T : Type) (ok : ga_config U T -> Prop),
    (forall cfg, ok cfg -> Forall selection_copies (ga_selections cfg)) ->
    forall p h, ga_reach ok p h ->
      population_valued h p /\
      (iteration p > 0 -> settled p) /\
      (iteration p = 0 -> best_individual p = None /\ worst_individual p = None) /\
      iteration p = iterations_of h.
Proof. exact @reach_invariants. Qed.
Print Assumptions C71_ga_invariants_after_any_history.

Example C71_ga_nonvacuous :
  ga_reach demo_ok (snd demo_result2) (demo_trace ++ snd demo_run2) /\ iteration (snd demo_result2) = 5.
Proof.
  split; [|apply demo_five].
  refine (ga_reach_next demo_ok demo_more 10 demo_state demo_pop demo_trace _ _ _ _ _ demo_reach demo_returns2).
  split; [apply demo_legal|reflexivity].
Qed.
