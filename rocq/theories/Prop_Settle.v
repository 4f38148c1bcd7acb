(** * Property C85: runs that end because the goal settles *)

From Coq Require Import List Arith ZArith Bool.
From Verif Require Import Base FloatModel GaModel GaComponents PsoModel StopModel SpecGa SpecPso SpecRun SpecStop
  SpecSettle SettleFacts DemoGa DemoFloats DemoPso DemoSettle.
Import ListNotations.

(** ** C85: under GoalNotChange(m, delta), delta > 0, a run whose goal values lie in an
    interval of at most [n] deltas ends within (n + 2) * (m + 1) iterations. *)
Theorem C85_pso_find_settles :
  forall (np64 : nan_policy 53 1024) (dbg : bool) (m n : nat) (lo hi delta : f64),
    steps_between lo hi delta n ->
  forall (U T : Type) (FT : FloatTrait T) (l : lens U gnc) (cfg : pso_config U T),
    pso_keeps (lget l) cfg -> pso_ends cfg -> (forall a, ends (pso_stop cfg a)) ->
    no_later l (goal_not_change np64 dbg m delta) (pso_stop cfg) ->
  forall fuel s u o u' t,
    change_iter (lget l u) = 0 ->
    (forall w coords w', pso_coordinates cfg w = (Ret coords, w') -> coords <> []) ->
    pso_find_min cfg fuel s u = (o, u', t) -> values_between lo hi t ->
    ((n + 2) * (m + 1) < fuel -> o <> NoFuel) /\
    (forall r s', o = Ret (r, s') -> sw_iteration s' <= (n + 2) * (m + 1)).
Proof. exact @pso_settles_find. Qed.
Print Assumptions C85_pso_find_settles.
Theorem C85_pso_next_settles :
  forall (np64 : nan_policy 53 1024) (dbg : bool) (m n : nat) (lo hi delta : f64),
    steps_between lo hi delta n ->
  forall (U T : Type) (FT : FloatTrait T) (l : lens U gnc) (cfg : pso_config U T),
    pso_keeps (lget l) cfg -> pso_ends cfg -> (forall a, ends (pso_stop cfg a)) ->
    no_later l (goal_not_change np64 dbg m delta) (pso_stop cfg) ->
  forall (ok : pso_config U T -> Prop) fuel s h u o u' t,
    pso_reach ok s h -> (exists x v, evaluated h x v) -> change_iter (lget l u) <= sw_iteration s ->
    pso_next_iterations cfg fuel s u = (o, u', t) -> values_between lo hi (h ++ t) ->
    ((n + 2) * (m + 1) < fuel -> o <> NoFuel) /\
    (forall r s', o = Ret (r, s') -> sw_iteration s' <= sw_iteration s + (n + 2) * (m + 1)).
Proof. exact @pso_settles_next. Qed.
Print Assumptions C85_pso_next_settles.
(** The genetic algorithm, when no selection loses the best individual. *)
Theorem C85_ga_find_settles :
  forall (np64 : nan_policy 53 1024) (dbg : bool) (m n : nat) (lo hi delta : f64),
    steps_between lo hi delta n ->
  forall (U T : Type) (l : lens U gnc) (cfg : ga_config U T),
    Forall selection_copies (ga_selections cfg) -> Forall keeps_best (ga_selections cfg) ->
    ga_keeps (lget l) cfg -> ga_ends cfg -> (forall a, ends (ga_stop cfg a)) ->
    no_later l (goal_not_change np64 dbg m delta) (ga_stop cfg) ->
  forall fuel p u o u' t,
    change_iter (lget l u) = 0 ->
    (forall w xs w', ga_creator cfg w = (Ret xs, w') -> xs <> []) ->
    ga_find_min cfg fuel p u = (o, u', t) -> values_between lo hi t ->
    (1 + (n + 2) * (m + 1) < fuel -> o <> NoFuel) /\
    (forall r p', o = Ret (r, p') -> iteration p' <= 1 + (n + 2) * (m + 1)).
Proof. exact @ga_settles_find. Qed.
Print Assumptions C85_ga_find_settles.
(** For every m and delta > 0 there is one bound for all runs with finite values. *)
Theorem C85_pso_some_bound :
  forall (m : nat) (delta : f64), is_finite delta = true -> ltb (b_of_Z 0) delta = true ->
  exists B, forall (np64 : nan_policy 53 1024) (dbg : bool) (U T : Type) (FT : FloatTrait T) (l : lens U gnc)
      (cfg : pso_config U T) fuel s u o u' t,
    pso_keeps (lget l) cfg -> pso_ends cfg -> (forall a, ends (pso_stop cfg a)) ->
    no_later l (goal_not_change np64 dbg m delta) (pso_stop cfg) -> change_iter (lget l u) = 0 ->
    (forall w coords w', pso_coordinates cfg w = (Ret coords, w') -> coords <> []) ->
    pso_find_min cfg fuel s u = (o, u', t) -> (forall x v, evaluated t x v -> is_finite v = true) ->
    (B < fuel -> o <> NoFuel) /\ (forall r s', o = Ret (r, s') -> sw_iteration s' <= B).
Proof. exact @pso_settles_finite. Qed.
Print Assumptions C85_pso_some_bound.
Theorem C85_ga_some_bound :
  forall (m : nat) (delta : f64), is_finite delta = true -> ltb (b_of_Z 0) delta = true ->
  exists B, forall (np64 : nan_policy 53 1024) (dbg : bool) (U T : Type) (l : lens U gnc)
      (cfg : ga_config U T) fuel p u o u' t,
    Forall selection_copies (ga_selections cfg) -> Forall keeps_best (ga_selections cfg) ->
    ga_keeps (lget l) cfg -> ga_ends cfg -> (forall a, ends (ga_stop cfg a)) ->
    no_later l (goal_not_change np64 dbg m delta) (ga_stop cfg) -> change_iter (lget l u) = 0 ->
    (forall w xs w', ga_creator cfg w = (Ret xs, w') -> xs <> []) ->
    ga_find_min cfg fuel p u = (o, u', t) -> (forall x v, evaluated t x v -> is_finite v = true) ->
    (B < fuel -> o <> NoFuel) /\ (forall r p', o = Ret (r, p') -> iteration p' <= B).
Proof. exact @ga_settles_finite. Qed.
Print Assumptions C85_ga_some_bound.
(** The checkers meant: GoalNotChange itself, or a CompositeAny that contains it. *)
Theorem C85_goal_not_change_alone :
  forall (U G T : Type) (l : lens U G), lens_ok l ->
  forall stop : alg_state T -> comp G bool, no_later l stop (fun s => zoom l (stop s)).
Proof. exact @zoom_no_later. Qed.
Print Assumptions C85_goal_not_change_alone.
Theorem C85_composite_any :
  forall (U G T : Type) (l : lens U G) (stop : alg_state T -> comp G bool) pre c post,
    no_later l stop c -> (forall d, In d (pre ++ post) -> forall s, keeps (lget l) (d s)) ->
    no_later l stop (composite_any (pre ++ c :: post)).
Proof. exact @any_no_later. Qed.
Print Assumptions C85_composite_any.

(** ** The limits *)
(** A swarm without particles has no best goal: GoalNotChange never ends it. *)
Theorem C85_empty_swarm_limit :
  forall (np64 : nan_policy 53 1024) (dbg : bool) (m : nat) (delta : f64) (U T : Type) (FT : FloatTrait T)
      (l : lens U gnc) (cfg : pso_config U T) fuel s u r s' u' t,
    pso_stop cfg = (fun a => zoom l (goal_not_change np64 dbg m delta a)) ->
    (forall w coords w', pso_coordinates cfg w = (Ret coords, w') -> coords = []) ->
    pso_find_min cfg fuel s u <> (Ret (r, s'), u', t).
Proof. exact @empty_swarm_endless. Qed.
Print Assumptions C85_empty_swarm_limit.
(** LimitPopulation can lose the best individual, and then the goal need not settle:
    everything else holds of this configuration, and it runs for ever. *)
Theorem C85_limit_population_limit :
  forall (np64 : nan_policy 53 1024) (dbg : bool) (m : nat),
  exists cfg : ga_config gnc Z,
    ga_selections cfg = [fun p => cpure (limit_population 2 p)] /\
    Forall selection_copies (ga_selections cfg) /\ ga_keeps (lget lens_id) cfg /\ ga_ends cfg /\
    ga_stop cfg = goal_not_change np64 dbg m (fl 1) /\ no_later lens_id (goal_not_change np64 dbg m (fl 1)) (ga_stop cfg) /\
    steps_between (fl 2) (fl 10) (fl 1) 8 /\
    (forall w xs w', ga_creator cfg w = (Ret xs, w') -> xs <> []) /\
    forall fuel p, exists u' t, ga_find_min cfg fuel p gnc_new = (NoFuel, u', t) /\ values_between (fl 2) (fl 10) t.
Proof. exact @seesaw_endless. Qed.
Print Assumptions C85_limit_population_limit.

(** Goals 9, 7, 5, 3, 1, 1, 1, 1: iteration 7, of at most 31.  A swarm that falls to
    the boundary: iteration 4, of at most 81.  The same swarm, paused and resumed. *)
Example C85_nonvacuous :
  (Forall selection_copies (ga_selections settling) /\ Forall keeps_best (ga_selections settling) /\
   ga_keeps (lget lens_id) settling /\ ga_ends settling /\ (forall a, ends (ga_stop settling a)) /\
   no_later lens_id (goal_not_change np64_default true 2 (fl 1)) (ga_stop settling) /\
   (forall w xs w', ga_creator settling w = (Ret xs, w') -> xs <> []) /\ steps_between (fl 1) (fl 9) (fl 1) 8 /\
   exists r p' u' t, ga_find_min settling 40 demo_start gnc_new = (Ret (r, p'), u', t) /\
     values_between (fl 1) (fl 9) t /\ iteration p' = 7) /\
  (pso_keeps (lget lens_id) landing /\ pso_ends landing /\ (forall a, ends (pso_stop landing a)) /\
   no_later lens_id (goal_not_change np64_default true 2 (fl 4)) (pso_stop landing) /\
   (forall w xs w', pso_coordinates landing w = (Ret xs, w') -> xs <> []) /\ steps_between (fl 1) (fl 101) (fl 4) 25 /\
   exists r s' u' t, pso_find_min landing 90 flock_start gnc_new = (Ret (r, s'), u', t) /\
     values_between (fl 1) (fl 101) t /\ sw_iteration s' = 4) /\
  exists s h u,
    pso_reach (fun _ : pso_config gnc f64 => True) s h /\ (exists x v, evaluated h x v) /\ sw_iteration s = 1 /\
    change_iter (lget lens_id u) = 0 /\
    exists r s' u' t, pso_next_iterations landing 90 s u = (Ret (r, s'), u', t) /\
      values_between (fl 1) (fl 101) (h ++ t) /\ sw_iteration s' = 4.
Proof. split; [exact settling_case|]. split; [exact landing_case|exact resumed_case]. Qed.
