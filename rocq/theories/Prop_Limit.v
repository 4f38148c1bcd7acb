(** * C110: an iteration limit that is not reached changes nothing *)

From Coq Require Import List Arith ZArith Bool Lia.
From Verif Require Import Base FloatModel GaModel PsoModel StopModel LimitFacts DemoGa DemoPso DemoWorst DemoLimit.
Import ListNotations.
Local Open Scope nat_scope.

(** ** The genetic optimizer *)
Theorem C110_ga_find_min_limit :
  forall (U T : Type) (cfg : ga_config U T) (cs : list (stop_checker U T)) k fuel p u r p' u' t,
    ga_find_min (ga_set_stop_checker cfg (composite_any (cs ++ [max_iterations k]))) fuel p u = (Ret (r, p'), u', t) -> iteration p' <= k.
Proof. exact (fun U T cfg cs k fuel p u r p' u' t => proj1 (ga_find_limit cfg cs k fuel p u r p' u' t)). Qed.
Print Assumptions C110_ga_find_min_limit.
Theorem C110_ga_find_min_unreached :
  forall (U T : Type) (cfg : ga_config U T) (cs : list (stop_checker U T)) k fuel p u r p' u' t,
    ga_find_min (ga_set_stop_checker cfg (composite_any (cs ++ [max_iterations k]))) fuel p u = (Ret (r, p'), u', t) -> iteration p' < k ->
    ga_find_min (ga_set_stop_checker cfg (composite_any cs)) fuel p u = (Ret (r, p'), u', t).
Proof. exact (fun U T cfg cs k fuel p u r p' u' t => proj1 (proj2 (ga_find_limit cfg cs k fuel p u r p' u' t))). Qed.
Print Assumptions C110_ga_find_min_unreached.
Theorem C110_ga_find_min_short :
  forall (U T : Type) (cfg : ga_config U T) (cs : list (stop_checker U T)) k fuel p u r p' u' t,
    ga_find_min (ga_set_stop_checker cfg (composite_any cs)) fuel p u = (Ret (r, p'), u', t) -> iteration p' <= k ->
    ga_find_min (ga_set_stop_checker cfg (composite_any (cs ++ [max_iterations k]))) fuel p u = (Ret (r, p'), u', t).
Proof. exact (fun U T cfg cs k fuel p u r p' u' t => proj2 (proj2 (ga_find_limit cfg cs k fuel p u r p' u' t))). Qed.
Print Assumptions C110_ga_find_min_short.
Theorem C110_ga_next_iterations_limit :
  forall (U T : Type) (cfg : ga_config U T) (cs : list (stop_checker U T)) k fuel p u r p' u' t,
    ga_next_iterations (ga_set_stop_checker cfg (composite_any (cs ++ [max_iterations k]))) fuel p u = (Ret (r, p'), u', t) -> iteration p <= k -> iteration p' <= k.
Proof. exact (fun U T cfg cs k fuel p u r p' u' t => proj1 (ga_next_limit cfg cs k fuel p u r p' u' t)). Qed.
Print Assumptions C110_ga_next_iterations_limit.
Theorem C110_ga_next_iterations_unreached :
  forall (U T : Type) (cfg : ga_config U T) (cs : list (stop_checker U T)) k fuel p u r p' u' t,
    ga_next_iterations (ga_set_stop_checker cfg (composite_any (cs ++ [max_iterations k]))) fuel p u = (Ret (r, p'), u', t) -> iteration p' < k ->
    ga_next_iterations (ga_set_stop_checker cfg (composite_any cs)) fuel p u = (Ret (r, p'), u', t).
Proof. exact (fun U T cfg cs k fuel p u r p' u' t => proj1 (proj2 (ga_next_limit cfg cs k fuel p u r p' u' t))). Qed.
Print Assumptions C110_ga_next_iterations_unreached.
Theorem C110_ga_next_iterations_short :
  forall (U T : Type) (cfg : ga_config U T) (cs : list (stop_checker U T)) k fuel p u r p' u' t,
    ga_next_iterations (ga_set_stop_checker cfg (composite_any cs)) fuel p u = (Ret (r, p'), u', t) -> iteration p' <= k ->
    ga_next_iterations (ga_set_stop_checker cfg (composite_any (cs ++ [max_iterations k]))) fuel p u = (Ret (r, p'), u', t).
Proof. exact (fun U T cfg cs k fuel p u r p' u' t => proj2 (proj2 (ga_next_limit cfg cs k fuel p u r p' u' t))). Qed.
Print Assumptions C110_ga_next_iterations_short.
Example C110_pair : exists r p' u' t,
  ga_find_min (ga_set_stop_checker pair_run (composite_any ([max_iterations 2] ++ [max_iterations 5]))) 9 demo_start 0 = (Ret (r, p'), u', t) /\
  ga_find_min (ga_set_stop_checker pair_run (composite_any [max_iterations 2])) 9 demo_start 0 = (Ret (r, p'), u', t) /\ iteration p' = 2.
Proof. exact pair_limit. Qed.
(** Without the condition the two runs differ: the limit is reached. *)
Example C110_pair_cut :
  ended_at (ga_set_stop_checker pair_run (composite_any ([max_iterations 2] ++ [max_iterations 1]))) = Some 1 /\
  ended_at (ga_set_stop_checker pair_run (composite_any [max_iterations 2])) = Some 2.
Proof. exact pair_cut. Qed.

(** ** The particle swarm *)
Theorem C110_pso_find_min_limit :
  forall (U T : Type) (FT : FloatTrait T) (cfg : pso_config U T) (cs : list (stop_checker U (list T))) k fuel s u r s' u' t,
    pso_find_min (pso_set_stop_checker cfg (composite_any (cs ++ [max_iterations k]))) fuel s u = (Ret (r, s'), u', t) -> sw_iteration s' <= k.
Proof. exact (fun U T FT cfg cs k fuel s u r s' u' t => proj1 (pso_find_limit cfg cs k fuel s u r s' u' t)). Qed.
Print Assumptions C110_pso_find_min_limit.
Theorem C110_pso_find_min_unreached :
  forall (U T : Type) (FT : FloatTrait T) (cfg : pso_config U T) (cs : list (stop_checker U (list T))) k fuel s u r s' u' t,
    pso_find_min (pso_set_stop_checker cfg (composite_any (cs ++ [max_iterations k]))) fuel s u = (Ret (r, s'), u', t) -> sw_iteration s' < k ->
    pso_find_min (pso_set_stop_checker cfg (composite_any cs)) fuel s u = (Ret (r, s'), u', t).
Proof. exact (fun U T FT cfg cs k fuel s u r s' u' t => proj1 (proj2 (pso_find_limit cfg cs k fuel s u r s' u' t))). Qed.
Print Assumptions C110_pso_find_min_unreached.
Theorem C110_pso_find_min_short :
  forall (U T : Type) (FT : FloatTrait T) (cfg : pso_config U T) (cs : list (stop_checker U (list T))) k fuel s u r s' u' t,
    pso_find_min (pso_set_stop_checker cfg (composite_any cs)) fuel s u = (Ret (r, s'), u', t) -> sw_iteration s' <= k ->
    pso_find_min (pso_set_stop_checker cfg (composite_any (cs ++ [max_iterations k]))) fuel s u = (Ret (r, s'), u', t).
Proof. exact (fun U T FT cfg cs k fuel s u r s' u' t => proj2 (proj2 (pso_find_limit cfg cs k fuel s u r s' u' t))). Qed.
Print Assumptions C110_pso_find_min_short.
Theorem C110_pso_next_iterations_limit :
  forall (U T : Type) (FT : FloatTrait T) (cfg : pso_config U T) (cs : list (stop_checker U (list T))) k fuel s u r s' u' t,
    pso_next_iterations (pso_set_stop_checker cfg (composite_any (cs ++ [max_iterations k]))) fuel s u = (Ret (r, s'), u', t) -> sw_iteration s <= k -> sw_iteration s' <= k.
Proof. exact (fun U T FT cfg cs k fuel s u r s' u' t => proj1 (pso_next_limit cfg cs k fuel s u r s' u' t)). Qed.
Print Assumptions C110_pso_next_iterations_limit.
Theorem C110_pso_next_iterations_unreached :
  forall (U T : Type) (FT : FloatTrait T) (cfg : pso_config U T) (cs : list (stop_checker U (list T))) k fuel s u r s' u' t,
    pso_next_iterations (pso_set_stop_checker cfg (composite_any (cs ++ [max_iterations k]))) fuel s u = (Ret (r, s'), u', t) -> sw_iteration s' < k ->
    pso_next_iterations (pso_set_stop_checker cfg (composite_any cs)) fuel s u = (Ret (r, s'), u', t).
Proof. exact (fun U T FT cfg cs k fuel s u r s' u' t => proj1 (proj2 (pso_next_limit cfg cs k fuel s u r s' u' t))). Qed.
Print Assumptions C110_pso_next_iterations_unreached.
Theorem C110_pso_next_iterations_short :
  forall (U T : Type) (FT : FloatTrait T) (cfg : pso_config U T) (cs : list (stop_checker U (list T))) k fuel s u r s' u' t,
    pso_next_iterations (pso_set_stop_checker cfg (composite_any cs)) fuel s u = (Ret (r, s'), u', t) -> sw_iteration s' <= k ->
    pso_next_iterations (pso_set_stop_checker cfg (composite_any (cs ++ [max_iterations k]))) fuel s u = (Ret (r, s'), u', t).
Proof. exact (fun U T FT cfg cs k fuel s u r s' u' t => proj2 (proj2 (pso_next_limit cfg cs k fuel s u r s' u' t))). Qed.
Print Assumptions C110_pso_next_iterations_short.
Example C110_flock : exists r s' u' t,
  pso_find_min (pso_set_stop_checker flock (composite_any ([max_iterations 3] ++ [max_iterations 5]))) 10 flock_start (0, 0) = (Ret (r, s'), u', t) /\
  pso_find_min (pso_set_stop_checker flock (composite_any [max_iterations 3])) 10 flock_start (0, 0) = (Ret (r, s'), u', t) /\ sw_iteration s' = 3.
Proof. exact flock_limit. Qed.
