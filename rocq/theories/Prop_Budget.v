(** * Properties C90 and C91: how often the goal is called, and runs that are cut off *)

From Coq Require Import List Arith ZArith Bool Lia.
From Verif Require Import Base FloatModel Rng GaModel GaComponents PsoModel SpecGa SpecSel SpecPso SpecBudget
  BudgetFacts FuelFacts DemoGa DemoPso DemoStatProgram.
Import ListNotations.

(** ** C90: a genetic run calls the goal at most n + m * c * iterations times *)
Theorem C90_find :
  forall (U T : Type) (room : nat -> Prop) n m c (cfg : ga_config U T), ga_economy room n m c cfg ->
  forall fuel p u r p' u' t, ga_find_min cfg fuel p u = (Ret (r, p'), u', t) ->
    n <= length (evals t) <= n + m * c * iteration p' /\
    room (length (individuals p')) /\ Forall (fun q => room (length (individuals q))) (consulted t).
Proof. exact @find_budget. Qed.
Print Assumptions C90_find.
Theorem C90_next :
  forall (U T : Type) (room : nat -> Prop) n m c (cfg : ga_config U T), ga_economy room n m c cfg ->
  forall fuel p u r p' u' t, ga_next_iterations cfg fuel p u = (Ret (r, p'), u', t) -> room (length (individuals p)) ->
    iteration p <= iteration p' /\ length (evals t) <= m * c * (iteration p' - iteration p) /\
    room (length (individuals p')) /\ Forall (fun q => room (length (individuals q))) (consulted t).
Proof. exact @next_budget. Qed.
Print Assumptions C90_next.
(** Tournament: one child for each of the families, whatever the selections do. *)
Theorem C90_tournament :
  forall (U G : Type) (FT : FloatTrait G) (L : lens U rng) n (intervals : list (G * G)) (cfg : ga_config U (list G)),
    (forall u xs u', ga_creator cfg u = (Ret xs, u') -> length xs = n) ->
    (exists single, ga_cross cfg = vec_cross_all_genes single) ->
    (forall f, In f (ga_pre_births cfg) -> f = (fun p xs => cpure (pre_birth_interval intervals p xs))) ->
  forall tr, ga_pairing cfg = (fun p => zoom L (tournament_pairs tr p)) ->
    ga_economy (fun _ => True) n (families_count tr) 1 cfg.
Proof. exact @tournament_economy. Qed.
Print Assumptions C90_tournament.
(** RandomPairing after LimitPopulation: half of the limit. *)
Theorem C90_random_pairing :
  forall (U G : Type) (FT : FloatTrait G) (L : lens U rng) n (intervals : list (G * G)) (cfg : ga_config U (list G)),
    (forall u xs u', ga_creator cfg u = (Ret xs, u') -> length xs = n) ->
    (exists single, ga_cross cfg = vec_cross_all_genes single) ->
    (forall f, In f (ga_pre_births cfg) -> f = (fun p xs => cpure (pre_birth_interval intervals p xs))) ->
  forall max earlier, ga_pairing cfg = (fun p => zoom L (random_pairing p)) ->
    ga_selections cfg = earlier ++ [fun p => cpure (limit_population max p)] -> n <= max + 1 ->
    ga_economy (fun k => k <= max + 1) n ((max + 1) / 2) 1 cfg.
Proof. exact @random_pairing_economy. Qed.
Print Assumptions C90_random_pairing.
(** Two chromosomes, a family of two children: 3 generations need at most 8 calls, and need them. *)
Example C90_nonvacuous : ga_economy (fun _ => True) 2 1 2 demo /\
  ga_find_min demo 10 demo_start 0 = (Ret (fst demo_result, demo_pop), demo_state, demo_trace) /\
  iteration demo_pop = 3 /\ length (evals demo_trace) = 8.
Proof. split; [exact demo_economy|]. split; [exact demo_returns|]. vm_compute. auto. Qed.

(** ** C91: a run that is cut off has done what the whole run does first *)
Theorem C91_ga_find :
  forall (U T : Type) (cfg : ga_config U T) f1 f2 p, f1 <= f2 -> grows (ga_find_min cfg f1 p) (ga_find_min cfg f2 p).
Proof. exact @ga_find_grows. Qed.
Print Assumptions C91_ga_find.
Theorem C91_ga_next :
  forall (U T : Type) (cfg : ga_config U T) f1 f2 p, f1 <= f2 -> grows (ga_next_iterations cfg f1 p) (ga_next_iterations cfg f2 p).
Proof. exact @ga_next_grows. Qed.
Print Assumptions C91_ga_next.
Theorem C91_pso_find :
  forall (U T : Type) (FT : FloatTrait T) (cfg : pso_config U T) f1 f2 s, f1 <= f2 -> grows (pso_find_min cfg f1 s) (pso_find_min cfg f2 s).
Proof. exact @pso_find_grows. Qed.
Print Assumptions C91_pso_find.
Theorem C91_pso_next :
  forall (U T : Type) (FT : FloatTrait T) (cfg : pso_config U T) f1 f2 s, f1 <= f2 -> grows (pso_next_iterations cfg f1 s) (pso_next_iterations cfg f2 s).
Proof. exact @pso_next_grows. Qed.
Print Assumptions C91_pso_next.
(** Cut off after two generations the demo run has called the goal 6 times, of 8. *)
Example C91_nonvacuous :
  fst (fst (ga_find_min demo 10 demo_start 0)) <> NoFuel /\
  fst (fst (ga_find_min demo 2 demo_start 0)) = NoFuel /\
  evals (snd (ga_find_min demo 2 demo_start 0)) = firstn 6 (evals demo_trace) /\ length (evals demo_trace) = 8.
Proof.
  split; [rewrite demo_returns; discriminate|].
  split; [destruct (fst (fst (ga_find_min demo 2 demo_start 0))) eqn:E; [|  |reflexivity]|vm_compute; auto].
  - apply (f_equal returned) in E. vm_compute in E. discriminate E.
  - assert (C : match fst (fst (ga_find_min demo 2 demo_start 0)) with Panic => true | _ => false end = false) by (vm_compute; reflexivity).
    rewrite E in C. discriminate C.
Qed.
