(** * Properties C28 and C76: genetic optimizers whose components fit together never panic *)

From Coq Require Import List Arith ZArith Bool Lia.
From Flocq Require Import Core.FLX IEEE754.BinarySingleNaN IEEE754.Binary.
From Verif Require Import Base Logic FloatModel Rng GaModel GaComponents StopModel
  SpecGa SpecRun SpecBox SpecTotal SpecStandard PsoStandard GaTotal GaStandard ArithFacts DemoFloats DemoLibm DemoGa.
Import ListNotations.

(** ** C28: the documented configuration *)
Theorem C28_components_fit_f64 :
  forall (U : Type) (L : lens U rng) (I : phase -> nat -> U -> Prop) (HI : lasting L I) (LM : Libm f64) (np64 : nan_policy 53 1024)
    size box c answers goal stop pairing single_cross prob bits selections loggers,
    @random_creator_new f64 NumGene64 size box = Ret c ->
    (forall i, In i box -> is_finite (b_sub np64 (snd i) (fst i)) = true) ->
    (forall ph i x, in_box box x -> always (I ph i) (fun v => is_finite v = true) (goal x)) ->
    (forall q, always (I Running (as_iter q)) (answers q) (stop q)) ->
    @standard_pairing 53 1024 U L pairing ->
    @standard_single_cross 53 1024 _ _ np64 _ _ U L cross_bitwise64 single_cross ->
    Forall (@standard_selection 53 1024 _ _ np64 U box) selections ->
    logging_fits (fun _ => True) I loggers ->
    ga_fits (in_box box) (fun v => is_finite v = true) I answers (dim (length box)) 2
      (GaConfig goal stop (zoom L (@random_create f64 NumGene64 np64 c)) pairing
         (vec_cross_all_genes single_cross)
         (vec_mutation np64 L prob (fun g => zoom L (bitwise_mutation64 bits g))) selections
         [fun p cs => cpure (@pre_birth_interval f64 (FloatIEEE np64) box p cs)] loggers).
Proof. exact @standard_ga64. Qed.
Print Assumptions C28_components_fit_f64.

Theorem C28_components_fit_f32 :
  forall (U : Type) (L : lens U rng) (I : phase -> nat -> U -> Prop) (HI : lasting L I) (LM : Libm f32) (np64 : nan_policy 53 1024) (np32 : nan_policy 24 128)
    size box c answers goal stop pairing single_cross prob bits selections loggers,
    @random_creator_new f32 (NumGene32 np64 np32) size box = Ret c ->
    (forall i, In i box -> is_finite (fst i) = true /\ is_finite (snd i) = true) ->
    (forall ph i x, in_box box x -> always (I ph i) (fun v => is_finite v = true) (goal x)) ->
    (forall q, always (I Running (as_iter q)) (answers q) (stop q)) ->
    @standard_pairing 24 128 U L pairing ->
    @standard_single_cross 24 128 _ _ np32 _ _ U L cross_bitwise32 single_cross ->
    Forall (@standard_selection 24 128 _ _ np32 U box) selections ->
    logging_fits (fun _ => True) I loggers ->
    ga_fits (in_box box) (fun v => is_finite v = true) I answers (dim (length box)) 2
      (GaConfig goal stop (zoom L (@random_create f32 (NumGene32 np64 np32) np64 c)) pairing
         (vec_cross_all_genes single_cross)
         (vec_mutation np64 L prob (fun g => zoom L (bitwise_mutation32 bits g))) selections
         [fun p cs => cpure (@pre_birth_interval f32 (FloatIEEE np32) box p cs)] loggers).
Proof. exact @standard_ga32. Qed.
Print Assumptions C28_components_fit_f32.

(** With such components and a stop checker that stops by generation [k]: *)
Theorem C28_run :
  forall (prec emax : Z) (Hp : Prec_gt_0 prec) (He : Prec_lt_emax prec emax) (np : nan_policy prec emax) (U : Type)
    (I : phase -> nat -> U -> Prop)
    answers raw kk (cfg : ga_config U (list (bfloat prec emax))) box k fuel p u,
    ga_fits (in_box box) (fun v => is_finite v = true) I answers raw kk cfg ->
    Forall (@standard_selection prec emax Hp He np U box) (ga_selections cfg) ->
    stops_by k answers -> k < fuel -> I Resting 0 u ->
    exists r p' u' t,
      ga_find_min cfg fuel p u = (Ret (r, p'), u', t) /\
      iteration p' <= k /\ answers (ga_view p') true /\
      population_fits (in_box box) (fun v => is_finite v = true) p' /\
      Forall (population_seen (in_box box) (fun v => is_finite v = true)) t /\
      r = as_best (ga_view p') /\ (r = None <-> iteration p' = 0) /\
      (forall x v, r = Some (x, v) -> in_box box x /\ is_finite v = true /\ evaluated t x v) /\
      I Running (iteration p') u'.
Proof. exact @standard_ga_run. Qed.
Print Assumptions C28_run.

(** After any history of runs with such selections, [next_iterations] goes on as well. *)
Theorem C28_continued :
  forall (prec emax : Z) (Hp : Prec_gt_0 prec) (He : Prec_lt_emax prec emax) (np : nan_policy prec emax) (U : Type)
    (I : phase -> nat -> U -> Prop) (ok : ga_config U (list (bfloat prec emax)) -> Prop)
    answers raw kk (cfg : ga_config U (list (bfloat prec emax))) box k fuel p h u,
    (forall c, ok c -> Forall (@standard_selection prec emax Hp He np U box) (ga_selections c)) ->
    ga_reach ok p h -> ok cfg -> population_fits (in_box box) (fun v => is_finite v = true) p ->
    settled_best (in_box box) (fun v => is_finite v = true) p ->
    ga_fits (in_box box) (fun v => is_finite v = true) I answers raw kk cfg ->
    stops_by k answers -> k - iteration p < fuel -> I Resting (iteration p) u ->
    exists r p' u' t,
      ga_next_iterations cfg fuel p u = (Ret (r, p'), u', t) /\
      (iteration p <= k -> iteration p' <= k) /\ answers (ga_view p') true /\
      population_fits (in_box box) (fun v => is_finite v = true) p' /\
      settled_best (in_box box) (fun v => is_finite v = true) p' /\
      Forall (population_seen (in_box box) (fun v => is_finite v = true)) t /\
      r = as_best (ga_view p') /\ (r = None <-> iteration p' = 0) /\
      (forall x v, r = Some (x, v) -> in_box box x /\ is_finite v = true /\ evaluated (h ++ t) x v) /\
      I Running (iteration p') u'.
Proof. exact @standard_ga_next. Qed.
Print Assumptions C28_continued.

(** With the stop checker of the README, CompositeAny(Threshold(t0), MaxIterations(k)),
    whose answers are [any_answers t0 k] (see C46_composite_any): *)
Theorem C28_readme :
  forall (prec emax : Z) (Hp : Prec_gt_0 prec) (He : Prec_lt_emax prec emax) (np : nan_policy prec emax) (U : Type)
    (I : phase -> nat -> U -> Prop)
    t0 raw kk (cfg : ga_config U (list (bfloat prec emax))) box k fuel p u,
    ga_fits (in_box box) (fun v => is_finite v = true) I (any_answers t0 k) raw kk cfg ->
    Forall (@standard_selection prec emax Hp He np U box) (ga_selections cfg) ->
    0 < k -> k < fuel -> I Resting 0 u ->
    exists x v p' u' t,
      ga_find_min cfg fuel p u = (Ret (Some (x, v), p'), u', t) /\
      0 < iteration p' <= k /\ (iteration p' = k \/ leb v t0 = true) /\
      in_box box x /\ is_finite v = true /\ evaluated t x v /\
      Forall (population_seen (in_box box) (fun v => is_finite v = true)) t /\ I Running (iteration p') u'.
Proof. exact @readme_ga_run. Qed.
Print Assumptions C28_readme.

(** Four individuals of two genes, two tournament families, bitwise mutation of every
    tenth gene, at most two generations or a value below -2. *)
Definition readme_box : list (f64 * f64) := [(minus_two64, ten64); (one64, four64)].
Definition readme_ga (goal : list f64 -> f64) : ga_config rng (list f64) :=
  GaConfig (goal_from_function goal) (composite_any [threshold minus_two64; max_iterations 2])
    (zoom lens_id (@random_create f64 NumGene64 np64_default (RandomCreator 4 readme_box)))
    (fun p => zoom lens_id (tournament_pairs (Tournament 2 2 1) p))
    (vec_cross_all_genes (fun parents => zoom lens_id
       (@float_cross_exp f64 (FloatIEEE np64_default) demo_libm _ true parents)))
    (vec_mutation np64_default lens_id ten64 (fun g => zoom lens_id (bitwise_mutation64 3 g)))
    [fun p => cret (kill_fitness_nan p); fun p => cpure (limit_population 4 p)]
    [fun p cs => cpure (@pre_birth_interval f64 (FloatIEEE np64_default) readme_box p cs)] [].
Definition readme_goal (x : list f64) : f64 := nth 1 x one64.
Definition empty_population : population (list f64) := Population [] None None 0.

Example C28_nonvacuous :
  ga_fits (in_box readme_box) (fun v => is_finite v = true) (fun _ _ _ => True) (any_answers minus_two64 2) (dim 2) 2
    (readme_ga readme_goal) /\
  Forall (@standard_selection 53 1024 _ _ np64_default rng readme_box) (ga_selections (readme_ga readme_goal)) /\
  (exists y, fst (fst (ga_find_min (readme_ga readme_goal) 3 empty_population counter)) = Ret y /\
     (option_map (fun r => (map to_bits64 (fst r), to_bits64 (snd r))) (fst y),
      length (individuals (snd y)), iteration (snd y)) =
       (Some ([0; to_bits64 one64]%Z, to_bits64 one64), 4, 2)).
Proof.
  assert (S : Forall (@standard_selection 53 1024 _ _ np64_default rng readme_box) (ga_selections (readme_ga readme_goal))).
  { constructor; [apply std_kill_nan|]. constructor; [apply std_limit; lia|constructor]. }
  split; [|split; [exact S|]].
  - apply (C28_components_fit_f64 rng lens_id (fun _ _ _ => True) (conj (fun _ _ _ => Logic.I) (fun _ _ _ _ _ => Logic.I)) demo_libm np64_default 4 readme_box); auto.
    + intros i [<-|[<-|[]]]; reflexivity.
    + intros ph i x Hx u _. eexists _, _. split; [reflexivity|]. split; auto. unfold readme_goal, in_box, readme_box in *.
      inversion Hx as [|? ? ? ? _ H1]; subst. inversion H1 as [|? ? ? ? [K _] _]; subst. exact K.
    + intros q. apply any_always.
    + now apply std_tournament.
    + apply std_cross_exp.
    + apply (plain_logging _ (fun _ _ => True)). intros l k q [].
  - apply show_ret. vm_compute. reflexivity.
Qed.

(** Without a finite goal the population dies out and the next pairing panics. *)
Theorem C28_extinct_limit :
  exists (goal : list f64 -> f64) u,
    fst (fst (ga_find_min (readme_ga goal) 3 empty_population u)) = Panic.
Proof. exists (fun _ => @Binary.B754_nan 53 1024 false 1 eq_refl), counter. vm_compute. reflexivity. Qed.
Print Assumptions C28_extinct_limit.

(** ** C76: an optimizer whose components fit together never panics, whatever stops it,
    and its population stays alive. *)
Theorem C76_find_min_never_panics :
  forall (U T : Type) (born : T -> Prop) (fit : f64 -> Prop) (I : phase -> nat -> U -> Prop) answers raw k (cfg : ga_config U T) fuel p u,
    ga_fits born fit I answers raw k cfg -> I Resting 0 u -> fst (fst (ga_find_min cfg fuel p u)) <> Panic.
Proof. exact @ga_find_never_panics. Qed.
Print Assumptions C76_find_min_never_panics.

Theorem C76_next_iterations_never_panics :
  forall (U T : Type) (born : T -> Prop) (fit : f64 -> Prop) (I : phase -> nat -> U -> Prop) answers raw k (cfg : ga_config U T) fuel p u,
    ga_fits born fit I answers raw k cfg -> I Resting (iteration p) u -> population_fits born fit p -> settled_best born fit p ->
    fst (fst (ga_next_iterations cfg fuel p u)) <> Panic.
Proof. exact @ga_next_never_panics. Qed.
Print Assumptions C76_next_iterations_never_panics.

Theorem C76_find_min_keeps_alive :
  forall (U T : Type) (born : T -> Prop) (fit : f64 -> Prop) (I : phase -> nat -> U -> Prop) answers raw k (cfg : ga_config U T) fuel p u r p' u' t,
    ga_fits born fit I answers raw k cfg -> I Resting 0 u ->
    ga_find_min cfg fuel p u = (Ret (r, p'), u', t) ->
    population_fits born fit p' /\ settled_best born fit p' /\ answers (ga_view p') true /\ I Running (iteration p') u'.
Proof. exact @ga_find_fits. Qed.
Print Assumptions C76_find_min_keeps_alive.

Theorem C76_next_iterations_keeps_alive :
  forall (U T : Type) (born : T -> Prop) (fit : f64 -> Prop) (I : phase -> nat -> U -> Prop) answers raw k (cfg : ga_config U T) fuel p u r p' u' t,
    ga_fits born fit I answers raw k cfg -> I Resting (iteration p) u -> population_fits born fit p -> settled_best born fit p ->
    ga_next_iterations cfg fuel p u = (Ret (r, p'), u', t) ->
    population_fits born fit p' /\ settled_best born fit p' /\ answers (ga_view p') true /\ I Running (iteration p') u'.
Proof. exact @ga_next_fits. Qed.
Print Assumptions C76_next_iterations_keeps_alive.

Theorem C76_find_min_seen_alive :
  forall (U T : Type) (born : T -> Prop) (fit : f64 -> Prop) (I : phase -> nat -> U -> Prop) answers raw k (cfg : ga_config U T) fuel p u,
    ga_fits born fit I answers raw k cfg -> I Resting 0 u ->
    Forall (population_seen born fit) (snd (ga_find_min cfg fuel p u)).
Proof. exact @ga_find_seen. Qed.
Print Assumptions C76_find_min_seen_alive.

Theorem C76_next_iterations_seen_alive :
  forall (U T : Type) (born : T -> Prop) (fit : f64 -> Prop) (I : phase -> nat -> U -> Prop) answers raw k (cfg : ga_config U T) fuel p u,
    ga_fits born fit I answers raw k cfg -> I Resting (iteration p) u -> population_fits born fit p -> settled_best born fit p ->
    Forall (population_seen born fit) (snd (ga_next_iterations cfg fuel p u)).
Proof. exact @ga_next_seen. Qed.
Print Assumptions C76_next_iterations_seen_alive.

Theorem C76_ends :
  forall (U T : Type) (born : T -> Prop) (fit : f64 -> Prop) (I : phase -> nat -> U -> Prop) answers raw k (cfg : ga_config U T) n fuel p u,
    ga_fits born fit I answers raw k cfg -> stops_by n answers -> n < fuel -> I Resting 0 u ->
    exists r p' u' t, ga_find_min cfg fuel p u = (Ret (r, p'), u', t) /\
      population_fits born fit p' /\ iteration p' <= n /\ answers (ga_view p') true /\
      (r = None <-> iteration p' = 0) /\ (forall x v, r = Some (x, v) -> born x /\ fit v) /\ I Running (iteration p') u'.
Proof. exact @ga_find_returns. Qed.
Print Assumptions C76_ends.

Theorem C76_next_iterations_ends :
  forall (U T : Type) (born : T -> Prop) (fit : f64 -> Prop) (I : phase -> nat -> U -> Prop) answers raw k (cfg : ga_config U T) n fuel p u,
    ga_fits born fit I answers raw k cfg -> stops_by n answers -> n - iteration p < fuel -> I Resting (iteration p) u ->
    population_fits born fit p -> settled_best born fit p ->
    exists r p' u' t, ga_next_iterations cfg fuel p u = (Ret (r, p'), u', t) /\
      population_fits born fit p' /\ (iteration p <= n -> iteration p' <= n) /\ answers (ga_view p') true /\
      (r = None <-> iteration p' = 0) /\ (forall x v, r = Some (x, v) -> born x /\ fit v) /\ I Running (iteration p') u'.
Proof. exact @ga_next_returns. Qed.
Print Assumptions C76_next_iterations_ends.

(** Integer chromosomes; those between -6 and 6 may be born. *)
Definition small (x : Z) : Prop := (Z.abs x <= 6)%Z.
Definition fit_demo : ga_config nat Z :=
  GaConfig (goal_from_function demo_goal) (max_iterations 3) demo_creator demo_pairing demo_cross demo_mutation
    [fun p => cret (kill_fitness_nan p)] [demo_pre_birth] [count_logger].
Example C76_nonvacuous :
  ga_fits small (fun v => is_finite v = true) (fun _ _ _ => True) (max_answers 3) (fun _ => True) 2 fit_demo /\
  stops_by 3 (@max_answers Z 3) /\
  (exists y, fst (fst (ga_find_min fit_demo 4 (Population [] None None 0) 0)) = Ret y /\
     (option_map (fun r => (fst r, to_bits64 (snd r))) (fst y), length (individuals (snd y)), iteration (snd y)) =
       (Some (-1, to_bits64 one64)%Z, 7, 3)).
Proof.
  split; [|split; [apply max_stops_by|apply show_ret; vm_compute; reflexivity]].
  constructor; cbn [fit_demo ga_goal ga_stop ga_creator ga_pairing ga_cross ga_mutation ga_selections ga_pre_births ga_loggers map].
  - auto.
  - intros ph i x Hx u _. eexists _, _. split; [reflexivity|]. split; auto. unfold demo_goal, fl, small in *.
    apply (of_Z_exact (prec := 53) (emax := 1024)). rewrite Z.abs_mul.
    apply Z.le_trans with (6 * 6)%Z; [nia|apply Z.leb_le; reflexivity].
  - intros p _. apply max_always.
  - intros u _. eexists _, _. split; [reflexivity|]. split; auto. split; [discriminate|].
    unfold small. constructor; [lia|]. constructor; [lia|constructor].
  - intros p [Hn _] u _. eexists _, _. split; [reflexivity|]. split; auto. constructor; [|constructor].
    split; [reflexivity|]. destruct (individuals p); [congruence|]. simpl. constructor; [lia|].
    constructor; [lia|constructor].
  - intros i xs L2 _ u _. destruct xs as [|a [|b [|c xs]]]; try discriminate.
    eexists _, _. split; [reflexivity|]. auto.
  - intros i x _ u _. eexists _, _. split; [reflexivity|]. auto.
  - intros p _. apply pipe_step with (R := Forall small); [|apply pipe_end; auto].
    intros cs _ u _. eexists _, _. split; [reflexivity|]. split; auto.
    apply Forall_forall. intros x Hx. apply filter_In in Hx. apply Z.leb_le. apply Hx.
  - intros n. apply pipe_step with (R := some_survive small (fun v => is_finite v = true)); [|apply pipe_end; auto].
    intros p [Hn Hall] u _. eexists _, _. split; [reflexivity|]. split; auto.
    rewrite Forall_forall in Hall. unfold kill_fitness_nan. split; cbn [individuals set_individuals].
    + destruct (individuals p) as [|i l] eqn:E; [congruence|]. exists i. cbn [map].
      destruct (Hall i (or_introl eq_refl)) as [A [_ B]]. rewrite B. simpl. auto.
    + apply Forall_forall. intros j Hj _. apply in_map_iff in Hj. destruct Hj as [i [<- Hi]].
      destruct (Hall i Hi) as [_ [A B]]. rewrite B. split; auto.
  - apply (plain_logging _ (fun _ _ => True)). intros l k q [<-|[]] _ u _. destruct k; eexists _, _; (split; [reflexivity|auto]).
Qed.
