# A formal model of Jenyay/rust-optimization in Rocq (Coq 8.16.1)

Everything is under `rocq/theories` (logical name `Verif`).  Build:
`cd rocq && coq_makefile -f _CoqProject -o Makefile && make -j4`.

## 1. Trusted base

* **Coq's kernel** (8.16.1), including its virtual machine: concrete witnesses are
  checked with `vm_compute`.
* **Axioms**: only those of the standard library that section 6 lists for every
  theorem.  No axiom, parameter, admitted goal or unchecked definition is added;
  there are no functors, module types, plugins or changed flags.
* **Libraries**: the Coq standard library and Flocq (IEEE-754 floats; Flocq is proved
  in Coq and adds no axiom of its own).
* **The model**: that the definitions in the `*Model.v`, `*Components.v`, `Rng.v` and
  `Base.v` files say what the Rust text does.  Every definition cites the file and the
  lines it stands for.  Nothing was extracted or generated from the Rust code, and
  the Rust code was not run.
* **The specifications**: the `Spec*.v` files, which the theorem statements in the
  `Prop_*.v` files are written in.  They do not use the model's helper functions.

## 2. Layout

| files | contents |
|---|---|
| `Base.v` | outcomes, panics, calls into trait objects, traces |
| `FloatModel.v`, `Rng.v` | IEEE floats, `num::Float`, libm parameters; random streams |
| `GaModel.v`, `GaComponents.v` | genetic/mod.rs; creation, pairing, cross, mutation, pre-birth, selection |
| `PsoModel.v`, `PsoComponents.v` | particleswarm/mod.rs; initializing, postmove, postvelocitycalc, velocitycalc |
| `StopModel.v`, `LogModel.v`, `StatModel.v` | tools/stopchecker, tools/logging, tools/statistics |
| `TestFuncModel.v` | optlib-testfunc |
| `ApiModel.v` | the public methods of Individual, Population, Particle, Swarm; selections as programs over them |
| `UnitTestModel.v` | the test functions inside optlib/src |
| `ExampleModel.v` | examples/ and tests/: the programs that run one optimization |
| `StatProgramModel.v` | the programs that collect statistics in threads, tests/genetic-stat-paraboloid.rs, tests/genetic-rosenbrock.rs |
| `Spec*.v` | vocabulary of the statements |
| `*Facts.v`, `*Proofs.v`, `*Runs.v`, ... | lemmas |
| `Demo*.v` | concrete configurations for the examples and counterexamples |
| `Prop_*.v` | the theorems, each with `Print Assumptions`, and a concrete case beside them |

Model files contain no proofs, `Prop_*.v` files contain only references to lemmas.

## 3. How the code is modelled

* **Trait objects.** A call into a component is a function `U -> outcome A * U`.  `U` is
  an arbitrary type that holds the state of all components, the random generator
  and all I/O.  Configurations and `U` are universally quantified, so a theorem about
  "every component" is about every Rust object behind the trait: with state, panicking,
  sharing state with others.  Where a theorem needs a component to own its state,
  it says so with a lens (`lens_ok`, `keeps`).
* **Outcomes.** `Ret a`, `Panic` (a Rust panic), `NoFuel`.
* **Loops.** `while !can_stop` recurses on fuel.  Running out is the outcome `NoFuel`
  and carries the trace up to that point.  Safety theorems hold for every
  outcome, hence for every prefix of an endless run (C91: more fuel changes nothing else).  Functional theorems speak about
  `Ret`.  Termination theorems say how much fuel is enough.  `for` loops are folds.
* **Traces.** A run of an optimizer returns the list of its observable events: goal calls
  with their values, questions to the stop checker, logger calls, calls of all other
  components with arguments and results.
* **Histories.** `ga_reach`, `pso_reach`: everything that any sequence of `find_min` and
  `next_iterations` calls, with components exchanged in between, can lead to.
* **Floats.** Flocq `binary_float` for f32 and f64: signed zeros, infinities, NaN payloads,
  round to nearest even.  Which NaN an operation returns is an arbitrary `nan_policy`.
  `num::Float` is a class; besides the IEEE instance there is one over `R`, used only
  where a statement says "in exact arithmetic".
* **libm.** `sin`, `cos`, `exp2`, `powf` are parameters.  Statements that need something
  of them have it as a hypothesis (for example |cos| <= 1, or exp2 exact on powers of two),
  and the example beside shows an implementation that meets it.  `powi(2)` is one multiplication.
* **Randomness.** `thread_rng` is an arbitrary infinite stream.  `Uniform` of rand 0.7.3 is
  its contract: it panics on an unordered or non-finite range, otherwise it returns some
  value of the range, every value for some stream.  A float range whose width
  overflows may give anything (that rand might loop there is not modelled).
* **Integers.** Lengths, indices and iteration counters are `nat`: the overflow of a usize
  counter (2^64 steps) is not modelled.  Where the code can underflow, shift too far or overflow
  in practice, debug and release builds are modelled explicitly (`GoalNotChange`, `cross_*`,
  `CrossMean` of integers, `add_convergence`, `rosenbrock`).
* **Writers.** `writeln!` hands one whole line to the writer; number formatting is a parameter.

## 4. What is not modelled

* `Clone` of user types: taken to return an equal value.  References, lifetimes and iterators: a
  reference is modelled by the value it refers to.
* Wall-clock time (an arbitrary reading of the clock is given to `TimeLogger`), the text of
  formatted numbers, the distribution and quality of random numbers, memory, performance.
* Threads: the statistics programs run optimizers in threads that share nothing; each has its
  own random stream, and the order in which their results arrive is arbitrary.  A thread
  that panics sends nothing, and the main thread waits for ever.
* Files are known by their names; a failed write writes nothing, and standard output is not buffered.
* What is left of an optimizer after a panic that the caller catches.  (The theorems about `find_min`
  hold from every state, and C79 says that a run does not depend on it.)
* `LimitPopulation::set_limit` (selection/mod.rs:41): the limit is an argument of the modelled call, so it may
  differ from call to call.  The trivial constructors that only store their arguments.
* The crates `rand`, `num`, `time`, and the Rust standard library, apart from the contracts above.
  `Iterator::min_by`, `max_by` and `Vec::retain` are modelled in `Base.v`.

## 5. What the proofs found in the code

1. `kill_worst` does not lower `best_fitness` while it fills its list, so it can kill the
   best individual and keep worse ones (C09, C11); counting starts with individual 0 even when that
   one is dead, so one individual too many can survive (C10).
2. As a consequence a GA with LimitPopulation can run for ever under GoalNotChange although
   its goal values are bounded (C85).
3. A `GoalNotChange` object that is used for a second run panics in a debug build (subtraction
   underflow) and stops at once in a release build (C52).
4. `next_iterations` on an optimizer that was never started panics when a StatisticsLogger is attached
   (C55), and otherwise adds a result without a convergence row (C54).
5. `get_average_convergence` is not `None` when some run has no solution, as its
   documentation says, but only when all have none (C58).
6. The vector success predicate accepts NaN coordinates and solutions of the wrong dimension (C62).
7. MaxVelocityAbs makes velocities NaN when the squares overflow, and enlarges subnormal ones (C41);
   LinearInertia is NaN when the width overflows (C44); a NaN velocity is never repaired (C40).
8. FloatCrossExp loses subnormals and is not defined on infinities (C24); CrossMean overflows for
   large parents (C18) and wraps for integers in release builds (C82).
9. Endpoints beyond 2^53 make integer creation panic or leave the interval (C83).
10. `find_min` of the GA panics or runs on with an empty population when everything was killed,
    depending on the pairing (C28_extinct_limit); an empty swarm never ends under GoalNotChange (C85).
11. The statistics programs panic on a machine with more processors than runs (C89); a thread that
    panics would leave the main thread waiting for ever, because it keeps a sender.
12. The test genetic_paraboloid_two uses one GoalNotChange object for two runs; in a debug build
    it can panic (C52, C89).
13. A swarm of one particle that starts with zero velocities never leaves its starting point (C98).



## 6. Axioms, theorem by theorem

What `Print Assumptions` (which stands below every theorem in the `Prop_*.v` files)
lists, in 4 groups:

* **A** (108 theorems): closed under the global context, no axiom
* **B** (1 theorems): `FunctionalExtensionality.functional_extensionality_dep`
* **C** (4 theorems): `ClassicalDedekindReals.sig_forall_dec`, `ClassicalDedekindReals.sig_not_dec`, `FunctionalExtensionality.functional_extensionality_dep`
* **D** (482 theorems): `ClassicalDedekindReals.sig_forall_dec`, `ClassicalDedekindReals.sig_not_dec`, `Classical_Prop.classic`, `FunctionalExtensionality.functional_extensionality_dep`

All are axioms of the standard library, used by its real numbers and by Flocq.
The project adds none.

## 7. Properties

Status `partial` means: false of the code as stated, refuted by a witness, and proved as
far as it holds. After each theorem name: its axiom group.

### C01 GA result is a point the goal really returned that value for (proved)

Model: GaModel (ga_config, ga_find_min, ga_next_iterations, goal_from_function). Specification: SpecGa (selection_copies, ga_reach, evaluated, genuine). Proof: Hoare-style invariant over the fuelled loop (GaSafety), then induction over API histories.

For selections that only return copies of the individuals they were given (the private fields of Individual allow nothing else).

Theorems (Prop_Ga.v): `C01_ga_result_evaluated` [D], `C01_ga_events_genuine` [A], `C01_ga_next_events_genuine` [A], `C01_ga_result_is_goal_value` [D].

### C02 GA best/worst individual are the extremes of the generation (proved)

Model: GaModel (ga_config, ga_find_min, ga_next_iterations). Specification: SpecGa (selection_copies, ga_reach, reported, settled). Proof: update_best_worst computed against a positional definition of earliest minimum and latest maximum, NaN last; loop invariant.

Theorems (Prop_Ga.v): `C02_ga_reports_extremes` [D].

### C03 GA returns None exactly when no generation was ever completed with a survivor (proved)

Model: GaModel (ga_config, ga_find_min). Specification: stated in the theorem itself. Proof: Read off the run structure (GaFacts: every returned run is a list of generations).

"In this run" is read off the stop checker consultations, which see every completed generation.

Theorems (Prop_Ga.v): `C03_ga_none_iff_no_survivor` [D].

### C04 Every individual carries the goal value of its own chromosomes (proved)

Model: GaModel (ga_config, ga_find_min, ga_next_iterations). Specification: SpecGa (selection_copies, ga_reach, observations_valued). Proof: Same invariant as C01, at every event that shows a population.

Theorems (Prop_Ga.v): `C04_ga_individuals_carry_their_value` [D].

### C05 GA evaluates the goal exactly once per born individual (proved)

Model: GaModel (ga_config, ga_find_min, ga_next_iterations). Specification: SpecGa (evals, births). Proof: The trace of a returned run is computed; births are read from it by a separate function.

Theorems (Prop_Ga.v): `C05_ga_goal_calls` [D], `C05_ga_next_goal_calls` [D].

### C06 GA generation counter and call protocol (proved)

Model: GaModel (ga_config, ga_find_min, population, ga_next_iterations). Specification: SpecGa (protocol, rounds, log_events). Proof: Structural induction on the fuelled loop.

Theorems (Prop_Ga.v): `C06_ga_find_min_protocol` [D], `C06_ga_next_iterations_protocol` [D], `C06_ga_finish_state` [D].

### C07 A generation is old population plus newborns minus the dead, in order (proved)

Model: GaModel (ga_config, ga_iteration, ga_next_iterations). Specification: SpecGa (selection_kills, generation, killed_from, newborns, generations, log_events). Proof: The exact relation between two consecutive populations, selections only kill.

Theorems (Prop_Ga.v): `C07_ga_generation` [D], `C07_ga_run_is_generations` [D].

### C08 find_min starts from scratch (proved)

Model: GaModel (ga_config, ga_find_min). Specification: stated in the theorem itself. Proof: By computation: reset drops the old population.

The model of find_min resets the population first, as the code does; the theorem is by computation.

Theorems (Prop_Ga.v): `C08_ga_find_min_fresh` [A].

### C09 GA never loses its best solution (partial)

Model: GaModel (ga_config, ga_find_min); GaComponents (kill_fitness_nan, limit_population). Specification: SpecGa (keeps_best, evaluated, selection_copies, reported). Proof: Loop invariant; a concrete run refutes it for LimitPopulation.

REFUTED as stated by C09_ga_best_lost_refuted (LimitPopulation can kill the best individual). Proved for every selection that keeps a best finite individual, e.g. KillFitnessNaN.

Theorems (Prop_Ga.v): `C09_ga_least_value_partial` [D], `C09_ga_best_monotone_partial` [D], `C09_kill_fitness_nan_keeps_best` [D], `C09_ga_best_lost_refuted` [D].

### C10 LimitPopulation enforces its limit (partial)

Model: GaModel (population); GaComponents (limit_population). Specification: SpecGa (killed_from); SpecSel (live, first_alive). Proof: Loop invariant on the kill list, index by index; counterexample by computation.

REFUTED as stated by C10_limit_exceeded_refuted (kill_worst can stop short when its candidates were already dead or the first individual is dead). Proved: exact result of LimitPopulation in the case where the property holds, and that it only kills, in every case.

Theorems (Prop_Selection.v): `C10_limit_population_partial` [D], `C10_limit_exceeded_refuted` [A].

### C11 kill_worst kills the worst (partial)

Model: GaModel (individual); GaComponents (kill_worst). Specification: SpecGa (killed_from); SpecSel (first_alive, live, no_nan, survives_at, killed_at). Proof: Same; two counterexamples by computation.

REFUTED as stated by C11_kill_worst_order_refuted and C11_kill_worst_count_refuted. Proved for every population and count: only live individuals are marked, nothing else changes, panics iff the population is empty; count and order under the hypotheses stated in the _partial theorems.

Theorems (Prop_Selection.v): `C11_kill_worst_panics` [D], `C11_kill_worst_only_kills` [D], `C11_kill_worst_count_partial` [D], `C11_kill_worst_exact_count_partial` [D], `C11_kill_worst_count_bound_partial` [D], `C11_kill_worst_order_partial` [D], `C11_kill_worst_kills_a_worst_partial` [D], `C11_kill_worst_one_partial` [D], `C11_kill_worst_first_best_partial` [D], `C11_kill_worst_filled_partial` [D], `C11_kill_worst_order_refuted` [A], `C11_kill_worst_count_refuted` [A].

### C12 KillFitnessNaN kills exactly the non-finite (proved)

Model: GaModel (population, ga_config, ga_iteration, ga_find_min, ga_next_iterations); GaComponents (kill_fitness_nan). Specification: SpecGa (selection_kills, ga_reach). Proof: List induction; survivors and results through C07/C01.

Theorems (Prop_Selection.v): `C12_kill_fitness_nan` [A], `C12_survivors_finite` [A], `C12_results_finite` [D].

### C13 Interval check before birth keeps exactly the admissible children (proved)

Model: GaComponents (pre_birth_interval). Specification: SpecSel (genes_in, gene_in). Proof: List induction; meaning of the comparison over R.

Theorems (Prop_Selection.v): `C13_pre_birth_interval` [A], `C13_gene_in_meaning` [D].

### C14 Interval check by selection kills exactly the inadmissible individuals (proved)

Model: GaModel (population); GaComponents (selection_interval). Specification: SpecSel (genes_in). Proof: List induction.

Theorems (Prop_Selection.v): `C14_selection_interval` [A].

### C15 RandomCreator produces a full population inside the intervals (proved)

Model: GaComponents (NumGene, random_creator_new, NumGene64, random_create, NumGene32). Specification: SpecRand (shift, drawn_incl). Proof: Every draw is consumed and lands in its interval; contract of Uniform.

Theorems (Prop_Components.v): `C15_new_panics` [A], `C15_create_f64` [D], `C15_create_f32` [D].

### C16 RandomPairing pairs are valid (proved)

Model: GaModel (population); GaComponents (random_pairing). Specification: SpecRand (shift, drawn). Proof: Induction on draws.

Theorems (Prop_Components.v): `C16_random_pairing` [B].

### C17 Tournament families are valid and winners beat their challengers (proved)

Model: GaModel (population); GaComponents (tournament_pairs). Specification: SpecRand (shift, drawn); SpecSel (fitness_is, beats). Proof: Induction on rounds; the winner is the earliest least of its candidates.

Theorems (Prop_Components.v): `C17_tournament` [D].

### C18 CrossMean stays between the parents (proved)

Model: GaComponents (cross_mean, NumOpsFloat). Specification: stated in the theorem itself. Proof: Monotone rounding (Flocq Bplus_correct, Bdiv_correct).

Theorems (Prop_Components.v): `C18_cross_mean` [D], `C18_cross_mean_shape` [D], `C18_cross_mean_overflow` [D].

### C19 FloatCrossGeometricMean shape (proved)

Model: GaComponents (cross_geometric_mean). Specification: stated in the theorem itself. Proof: Computation on the fold; shape and sign.

Theorems (Prop_Components.v): `C19_geometric_mean` [A].

### C20 Unsigned single-point crossing takes low bits from the second parent, high bits from the first (proved)

Model: GaComponents (cross_u64, cross_u32, cross_u16, cross_u8). Specification: SpecBits (unsigned, crossed). Proof: Bit extensionality.

Theorems (Prop_Components.v): `C20_cross_unsigned` [A].

### C21 Signed single-point crossing, including the sign bit (proved)

Model: GaComponents (cross_i16, cross_i8). Specification: SpecBits (signed, crossed). Proof: Bit extensionality on two's complement.

Theorems (Prop_Components.v): `C21_cross_signed` [A].

### C22 Bitwise crossing of floats acts on the IEEE bit pattern (proved)

Model: GaComponents (cross_f64, cross_f32, cross_bitwise64, cross_bitwise32). Specification: SpecBits (crossed); SpecRand (shift, drawn). Proof: Bit extensionality through to_bits/from_bits.

Theorems (Prop_Components.v): `C22_cross_f64` [D], `C22_cross_f32` [D], `C22_cross_bitwise_f64` [D], `C22_cross_bitwise_f32` [D].

### C23 VecCrossAllGenes crosses position by position (proved)

Model: GaComponents (vec_cross_all_genes). Specification: SpecBits (runs_each, gene_pairs). Proof: List induction, every cross component.

Theorems (Prop_Components.v): `C23_vec_cross` [A], `C23_vec_cross_length` [A], `C23_vec_cross_panics` [A].

### C24 FloatCrossExp recombines sign, exponent and mantissa of the parents (proved)

Model: GaComponents (float_cross_exp). Specification: SpecBits (decoded, crossed, unsigned, signed, exact_exp2, zero_or_normal); SpecRand (drawn, drawn_coin, shift). Proof: integer_decode and exp2 with a contract for powers of two; counterexample-style limits.

Theorems (Prop_Components.v): `C24_cross_exp_f64` [D], `C24_cross_exp_f32` [D], `C24_self_cross_f64` [D], `C24_self_cross_f32` [D], `C24_not_finite_f64` [D], `C24_subnormal_lost` [D].

### C25 BitwiseMutation flips exactly the drawn bits (proved)

Model: GaComponents (bitwise_mutation64, bitwise_mutation32). Specification: SpecRand (shift, drawn); SpecBits (times_drawn). Proof: Bit extensionality; drawn positions.

Theorems (Prop_Components.v): `C25_bitwise_mutation_f64` [D], `C25_bitwise_mutation_f32` [D].

### C26 VecMutation touches genes independently and keeps the length (proved)

Model: Rng (rng); GaComponents (vec_mutation). Specification: SpecBits (mutated). Proof: List induction.

Theorems (Prop_Components.v): `C26_vec_mutation` [D], `C26_vec_mutation_genes` [D], `C26_never_mutates` [D], `C26_always_mutates` [D].

### C27 GA never leaves the search box (proved)

Model: GaModel (ga_config, ga_find_min, ga_next_iterations). Specification: SpecGa (selection_copies, stays_in, ga_reach, evals, shows, inside). Proof: Loop invariant over histories.

Theorems (Prop_Ga.v): `C27_ga_stays_in_box` [D].

### C28 The documented GA configuration never panics and terminates (proved)

Model: Rng (rng); GaComponents (random_creator_new, NumGene64, cross_bitwise64, random_create, vec_cross_all_genes, vec_mutation, bitwise_mutation64, pre_birth_interval, NumGene32, cross_bitwise32, bitwise_mutation32); GaModel (ga_config, ga_find_min, ga_next_iterations). Specification: SpecTotal (phase, always, logging_fits, ga_fits, dim, population_fits, population_seen, settled_best); SpecStandard (lasting, standard_pairing, standard_single_cross, standard_selection, any_answers); SpecLog (answers); SpecGa (selections, ga_view, evaluated, ga_reach); SpecBox (in_box); SpecSettings (stops_by). Proof: Every component fits (C76), so no panic; MaxIterations bounds the fuel.

Theorems (Prop_GaStandard.v): `C28_components_fit_f64` [D], `C28_components_fit_f32` [D], `C28_run` [D], `C28_continued` [D], `C28_readme` [D], `C28_extinct_limit` [D].

### C29 PSO result is a point the goal really returned that value for (proved)

Model: PsoModel (pso_config, pso_find_min, pso_next_iterations); GaModel (goal_from_function). Specification: SpecPso (pso_reach, pso_genuine); SpecGa (evaluated). Proof: Invariant over the fuelled loop and histories.

Theorems (Prop_Pso.v): `C29_pso_result_evaluated` [D], `C29_pso_events_genuine` [D], `C29_pso_next_events_genuine` [D], `C29_pso_result_is_goal_value` [D].

### C30 PSO returns the least value ever evaluated (proved)

Model: PsoModel (pso_config, pso_find_min, pso_next_iterations). Specification: SpecPso (pso_reach, first_least); SpecGa (evaluated); SpecLog (answers). Proof: Loop invariant on best_particle.

Theorems (Prop_Pso.v): `C30_pso_least_value` [D], `C30_pso_first_least` [D].

### C31 PSO best never worsens, worst never improves (proved)

Model: PsoModel (pso_config, pso_find_min, pso_next_iterations). Specification: SpecPso (pso_reach, never_worse, swarms_valued, reports_extremes). Proof: Loop invariant.

Theorems (Prop_Pso.v): `C31_pso_never_worse` [D], `C31_pso_observations` [D].

### C32 Personal best and worst are the extremes of the particle's own history (proved)

Model: PsoModel (set_velocity, move_to, particle_new, pso_config, pso_find_min). Specification: SpecPso (remembers, visited, trail, consulted). Proof: Induction on the moves of one particle, read from the trace.

Theorems (Prop_Pso.v): `C32_memories_of_moves` [D], `C32_pso_memories` [D].

### C33 PSO returns None exactly for an empty swarm (proved)

Model: PsoModel (pso_config, pso_find_min). Specification: stated in the theorem itself. Proof: Structure of the run.

Theorems (Prop_Pso.v): `C33_pso_none_iff_empty` [D].

### C34 PSO evaluates each particle once per iteration (proved)

Model: PsoModel (pso_config, pso_find_min, pso_next_iterations). Specification: SpecGa (evals); SpecPso (all_points, consulted, all_places); SpecLog (answers). Proof: Trace computed.

Theorems (Prop_Pso.v): `C34_pso_goal_calls` [D], `C34_pso_next_goal_calls` [D].

### C35 PSO iteration counter and call protocol (proved)

Model: PsoModel (pso_config, pso_find_min, swarm, pso_next_iterations). Specification: SpecGa (protocol, rounds, log_events); SpecPso (place). Proof: Structural induction.

Theorems (Prop_Pso.v): `C35_pso_find_min_protocol` [D], `C35_pso_next_iterations_protocol` [D], `C35_pso_finish_state` [D].

### C36 PSO never leaves the search box with MoveToBoundary last (proved)

Model: PsoModel (pso_config, pso_find_min, pso_next_iterations); PsoComponents (move_to_boundary). Specification: SpecBox (good_box, in_box); SpecPso (pso_reach, swarm_inside, pso_stays_in); SpecGa (evals, shows). Proof: Loop invariant with MoveToBoundary last.

Theorems (Prop_Pso.v): `C36_pso_stays_in_box` [D], `C36_pso_stays_in_set` [D].

### C37 Pausing and resuming PSO changes nothing (proved)

Model: PsoModel (pso_config, pso_find_min, pso_set_stop_checker, pso_next_iterations); StopModel (max_iterations). Specification: SpecRun (pso_unaffected, work). Proof: Simulation of one run by two.

Theorems (Prop_Pso.v): `C37_pso_pause_resume` [A].

### C38 MoveToBoundary clamps (proved)

Model: PsoComponents (move_to_boundary). Specification: SpecBox (good_box, in_box). Proof: Per-coordinate computation.

Theorems (Prop_PsoComponents.v): `C38_panic` [A], `C38_cases` [D], `C38_in_box` [D], `C38_fixed` [D], `C38_idempotent` [D].

### C39 RandomTeleport moves all coordinates or none, inside the intervals (proved)

Model: PsoComponents (random_teleport_new, random_teleport_post_move); Rng (Sampler, rng, draw). Specification: SpecRand (drawn_excl, shift, drawn_incl). Proof: Computation on draws.

Theorems (Prop_PsoComponents.v): `C39_new` [D], `C39_post_move` [D], `C39_never` [D], `C39_always` [D].

### C40 MaxVelocityDimensions bounds every component and keeps its sign (proved)

Model: PsoComponents (max_velocity_dimensions). Specification: stated in the theorem itself. Proof: Per-coordinate, Flocq order.

C40_nan_limit: a NaN velocity stays NaN for ever.

Theorems (Prop_PsoComponents.v): `C40_panic` [D], `C40_limited` [D], `C40_idempotent` [D], `C40_nan_limit` [D].

### C41 MaxVelocityAbs bounds the speed and keeps the direction (proved)

Model: PsoComponents (velocity_norm, max_velocity_abs). Specification: SpecReal (min_normal, FloatR, length2); SpecSpeed (close, underflow). Proof: Rounding error analysis of sqrt and division (Flocq); sums of squares by induction with one factor per operation, lengths of vectors by Cauchy-Schwarz and the triangle inequality; limits by computation.

Outside the stated preconditions the code misbehaves: C41_norm_overflow_limit (the squares overflow, NaN velocity) and C41_subnormal_limit (a subnormal component grows).

Theorems (Prop_PsoComponents.v): `C41_within` [D], `C41_length` [D], `C41_scaled` [D], `C41_exact` [C], `C41_norm_exact` [C], `C41_norm_accuracy` [D], `C41_component_accuracy` [D], `C41_limit_accuracy` [D], `C41_float_bound` [D], `C41_norm_overflow_limit` [D], `C41_subnormal_limit` [D].

### C42 Velocity calculators produce one component per dimension and obey their formula's fixed point (proved)

Model: Rng (rng); PsoComponents (classic_velocity, canonical_velocity, inertia_velocity, negative_velocity, const_inertia, negative_reinforcement). Specification: SpecVel (best_usable, six_usable, covers, unit32, unit64, same_point, same_number); SpecRand (shift); SpecPso (first_least, last_greatest). Proof: Computation; fixed points over IEEE zero arithmetic.

Inertia: for an inertia object that returns a weight.

Theorems (Prop_PsoComponents.v): `C42_classic_panics` [D], `C42_canonical_panics` [D], `C42_inertia_panics` [D], `C42_negative_panics` [D], `C42_classic` [D], `C42_canonical` [D], `C42_inertia` [D], `C42_const_inertia` [D], `C42_negative` [D], `C42_classic_fixed` [D], `C42_canonical_fixed` [D], `C42_inertia_fixed` [D], `C42_negative_fixed` [D].

### C43 CanonicalVelocityCalculator::new accepts exactly the convergent parameters and its constriction factor is below one (proved)

Model: PsoComponents (canonical_new). Specification: stated in the theorem itself. Proof: Rounding error analysis; constriction factor in [0,1).

Theorems (Prop_PsoComponents.v): `C43_panic` [D], `C43_xi` [D].

### C44 LinearInertia decreases from w_max (proved)

Model: PsoComponents (linear_inertia). Specification: SpecReal (FloatR). Proof: Monotone rounding.

C44_width_overflow_limit: when w_max - w_min overflows the weight is NaN.

Theorems (Prop_PsoComponents.v): `C44_start` [D], `C44_decreasing` [D], `C44_exact` [C], `C44_width_overflow_limit` [D].

### C45 PSO initializers produce full swarms (proved)

Model: Rng (rng); PsoComponents (random_vectors, zero_velocities); GaComponents (NumGene64, NumGene32, NumGene). Specification: SpecRand (shift, drawn_incl). Proof: Contract of Uniform.

Theorems (Prop_PsoComponents.v): `C45_random_f64` [D], `C45_random_f32` [D], `C45_no_particles` [A], `C45_unordered_panics` [D], `C45_infinite_panics` [D], `C45_zero_velocities` [A].

### C46 The documented PSO configuration never panics and terminates (proved)

Model: Rng (rng); PsoModel (pso_find_min, pso_config, pso_next_iterations); PsoComponents (random_vectors, move_to_boundary); GaComponents (NumGene64, NumGene32); StopModel (max_iterations, composite_any, threshold). Specification: SpecTotal (phase, dim, returns, always, logging_fits, swarm_dim, pso_fits); SpecStandard (lasting, good_intervals64, standard_velocities64, standard_calc, standard_post_velocity, standard_post_move, good_intervals32, standard_velocities32, max_answers, any_answers); SpecLog (answers); SpecSettings (stops_by); SpecPso (pso_view, pso_reach); SpecBox (in_box, good_box); SpecGa (evaluated). Proof: C75 instantiated.

Theorems (Prop_Standard.v): `C46_standard_f64` [D], `C46_standard_f32` [D], `C46_continued` [D], `C46_max_iterations` [A], `C46_composite_any` [A].

### C47 PSO keeps the dimension of every particle (proved)

Model: PsoModel (pso_config, pso_find_min, pso_next_iterations). Specification: SpecPso (keeps_dimension, pso_reach, swarm_inside); SpecGa (evals, shows). Proof: Loop invariant.

Theorems (Prop_Pso.v): `C47_pso_dimension` [D].

### C48 MaxIterations stops exactly at the limit (proved)

Model: GaModel (ga_config, ga_find_min, ga_next_iterations); StopModel (max_iterations); PsoModel (pso_config, pso_find_min, pso_next_iterations). Specification: SpecRun (ga_ends, pso_ends). Proof: Induction on fuel.

Termination is relative to components that return or panic.

Theorems (Prop_Stop.v): `C48_ga_find_min_iterations` [D], `C48_ga_next_iterations_iterations` [D], `C48_pso_find_min_iterations` [D], `C48_pso_next_iterations_iterations` [D], `C48_ga_find_min_ends` [D], `C48_ga_next_iterations_ends` [D], `C48_pso_find_min_ends` [D], `C48_pso_next_iterations_ends` [D].

### C49 Threshold stops only when reached (proved)

Model: GaModel (ga_config, ga_find_min, ga_next_iterations); StopModel (threshold); PsoModel (pso_config, pso_find_min, pso_next_iterations). Specification: SpecRun (stops). Proof: Structure of the run.

Theorems (Prop_Stop.v): `C49_ga_threshold` [D], `C49_pso_threshold` [D].

### C50 Composite stop checkers are any/all with short circuit (proved)

Model: StopModel (stop_checker, composite_any, composite_all, composite_new); GaModel (alg_state). Specification: SpecStop (asked, decides). Proof: Induction on the list of checkers.

Theorems (Prop_Stop.v): `C50_composite_any` [A], `C50_composite_all` [A], `C50_any_is_or` [A], `C50_all_is_and` [A], `C50_new` [A].

### C51 GoalNotChange stops after the goal has been quiet (proved)

Model: GaModel (alg_state, ga_config, ga_find_min, ga_next_iterations); StopModel (goal_not_change, gnc_new, gnc); PsoModel (pso_config, pso_find_min, pso_next_iterations). Specification: SpecStop (not_decreasing, asked, reference, differ, best_goals, quiet_answers, consult); SpecRun (ga_keeps, pso_keeps); SpecGa (ga_view); SpecPso (pso_view). Proof: Induction on the history of questions.

Theorems (Prop_Stop.v): `C51_goal_not_change` [D], `C51_ga_goal_not_change` [D], `C51_pso_goal_not_change` [D], `C51_ga_stop_checker_asked` [D], `C51_pso_stop_checker_asked` [D], `C51_reference_quiet` [D], `C51_reference_unique` [D], `C51_constant_goal_stops` [D].

### C52 Stop checkers can be reused for another run (partial)

Model: GaModel (ga_config, ga_find_min, alg_state); StopModel (gnc, goal_not_change, gnc_new). Specification: SpecStop (differ, asked). Proof: Two concrete runs; general theorem for the case that works.

REFUTED as stated by C52_stop_checker_reuse_refuted (debug build: panic) and C52_stop_checker_reuse_release_refuted (early stop): GoalNotChange keeps its state. Proved: GoalNotChange behaves like new when the first goal is far from the remembered one; the other checkers have no state.

Theorems (Prop_Stop.v): `C52_stop_checker_reuse_refuted` [D], `C52_stop_checker_reuse_release_refuted` [D], `C52_stop_checker_reuse_partial` [D].

### C53 StatisticsLogger records every iteration and every result (proved)

Model: StatModel (statistics, statistics_logger); GaModel (ga_config, ga_find_min, ga_set_loggers); PsoModel (pso_config, pso_find_min, pso_set_loggers). Specification: SpecLog (attached, ga_others_keep, bests, pso_others_keep, ga_others_apart, alike, replaced, no_logger, pso_others_apart); SpecGa (ga_view); SpecPso (consulted, pso_view). Proof: Logger protocol (C81) instantiated.

Theorems (Prop_Log.v): `C53_ga_statistics` [D], `C53_pso_statistics` [D], `C53_ga_undisturbed` [A], `C53_pso_undisturbed` [A].

### C54 Run count counts optimisation runs (partial)

Model: GaModel (population, ga_config, ga_next_iterations); StatModel (statistics, statistics_new, get_run_count, statistics_logger); PsoModel (swarm, pso_config, pso_next_iterations). Specification: SpecLog (ga_session, pso_session, attached, ga_others_keep, bests, pso_others_keep); SpecGa (ga_view); SpecPso (consulted, pso_view). Proof: Induction over API sessions; concrete sessions refute.

REFUTED as stated by C54_ga_run_count_refuted and C54_pso_run_count_refuted: next_iterations adds a result (and so a run) without a row. Proved for every sequence of calls: results = find_min calls + next_iterations calls, rows = find_min calls.

Theorems (Prop_Log.v): `C54_ga_run_count_refuted` [D], `C54_pso_run_count_refuted` [D], `C54_ga_run_count_partial` [D], `C54_pso_run_count_partial` [D], `C54_ga_resumed_partial` [D], `C54_pso_resumed_partial` [D].

### C55 next_iterations on a fresh optimizer is safe (partial)

Model: StatModel (statistics_logger, statistics_new, statistics); GaModel (ga_next_iterations, ga_set_loggers, ga_config, logger, ga_find_min); PsoModel (pso_next_iterations, pso_set_loggers, pso_config, pso_find_min); LogModel (formatter, verbose_logger, result_only_logger). Specification: SpecLog (attached, replaced, no_logger, ga_others_apart, alike, pso_others_apart, prints). Proof: Concrete run refutes; general theorems otherwise.

REFUTED as stated by C55_ga_fresh_refuted and C55_pso_fresh_refuted: StatisticsLogger panics. Proved: VerboseLogger, ResultOnlyLogger and TimeLogger (C65) never disturb a call, and StatisticsLogger does not once it has a row.

Theorems (Prop_Log.v): `C55_ga_fresh_refuted` [D], `C55_pso_fresh_refuted` [D], `C55_ga_statistics_partial` [A], `C55_pso_statistics_partial` [A], `C55_ga_printing_partial` [A], `C55_pso_printing_partial` [A].

### C56 unite concatenates (proved)

Model: StatModel (statistics, get_run_count, unite, statistics_new, call_count_data, ccd_unite, ccd_new). Specification: stated in the theorem itself. Proof: Computation, monoid laws.

Theorems (Prop_Stat.v): `C56_unite_statistics` [A], `C56_unite_statistics_laws` [A], `C56_unite_counts` [A], `C56_unite_counts_laws` [A].

### C57 get_average_convergence averages per iteration over the runs that have a solution (proved)

Model: StatModel (get_average_convergence). Specification: SpecStat (shortest, column, float_sum, float_count, exact_sums, rounded, real_sum). Proof: Induction on runs and iterations.

Theorems (Prop_Stat.v): `C57_average_convergence` [D], `C57_exact_data` [D].

### C58 get_average_convergence is None whenever some run has no solution (partial)

Model: StatModel (get_average_convergence). Specification: stated in the theorem itself. Proof: Concrete data refute; exact rule proved.

REFUTED as stated by C58_none_for_any_refuted: the documented rule "None if any run has no solution" is not what the code does. Proved: None exactly when no run has a solution at that iteration (C58_none_for_all_partial).

Theorems (Prop_Stat.v): `C58_none_for_any_refuted` [D], `C58_none_for_all_partial` [D].

### C59 Average and standard deviation are defined exactly when there is enough data (proved)

Model: StatModel (get_average_goal, get_standard_deviation_goal). Specification: SpecStat (mean64, goals, present, deviation64, usize, non_negative, exact_sums, real_sum, representable, rounded). Proof: Computation; exact arithmetic instance.

Theorems (Prop_Stat.v): `C59_average_defined` [D], `C59_deviation_defined` [D], `C59_deviation_not_negative` [D], `C59_missing_results_ignored` [D], `C59_exact_deviation` [D].

### C60 Average solution keeps the dimension (proved)

Model: StatModel (get_average, get_average_goal, get_standard_deviation, get_standard_deviation_goal). Specification: SpecStat (mixed, present, mean_of, components, deviation_of, real_sum); SpecReal (FloatR). Proof: List induction.

Theorems (Prop_Stat.v): `C60_average` [D], `C60_deviation` [D], `C60_exact_arithmetic` [C].

### C61 Success rate is the fraction of successful runs (proved)

Model: StatModel (get_success_rate). Specification: SpecStat (rounded, succeeds). Proof: Counting.

Theorems (Prop_Stat.v): `C61_success_rate` [D].

### C62 Success predicates accept exactly the close solutions (partial)

Model: StatModel (predicate_success_goal, predicate_success_vec, predicate_success_vec_new). Specification: SpecStat (rounded, distance, representable). Proof: Order of floats; concrete data refute.

REFUTED as stated for the vector predicate by C62_vec_nan_refuted (a NaN coordinate counts as a success) and C62_vec_dimension_refuted (missing coordinates are not compared). Proved: the goal predicate in full, and the vector predicate for finite data of the right dimension.

Theorems (Prop_Stat.v): `C62_goal` [D], `C62_goal_not_finite` [D], `C62_vec_nan_refuted` [D], `C62_vec_dimension_refuted` [D], `C62_vec_partial` [D], `C62_vec_constructor` [A].

### C63 CallCountData counts per run (proved)

Model: StatModel (ccd_new, call_count_data, get_average_call_count). Specification: SpecStat (count_op, count_step, calls_by_run, rounded). Proof: Induction.

Theorems (Prop_Stat.v): `C63_counts_per_run` [A], `C63_average` [D].

### C64 GoalCalcStatistics counts without disturbing (proved)

Model: StatModel (call_count_data, goal_calc_statistics); GaModel (ga_config, ga_find_min, ga_next_iterations); PsoModel (pso_config, pso_find_min, pso_next_iterations). Specification: SpecLog (ga_others_apart, alike, ga_with_goal, pso_others_apart, pso_with_goal, counted); SpecGa (births, evals). Proof: Two-run simulation (mtwin).

Theorems (Prop_Log.v): `C64_ga_undisturbed` [A], `C64_pso_undisturbed` [A], `C64_ga_calls` [D], `C64_pso_calls` [D], `C64_pso_next_calls` [D].

### C65 TimeLogger never unwraps a missing start time (proved)

Model: LogModel (formatter, time_logger); GaModel (ga_config, ga_find_min, ga_set_loggers, ga_next_iterations); PsoModel (pso_config, pso_find_min, pso_set_loggers, pso_next_iterations). Specification: SpecLog (prints, attached, ga_others_apart, alike, replaced, no_logger, pso_others_apart, ga_others_keep, time_text, pso_others_keep); SpecExample (ticks); SpecRun (keeps). Proof: Logger protocol; two-run simulation.

For a writer that does not fail; the clock and the writer belong to the logger.

Theorems (Prop_Log.v): `C65_ga_undisturbed` [A], `C65_pso_undisturbed` [A], `C65_ga_line` [A], `C65_pso_line` [A].

### C66 VerboseLogger and ResultOnlyLogger write what happened (proved)

Model: LogModel (formatter, verbose_logger, result_only_logger); GaModel (ga_config, ga_find_min, ga_next_iterations); PsoModel (pso_config, pso_find_min, pso_next_iterations). Specification: SpecLog (prints, attached, ga_others_keep, verbose_text, pso_others_keep, report_text); SpecGa (ga_view); SpecPso (consulted, pso_view). Proof: Logger protocol.

Number formatting is a parameter.

Theorems (Prop_Log.v): `C66_ga_verbose` [A], `C66_pso_verbose` [A], `C66_ga_report` [A], `C66_pso_report` [A].

### C67 Paraboloid has its documented global minimum (proved)

Model: TestFuncModel (paraboloid, ToF64_64, ToF64_32, paraboloid_g). Specification: SpecStat (usize, non_negative, float_count); SpecTest (strictly_positive, paraboloid_real); SpecReal (FloatR). Proof: Induction, monotone rounding.

Theorems (Prop_TestFunc.v): `C67_paraboloid_f64` [D], `C67_paraboloid_f32` [D], `C67_minimum_f64` [D], `C67_minimum_f32` [D], `C67_exact` [D].

### C68 Rosenbrock has its documented global minimum (proved)

Model: TestFuncModel (ToF64, rosenbrock, ToF64_64, ToF64_32, rosenbrock_g). Specification: SpecStat (non_negative, float_count); SpecTest (strictly_positive, rosenbrock_real); SpecReal (FloatR). Proof: Induction, monotone rounding.

Theorems (Prop_TestFunc.v): `C68_panics` [D], `C68_rosenbrock_f64` [D], `C68_rosenbrock_f32` [D], `C68_minimum_f64` [D], `C68_minimum_f32` [D], `C68_exact` [D].

### C69 Rastrigin has its documented global minimum (proved)

Model: TestFuncModel (rastrigin, ToF64_64, ToF64_32, rastrigin_g). Specification: SpecTest (cos_bounded, cos_zero, LibmR, rastrigin_real, cos_near); SpecStat (non_negative); SpecReal (FloatR); SpecExample (decimal64). Proof: Induction, monotone rounding: the partial sums stay above numbers of the format, also those 1/128 higher after a coordinate away from 0 (Taylor bound of cos).

Theorems (Prop_TestFunc.v): `C69_rastrigin_f64` [D], `C69_rastrigin_f32` [D], `C69_minimum_f64` [D], `C69_minimum_f32` [D], `C69_exact` [D], `C69_near_f64` [D], `C69_near_f32` [D].

### C70 Schwefel is separable and bounded below on its box (proved)

Model: TestFuncModel (schwefel_g, schwefel_const). Specification: SpecReal (FloatR); SpecTest (LibmR, schwefel_real). Proof: Exact arithmetic; interval reasoning about x sin(sqrt x) on the box.

Theorems (Prop_TestFunc.v): `C70_sum` [D], `C70_order` [D], `C70_box` [D], `C70_near_minimum` [D], `C70_literal` [D].

### C71 Swapping components between runs is safe (proved)

Model: GaModel (ga_config); PsoModel (pso_config). Specification: SpecGa (selection_copies, ga_reach, population_valued, settled, iterations_of); SpecPso (pso_reach, swarm_valued, extremes_of). Proof: Induction over histories.

For the GA under the selection condition of C01.

Theorems (Prop_Ga.v, Prop_Pso.v): `C71_ga_invariants_after_any_history` [D], `C71_pso_reach_invariants` [D].

### C72 compare_floats is a total preorder with all non-finite values last (proved)

Model: PsoModel (compare_floats). Specification: SpecPso (lt_fin, le_fin). Proof: Case analysis on IEEE classes.

Theorems (Prop_Pso.v): `C72_compare_floats` [D], `C72_total_preorder` [D].

### C73 Pausing and resuming the GA changes nothing (proved)

Model: GaModel (ga_config, ga_find_min, ga_set_stop_checker, ga_next_iterations); StopModel (max_iterations). Specification: SpecRun (ga_unaffected, work). Proof: Simulation of one run by two.

Theorems (Prop_Stop.v): `C73_ga_pause_resume` [A].

### C74 What one PSO iteration does, step by step (proved)

Model: PsoModel (pso_config, pso_find_min, pso_next_iterations). Specification: SpecPso (place, pso_start, pso_rounds); SpecGa (log_events). Proof: The whole round as one relation.

Theorems (Prop_Pso.v): `C74_pso_find_min_structure` [D], `C74_pso_next_iterations_structure` [D].

### C75 A PSO whose components agree on the dimension never panics (proved)

Model: PsoModel (pso_config, pso_find_min, pso_next_iterations). Specification: SpecTotal (phase, pso_fits, swarm_dim, swarm_seen); SpecLog (answers); SpecPso (pso_view); SpecSettings (stops_by). Proof: Loop invariant.

Theorems (Prop_Standard.v): `C75_find_min_never_panics` [D], `C75_next_iterations_never_panics` [D], `C75_find_min_keeps_shape` [D], `C75_next_iterations_keeps_shape` [D], `C75_find_min_seen_in_shape` [D], `C75_next_iterations_seen_in_shape` [D], `C75_ends` [D], `C75_next_iterations_ends` [D].

### C76 A GA whose components fit together never panics and never dies out (proved)

Model: GaModel (ga_config, ga_find_min, ga_next_iterations). Specification: SpecTotal (phase, ga_fits, population_fits, settled_best, population_seen); SpecLog (answers); SpecGa (ga_view); SpecSettings (stops_by). Proof: Loop invariant.

Theorems (Prop_GaStandard.v): `C76_find_min_never_panics` [D], `C76_next_iterations_never_panics` [D], `C76_find_min_keeps_alive` [D], `C76_next_iterations_keeps_alive` [D], `C76_find_min_seen_alive` [D], `C76_next_iterations_seen_alive` [D], `C76_ends` [D], `C76_next_iterations_ends` [D].

### C77 The GA uses its components only through the recorded calls (proved)

Model: GaModel (ga_config, ga_find_min, ga_next_iterations). Specification: SpecReplay (replays, ga_replay). Proof: Induction; the run is a function of the recorded answers.

Theorems (Prop_Replay.v): `C77_ga_replayed` [A], `C77_ga_replayed_prefix` [A].

### C78 The PSO uses its components only through the recorded calls (proved)

Model: PsoModel (pso_config, pso_find_min, pso_next_iterations). Specification: SpecReplay (replays, pso_replay). Proof: Same.

Theorems (Prop_Replay.v): `C78_pso_replayed` [A], `C78_pso_replayed_prefix` [A].

### C79 PSO find_min starts afresh (proved)

Model: PsoModel (pso_config, pso_find_min). Specification: stated in the theorem itself. Proof: renew_swarm does not read the old swarm.

Theorems (Prop_Replay.v): `C79_pso_find_min_fresh` [A].

### C80 Setters replace exactly one component (proved)

Model: GaModel (ga_config, ga_set_pairing, ga_set_cross, ga_set_mutation, ga_set_selection, ga_set_pre_birth, ga_set_stop_checker, ga_set_loggers, ga_new); PsoModel (pso_config, pso_set_stop_checker, pso_set_loggers, pso_set_post_moves, pso_set_post_velocity_calc, pso_new); GaComponents (tournament_new, set_partners_count, set_rounds_count). Specification: SpecConfig (ga_same_except, pso_same_except); SpecGa (selections). Proof: Computation, field by field.

Theorems (Prop_Config.v): `C80_ga_setters` [A], `C80_pso_setters` [A], `C80_ga_new` [A], `C80_pso_new` [A], `C80_tournament` [A].

### C81 Any logger object is driven by exactly the documented calls (proved)

Model: GaModel (logger, ga_config, ga_find_min, ga_next_iterations); PsoModel (pso_config, pso_find_min, pso_next_iterations). Specification: SpecLog (attached, ga_others_keep, fed, resumed, pso_others_keep); SpecPso (consulted, pso_view); SpecGa (ga_view). Proof: Induction with a lens for the logger object.

Theorems (Prop_Log.v): `C81_ga_logger_find` [A], `C81_ga_logger_next` [A], `C81_pso_logger_find` [A], `C81_pso_logger_next` [A].

### C82 CrossMean of integers (proved)

Model: GaComponents (cross_mean, NumOpsInt). Specification: SpecInt (sums_fit, zsum). Proof: Induction on parents; Z.quot.

C82_int_mean_limit: in a release build the mean of the i8 parents 100 and 100 is -28.

Theorems (Prop_Int.v): `C82_int_mean` [A], `C82_int_mean_count` [A], `C82_int_mean_checked` [A], `C82_int_mean_wraps` [A], `C82_int_mean_limit` [A].

### C83 Random creation of integer genes (proved)

Model: GaComponents (random_creator_new, NumGeneInt, random_create); PsoComponents (random_vectors). Specification: SpecRand (shift, drawn_incl); SpecInt (toward_zero). Proof: Truncation of the draw; 2^53 bound.

C83_i64_max_limit and C83_i64_low_limit: endpoints beyond 2^53 are rounded, which can panic or leave the interval.

Theorems (Prop_Int.v): `C83_random_creator_new` [D], `C83_random_creator_int` [D], `C83_random_initializer_int` [D], `C83_i64_max_limit` [D], `C83_i64_low_limit` [D].

### C84 Accuracy of means (proved)

Model: GaComponents (cross_mean, NumOpsFloat); StatModel (get_average_goal, get_average_convergence, get_average). Specification: SpecMean (summable, near_mean); SpecStat (goals, column, components). Proof: Standard model of rounding, induction on the sum.

C84_three_parents_limit: the mean of three parents 0.1 is greater than 0.1, so nothing exact holds.

Theorems (Prop_Mean.v): `C84_cross_mean` [D], `C84_average_goal` [D], `C84_average_convergence` [D], `C84_average` [D], `C84_three_parents_limit` [D].

### C85 Runs under GoalNotChange end (proved)

Model: StopModel (gnc, goal_not_change, composite_any, gnc_new); PsoModel (pso_config, pso_find_min, pso_next_iterations); GaModel (ga_config, ga_find_min, alg_state); GaComponents (limit_population). Specification: SpecSettle (steps_between, no_later, values_between); SpecRun (pso_keeps, pso_ends, ends, ga_keeps, ga_ends, keeps); SpecPso (pso_reach); SpecGa (evaluated, selection_copies, keeps_best). Proof: Potential argument: the reference value falls by more than delta each time it is replaced.

C85_empty_swarm_limit: a swarm without particles never ends under GoalNotChange. C85_limit_population_limit: with LimitPopulation, which can lose the best individual, a run can go on for ever.

Theorems (Prop_Settle.v): `C85_pso_find_settles` [D], `C85_pso_next_settles` [D], `C85_ga_find_settles` [D], `C85_pso_some_bound` [D], `C85_ga_some_bound` [D], `C85_goal_not_change_alone` [A], `C85_composite_any` [A], `C85_empty_swarm_limit` [D], `C85_limit_population_limit` [D].

### C86 The test functions are finite and bounded on a box (proved)

Model: TestFuncModel (paraboloid, ToF64_64, ToF64_32, rosenbrock, rastrigin, schwefel). Specification: SpecTest (within, cos_bounded). Proof: Interval arithmetic with integer bounds: rounding keeps a bound that is an integer of at most 2^prec; induction on the sums.

Theorems (Prop_Range.v): `C86_paraboloid_f64` [D], `C86_paraboloid_f32` [D], `C86_rosenbrock_f64` [D], `C86_rosenbrock_f32` [D], `C86_rastrigin_f64` [D], `C86_rastrigin_f32` [D], `C86_schwefel_f64` [D], `C86_schwefel_f32` [D].

### C87 The example programs and tests end with a solution (proved)

Model: LogModel (formatter); ExampleModel (ga_main, genetic_paraboloid, genetic_rastrigin, genetic_schwefel, test_genetic_rastrigin, test_genetic_schwefel, genetic_rosenbrock, ga_main_iterative, genetic_schwefel_iterative, pso_main, particleswarm_paraboloid, particleswarm_rastrigin, particleswarm_rosenbrock, particleswarm_schwefel, pso_main_iterative, particleswarm_schwefel_iterative, test_genetic_paraboloid, genetic_paraboloid_asserts, test_particleswarm_paraboloid, particleswarm_paraboloid_asserts, genetic_rastrigin_asserts, genetic_schwefel_asserts, f32_5_12, f32_m5_12, f32_0_1, f32_0_2, f32_0_3, f32_0_9, f32_3_2, f64_0_1, f64_1em3, f64_1em4, f64_1em6, f64_1em7, f64_1em8, f64_1em9); StopModel (max_iterations); StatProgramModel (f32_1em2, f32_0_05, f32_0_6, f32_0_85, f32_2_2, f32_3_4, f32_420_9687, f64_0_75, f64_1em10). Specification: SpecExample (accepts, ticks, solves, int_cube, stopped_by, decimal64, cube, decimal32); SpecTest (cos_bounded, cos_near); SpecStat (float_count). Proof: The programs are instances of the fitting conditions of C75/C76; C86 gives finite values on the boxes, C48 to C51 the answers of the stop checkers; each term of the paraboloid is at most the rounded sum; C69 for Rastrigin.

genetic-rosenbrock has only GoalNotChange to stop it, which need not happen (C85_limit_population_limit), so nothing is claimed about its end. The assertions of the tests on rastrigin and schwefel depend on the accuracy of libm and are not considered.

Theorems (Prop_Example.v, Prop_Work.v): `C87_genetic_paraboloid` [D], `C87_genetic_rastrigin` [D], `C87_genetic_schwefel` [D], `C87_test_genetic_rastrigin` [D], `C87_test_genetic_schwefel` [D], `C87_genetic_rosenbrock` [D], `C87_genetic_schwefel_iterative` [D], `C87_particleswarm_paraboloid` [D], `C87_particleswarm_rastrigin` [D], `C87_particleswarm_rosenbrock` [D], `C87_particleswarm_schwefel` [D], `C87_particleswarm_schwefel_iterative` [D], `C87_test_genetic_paraboloid` [D], `C87_test_particleswarm_paraboloid` [D], `C87_test_genetic_rastrigin_passes` [D], `C87_genetic_asserts` [D], `C87_particleswarm_asserts` [D], `C87_rastrigin_asserts` [D], `C87_schwefel_asserts` [D], `C87_literals` [D].

### C88 A failing writer is noticed (proved)

Model: LogModel (formatter, verbose_logger, result_only_logger, time_logger); GaModel (logger, ga_config, ga_find_min, ga_next_iterations); PsoModel (pso_config, pso_find_min, pso_next_iterations). Specification: SpecLog (answers, answering, notices, refuses, attached, ga_others_keep, pso_others_keep); SpecGa (told_by); SpecPso (consulted). Proof: The answers of the writer are kept in a list beside its state; a returned run has told the logger about its iterations and its end (C81), and each of these calls writes.

Theorems (Prop_Print.v): `C88_failures_noticed` [A], `C88_ga_report` [A], `C88_pso_report` [A], `C88_ga_verbose` [A], `C88_pso_verbose` [A].

### C89 The statistics programs report on the runs they made (proved)

Model: StatProgramModel (genetic_schwefel_statistics, genetic_rosenbrock_statistics, particleswarm_schwefel_statistics, particleswarm_rosenbrock_statistics, particleswarm_schwefel_statistics_full, particleswarm_schwefel_statistics_inertia, particleswarm_rastrigin_statistics_inertia, test_stat_single, test_stat_two, stat_asserts, test_genetic_rosenbrock); StatModel (statistics). Specification: SpecTest (cos_bounded); SpecStatProgram (reports_all, good_run, reports_ended, same_summary, fails_beyond, equal_points, tests_share); SpecExample (decimal32, int_cube, decimal64, cube); SpecMean (total); SpecStat (mean64). Proof: Each run is an instance of C75/C76 with a logger and a counter that own their state (C53, C64); the counts are those of C34 and C90, the end of the swarm on rosenbrock is C85; a thread is a fold of unite, and so is the main thread over any permutation. The Rosenbrock test makes the runs of the example without counting calls (C64), and its float comparison with 0.75 is exact for at most 100 runs.

genetic-rosenbrock-statistics has only GoalNotChange and a threshold to stop its runs, which need not happen (C85_limit_population_limit), so its theorem is about the runs that end. C89_rounding_limit: the average of the goals can depend on the order. C89_too_many_processors_limit: no runs, so unwrap panics. The second test may panic in debug builds: the GoalNotChange object is used again (C52).

Theorems (Prop_StatProgram.v): `C89_genetic_schwefel` [D], `C89_genetic_rosenbrock` [D], `C89_particleswarm_schwefel` [D], `C89_particleswarm_rosenbrock` [D], `C89_particleswarm_full` [D], `C89_schwefel_inertia` [D], `C89_rastrigin_inertia` [D], `C89_any_order` [D], `C89_rounding_limit` [D], `C89_too_many_processors_limit` [D], `C89_test_single` [D], `C89_test_two` [D], `C89_asserts` [A], `C89_rosenbrock_test` [D], `C89_rosenbrock_test_limit` [D].

### C90 A genetic run calls the goal no more often than its families allow (proved)

Model: GaModel (ga_config, ga_find_min, ga_next_iterations); Rng (rng); GaComponents (vec_cross_all_genes, pre_birth_interval, tournament_pairs, random_pairing, limit_population). Specification: SpecBudget (ga_economy); SpecGa (evals); SpecPso (consulted). Proof: The calls of one generation are those of the children that the pre-births leave; induction on the generations with the size of the population as invariant.

Theorems (Prop_Budget.v): `C90_find` [D], `C90_next` [D], `C90_tournament` [D], `C90_random_pairing` [D].

### C91 A run that is cut off has done what the whole run does first (proved)

Model: GaModel (ga_config, ga_find_min, ga_next_iterations); PsoModel (pso_config, pso_find_min, pso_next_iterations). Specification: SpecBudget (grows). Proof: Induction on the smaller fuel.

Theorems (Prop_Budget.v): `C91_ga_find` [A], `C91_ga_next` [A], `C91_pso_find` [A], `C91_pso_next` [A].

### C92 No component can forge an individual (proved)

Model: GaModel (individual, ga_config, ga_find_min, ga_next_iterations); ApiModel (sel_prog, selection_of). Specification: SpecApi (tidy, learns_from, leaves_copies, forgetful, just_kills, honest, ga_life, observed_well); SpecGa (selection_copies, selection_kills, evaluated, evals). Proof: Programs by induction on their syntax: everything held or left is a copy of something seen or held before. Runs by the invariant of C04 with the individuals held added to it; the limit is a run of an elitist selection, computed.

References, borrowing and cloning are not modelled; a program is a tree of operations, its own computations are arbitrary.  C92_old_point_limit: with a selection that remembers, find_min may return a point of an earlier run.

Theorems (Prop_Api.v): `C92_programs_honest` [A], `C92_forgetful_copies` [A], `C92_just_kills` [A], `C92_observed` [D], `C92_result` [D], `C92_old_point_limit` [D].

### C93 The accessors show the state of the run (proved)

Model: GaModel (population, ga_config, ga_find_min, ga_next_iterations, pop_view); ApiModel (pop_get_agents, pop_len, pop_index, swarm_get_agents, swarm_len, pop_kill, ind_get_parameter, ind_get_goal, par_get_parameter, par_get_goal); PsoModel (swarm, pso_config, pso_find_min, swarm_view). Specification: SpecGa (selection_copies, ga_reach, shows, evaluated, reported, le_nan_last); SpecPso (pso_reach, le_fin). Proof: Pushing one by one is the list itself; the rest follows from the invariants behind C02, C04, C29 and C30.

Theorems (Prop_Api.v): `C93_population_accessors` [A], `C93_swarm_accessors` [A], `C93_kill` [A], `C93_ga_agents` [D], `C93_pso_agents` [D], `C93_ga_best_agent` [D], `C93_pso_best_agent` [D].

### C94 Every outcome the random components allow is possible (proved)

Model: PsoComponents (negative_reinforcement, negative_velocity, random_vectors, random_teleport_new, random_teleport_post_move, classic_velocity, canonical_velocity, inertia_velocity, move_to_boundary); Rng (rng); GaModel (ga_config, ga_find_min, population); GaComponents (random_creator_new, NumGene64, random_create, NumGene32, NumGeneInt, random_pairing, tournament, tournament_pairs, cross_bitwise64, cross_bitwise32, float_cross_exp, vec_cross_all_genes, bitwise_mutation64, bitwise_mutation32, vec_mutation); PsoModel (pso_find_min). Specification: SpecPso (first_least, last_greatest); SpecVel (covers); SpecPossible (unit_number, possible, prepend); SpecStandard (good_intervals64, good_intervals32); SpecBox (in_box); SpecGa (keeps_best, evaluated); SpecBits (crossed, decoded, unsigned, signed). Proof: `possible c a`: a finite list of draws after which c has returned a, whatever follows. Draws that encode the wanted values are built by induction over the components; in a run they put the first particle on the wanted point, and the best never gets worse (C29). Nothing is said about probabilities.

Theorems (Prop_Escape.v, Prop_Possible.v): `C94_negative_velocity` [D], `C94_genetic_can_find_f64` [D], `C94_genetic_can_find_f32` [D], `C94_random_creator_f64` [D], `C94_random_creator_f32` [D], `C94_random_creator_int` [D], `C94_random_initializer_f64` [D], `C94_random_initializer_f32` [D], `C94_random_pairing` [A], `C94_tournament` [D], `C94_cross_bitwise_f64` [D], `C94_cross_bitwise_f32` [D], `C94_cross_exp_f64` [D], `C94_cross_exp_f32` [D], `C94_vec_cross` [A], `C94_bitwise_mutation_f64` [D], `C94_bitwise_mutation_f32` [D], `C94_vec_mutation` [D], `C94_teleport_f64` [D], `C94_teleport_f32` [D], `C94_classic_velocity` [D], `C94_canonical_velocity` [D], `C94_inertia_velocity` [D], `C94_swarm_can_find_f64` [D], `C94_swarm_can_find_f32` [D].

### C95 Only the order of the goal values matters (proved)

Model: GaModel (ga_config, ga_find_min, ga_next_iterations, population, alg_state, goal_from_function); PsoModel (pso_config, pso_find_min, pso_next_iterations, swarm); GaComponents (random_pairing, tournament_pairs, limit_population, kill_fitness_nan, selection_interval); PsoComponents (classic_velocity, canonical_velocity, inertia_velocity, negative_velocity); Rng (rng); StopModel (max_iterations, threshold). Specification: SpecOrder (same_order, alike_ga, alike_run, alike_event, alike_population, alike_ga_call, alike_result, alike_pso, alike_swarm, alike_pso_call, alike_outcome, alike_individual, alike_particle, alike_stop, same_ranking, by_rank, alike_comp); SpecGa (selections). Proof: Relational rules for the run monad: corresponding parts give corresponding runs; induction on fuel. The limit is two concrete runs.

C95_goal_not_change_limit shows that GoalNotChange has to be excluded

Theorems (Prop_Order.v): `C95_ga_find_min` [A], `C95_ga_next_iterations` [A], `C95_pso_find_min` [A], `C95_pso_next_iterations` [A], `C95_random_pairing` [A], `C95_tournament` [A], `C95_limit_population` [A], `C95_kill_fitness_nan` [A], `C95_selection_interval` [A], `C95_classic_velocity` [D], `C95_canonical_velocity` [D], `C95_inertia_velocity` [D], `C95_negative_velocity` [D], `C95_max_iterations` [A], `C95_threshold` [A], `C95_swarm_same_points` [A], `C95_genetic_same_points` [A], `C95_goal_not_change_limit` [D].

### C96 The unit tests of the modules pass (proved)

Model: UnitTestModel (plain_tests, random_tests). Specification: SpecUnitTests (plain_passes, random_passes). Proof: Each test by computation with an unknown NaN policy; the random ones by C15 and C45.

C96_example_one_sided: the assertions on average call counts bound them only from above

Theorems (Prop_UnitTests.v): `C96_plain_tests` [D], `C96_random_tests` [D].

### C97 Computed standard deviations are accurate (proved)

Model: StatModel (get_standard_deviation_goal, get_standard_deviation). Specification: SpecMean (summable); SpecStat (goals, components); SpecDev (near_deviation). Proof: One relative factor per operation (Flocq), the shift of the centre by the triangle inequality, the mean by C84; limits by computation.

Theorems (Prop_Dev.v): `C97_goal` [D], `C97_vector` [D], `C97_overflow_limit` [D], `C97_equal_goals_limit` [D].

### C98 A coordinate in which the swarm rests stays as it is (proved)

Model: PsoModel (pso_config, pso_next_iterations, pso_find_min); Rng (rng); PsoComponents (classic_velocity, canonical_velocity, inertia_velocity, negative_reinforcement, negative_velocity, max_velocity_dimensions, max_velocity_abs, move_to_boundary, zero_velocities). Specification: SpecStill (quiet, swarm_rests, rested, at_number, still, quiet_calc, quiet_velocity, quiet_move); SpecBox (in_box); SpecGa (evaluated); SpecVel (same_point). Proof: An invariant of the event trace by the Hoare rules of Logic.v; the calculators by the formulas of C36-C39, where a pull between equal numbers is a zero. RandomTeleport is not quiet (C94).

Theorems (Prop_Still.v): `C98_next_iterations` [D], `C98_find_min` [D], `C98_classic` [D], `C98_canonical` [D], `C98_inertia` [D], `C98_negative` [D], `C98_max_velocity_dimensions` [D], `C98_max_velocity_abs` [D], `C98_move_to_boundary` [D], `C98_lone_particle` [D].

### C99 A swarm with RandomTeleport can leave every state (proved)

Model: Rng (rng); PsoModel (swarm, particle, pso_next_iterations); PsoComponents (random_teleport_new, random_teleport_post_move, move_to_boundary). Specification: SpecPso (pso_reach); SpecPossible (possible, prepend); SpecBox (in_box); SpecRun (keeps); SpecGa (told_by, evaluated). Proof: The draws of C94 for the velocity and the teleport, one after the other; then the first particle of the iteration is followed through the run, and the best never gets worse (C29).

Theorems (Prop_Escape.v): `C99_swarm_escapes_f64` [D], `C99_swarm_escapes_f32` [D].

### C100 Breeding does not leave a set closed under the components (proved)

Model: GaModel (ga_config, ga_find_min, ga_next_iterations); GaComponents (vec_cross_all_genes, vec_mutation, cross_mean, NumOpsFloat, cross_bitwise64, cross_bitwise32, float_cross_exp, pre_birth_interval); Rng (rng). Specification: SpecClosed (closed, lived_in, inherits, gene_wise, schema); SpecGa (inside); SpecBits (exact_exp2, zero_or_normal); SpecStandard (standard_selection); SpecBox (in_box). Proof: An invariant of the run in the Hoare logic of Logic.v, one rule per step of an iteration; the components by C21, C22, C24 and C26, gene by gene.

C100_overflow_limit shows why the doubled bounds have to be finite

Theorems (Prop_Closed.v): `C100_find_min` [D], `C100_next_iterations` [D], `C100_vec_cross` [A], `C100_vec_mutation` [D], `C100_mean` [D], `C100_bits_f64` [D], `C100_bits_f32` [D], `C100_exp_f64` [D], `C100_exp_f32` [D], `C100_bits_clone_f64` [D], `C100_bits_clone_f32` [D], `C100_unmutated` [D], `C100_mean_hull` [D], `C100_clones` [D], `C100_overflow_limit` [D].

### C101 How much work the example programs do (proved)

Model: LogModel (formatter); ExampleModel (ga_main, genetic_paraboloid, genetic_rastrigin, genetic_rosenbrock, genetic_schwefel, test_genetic_paraboloid, test_genetic_rastrigin, test_genetic_schwefel, pso_main, particleswarm_paraboloid, particleswarm_rastrigin, particleswarm_rosenbrock, particleswarm_schwefel, test_particleswarm_paraboloid, ga_main_iterative, genetic_schwefel_iterative, pso_main_iterative, particleswarm_schwefel_iterative). Specification: SpecWork (ga_works, pso_works, ga_works_twice, pso_works_twice); SpecExample (int_cube). Proof: Each program is unfolded to a configuration whose creator, pairing, cross, pre-birth and selections are known; then C27 and C90 (genetic), C34 and C36 (swarm). No hypothesis on the goal, the output or the clock.

Theorems (Prop_Work.v): `C101_genetic_programs` [D], `C101_swarm_programs` [D], `C101_genetic_iterative` [D], `C101_swarm_iterative` [D].

### C102 A swarm keeps its speed limit (proved)

Model: PsoModel (pso_config, pso_find_min, pso_next_iterations); PsoComponents (move_to_boundary, canonical_velocity, classic_velocity, inertia_velocity, negative_reinforcement, negative_velocity); Rng (rng); LogModel (formatter); ExampleModel (pso_main, particleswarm_paraboloid, particleswarm_schwefel, pso_main_iterative, particleswarm_schwefel_iterative, world, particleswarm_rastrigin, particleswarm_rosenbrock, test_particleswarm_paraboloid); GaModel (logger); StatProgramModel (create_particleswarm_schwefel, create_particleswarm_rosenbrock, create_particleswarm_schwefel_full, create_particleswarm_schwefel_inertia, create_particleswarm_rastrigin_inertia). Specification: SpecPace (limited, slow, rounded_limit, velocities_seen, swarm_where, box_within, tame, bounded, at_most). Proof: An invariant of the run (Logic.v, WithinRuns.v): coordinates stay in the box (C40), the calculators are bounded operation by operation (Flocq), so the norm does not overflow and the accuracy of MaxVelocityAbs (C41) applies; the numbers of the programs by computation.

Theorems (Prop_Pace.v): `C102_find_min` [D], `C102_next_iterations` [D], `C102_find_min_unlimited` [D], `C102_next_iterations_unlimited` [D], `C102_canonical` [D], `C102_classic` [D], `C102_inertia` [D], `C102_negative` [D], `C102_programs_limited` [D], `C102_programs_iterative` [D], `C102_programs_statistics` [D], `C102_programs_unlimited` [D].

### C103 The example programs are set up as their constants say (proved)

Model: LogModel (formatter); ExampleModel (genetic_paraboloid, genetic_rastrigin, genetic_rosenbrock, genetic_schwefel, genetic_schwefel_iterative, test_genetic_paraboloid, test_genetic_rastrigin, test_genetic_schwefel, world, particleswarm_paraboloid, particleswarm_rastrigin, particleswarm_rosenbrock, particleswarm_schwefel, particleswarm_schwefel_iterative, test_particleswarm_paraboloid); GaModel (logger); StatProgramModel (create_genetic_schwefel, create_genetic_rosenbrock, create_stat_paraboloid, create_test_rosenbrock, create_particleswarm_schwefel, create_particleswarm_rosenbrock, create_particleswarm_schwefel_full, create_particleswarm_inertia). Specification: SpecSettings (breeds, breeds_at_random, swarms, constricted, reinforced, weighted); SpecExample (decimal64, decimal32). Proof: The specifications of the components (C16, C17, C25, C26, C38, C39, C41, C42, C51) applied to what the programs construct; the stop checkers by an invariant over the questions asked (the reference value of GoalNotChange); the constriction by computing the float and comparing integers.

Theorems (Prop_Settings.v): `C103_genetic_paraboloid` [D], `C103_genetic_rastrigin` [D], `C103_genetic_rosenbrock` [D], `C103_genetic_schwefel` [D], `C103_genetic_schwefel_iterative` [D], `C103_test_genetic_paraboloid` [D], `C103_test_genetic_rastrigin` [D], `C103_test_genetic_schwefel` [D], `C103_genetic_schwefel_statistics` [D], `C103_genetic_rosenbrock_statistics` [D], `C103_test_genetic_stat_paraboloid` [D], `C103_test_genetic_rosenbrock` [D], `C103_particleswarm_paraboloid` [D], `C103_particleswarm_rastrigin` [D], `C103_particleswarm_rosenbrock` [D], `C103_particleswarm_schwefel` [D], `C103_particleswarm_schwefel_iterative` [D], `C103_test_particleswarm_paraboloid` [D], `C103_particleswarm_schwefel_statistics` [D], `C103_particleswarm_rosenbrock_statistics` [D], `C103_particleswarm_schwefel_statistics_full` [D], `C103_particleswarm_statistics_inertia` [D].

### C104 What the programs that collect statistics print and write (proved)

Model: StatProgramModel (genetic_schwefel_statistics, genetic_rosenbrock_statistics, particleswarm_schwefel_statistics, particleswarm_rosenbrock_statistics, particleswarm_schwefel_statistics_full, particleswarm_schwefel_statistics_inertia, particleswarm_rastrigin_statistics_inertia). Specification: SpecOutput (writes_report, writes_nothing, disk, working, stores, find_file, lines, solution_line, convergence_line, numeral, at_left, at_right); SpecMean (total); SpecStatProgram (reports_all); SpecStat (shortest, mean64). Proof: The programs are rewritten to a list of actions on the device, step by step; the report they write is the one of C89 because both compute it with the same functions. Column positions and numerals by induction on strings. The text of a float is an arbitrary function.

Theorems (Prop_Output.v): `C104_genetic_schwefel` [D], `C104_genetic_rosenbrock` [D], `C104_particleswarm_schwefel` [D], `C104_particleswarm_rosenbrock` [D], `C104_particleswarm_full` [D], `C104_schwefel_inertia` [D], `C104_rastrigin_inertia` [D], `C104_stores` [A], `C104_lists` [D], `C104_solution_columns` [A], `C104_convergence_columns` [A], `C104_numerals` [A].

### C105 The computed test functions are close to the documented formulas (proved)

Model: TestFuncModel (paraboloid, ToF64_64, ToF64_32, rosenbrock, rastrigin, schwefel); LogModel (formatter); ExampleModel (ga_main, genetic_paraboloid, genetic_rastrigin, genetic_schwefel, genetic_rosenbrock, pso_main, particleswarm_paraboloid, particleswarm_rastrigin, particleswarm_schwefel, particleswarm_rosenbrock). Specification: SpecSpeed (close); SpecAccuracy (tiny, rosenbrock_slack, trig_near, rastrigin_doc, rastrigin_error, schwefel_doc, schwefel_error, right_to_six, off_by, root_right); SpecTest (paraboloid_real, rosenbrock_real, within); SpecExample (solves, int_cube, accepts, ticks). Proof: One relative factor or one absolute error per operation (Flocq), summed by induction on the arguments; sine and cosine are 1-Lipschitz, the literal of pi is compared with PI by Machin-like series of the standard library; Rosenbrock as the length of a residual vector with the triangle inequality. The programs by C66 and C87 (the solution lies in the box and the value is the goal there). The error of the libm function is a hypothesis, met by a rounded true sine.

Theorems (Prop_Accuracy.v): `C105_paraboloid_f64` [D], `C105_paraboloid_f32` [D], `C105_rosenbrock_f64` [D], `C105_rosenbrock_f32` [D], `C105_rastrigin_f64` [D], `C105_rastrigin_f32` [D], `C105_schwefel_f64` [D], `C105_schwefel_f32` [D], `C105_schwefel_floor` [D], `C105_genetic_paraboloid` [D], `C105_genetic_rastrigin` [D], `C105_genetic_schwefel` [D], `C105_genetic_rosenbrock` [D], `C105_particleswarm_paraboloid` [D], `C105_particleswarm_rastrigin` [D], `C105_particleswarm_schwefel` [D], `C105_particleswarm_rosenbrock` [D].

### C106 Low values are found only near the documented minimum (proved)

Model: LogModel (formatter); ExampleModel (ga_main, genetic_paraboloid, genetic_rastrigin, genetic_schwefel, genetic_rosenbrock, pso_main, particleswarm_paraboloid, particleswarm_rastrigin, particleswarm_schwefel, particleswarm_rosenbrock); StatProgramModel (genetic_schwefel_statistics, genetic_rosenbrock_statistics, particleswarm_schwefel_statistics, particleswarm_rosenbrock_statistics, particleswarm_schwefel_statistics_full, particleswarm_schwefel_statistics_inertia, particleswarm_rastrigin_statistics_inertia). Specification: SpecExample (solves, int_cube, cube, decimal32, accepts, ticks, decimal64); SpecNear (all_near, staircase, everywhere, schwefel_answer, always_counts_low); SpecAccuracy (trig_near); SpecStatProgram (good_run); SpecSettings (near). Proof: C105 turns a low computed value into a low value of the documented formula; that every term of the sum is not negative and at least a multiple of the squared distance is real analysis (Taylor bounds of the cosine, bounds of pi); the success predicate is compared with the distance by C86-style rounding arguments; C89 gives the report.

Theorems (Prop_Near.v): `C106_paraboloid` [D], `C106_rosenbrock` [D], `C106_rastrigin` [D], `C106_schwefel` [D], `C106_genetic_paraboloid` [D], `C106_genetic_rastrigin` [D], `C106_genetic_schwefel` [D], `C106_genetic_rosenbrock` [D], `C106_particleswarm_paraboloid` [D], `C106_particleswarm_rastrigin` [D], `C106_particleswarm_schwefel` [D], `C106_particleswarm_rosenbrock` [D], `C106_genetic_schwefel_count` [D], `C106_genetic_rosenbrock_count` [D], `C106_particleswarm_schwefel_count` [D], `C106_particleswarm_rosenbrock_count` [D], `C106_particleswarm_full_count` [D], `C106_schwefel_inertia_count` [D], `C106_rastrigin_inertia_count` [D], `C106_early` [D].

### C107 The swarm programs can stay where they start (proved)

Model: PsoModel (pso_find_min); PsoComponents (zero_velocities, move_to_boundary); ExampleModel (pso_main, particleswarm_paraboloid, particleswarm_rastrigin, particleswarm_rosenbrock, particleswarm_schwefel, test_particleswarm_paraboloid, particleswarm_paraboloid_asserts). Specification: SpecBox (in_box); SpecStill (quiet_calc, quiet_velocity); SpecGa (evaluated); SpecVel (same_point); SpecExample (int_cube, cube, decimal32, accepts, ticks); SpecStuck (only_sees); SpecPossible (prepend); SpecTest (cos_bounded). Proof: An invariant of the run: every particle rests in every coordinate (C98), so the moves change nothing but the signs of zeros. That the first draws can place all particles at the given point is C94; that the run ends is C87. The test fails because the point of zeros is further than 0.3 from 1, 2, 3, 4, 5.

Theorems (Prop_Stuck.v): `C107_crowd` [D], `C107_particleswarm_paraboloid` [D], `C107_particleswarm_rastrigin` [D], `C107_particleswarm_rosenbrock` [D], `C107_particleswarm_schwefel` [D], `C107_test_particleswarm_paraboloid` [D], `C107_particleswarm_paraboloid_result` [D], `C107_particleswarm_rastrigin_result` [D], `C107_particleswarm_rosenbrock_result` [D], `C107_particleswarm_schwefel_result` [D], `C107_test_fails` [D].

### C108 The worst of a full population never gets worse (proved)

Model: GaModel (individual, ga_config, ga_next_iterations, ga_find_min); GaComponents (limit_population, kill_fitness_nan); ExampleModel (ga_main, genetic_paraboloid, genetic_rastrigin, genetic_rosenbrock, genetic_schwefel, test_genetic_paraboloid, test_genetic_rastrigin, test_genetic_schwefel, genetic_paraboloid_asserts, genetic_rastrigin_asserts). Specification: SpecWorst (up_to, full, no_worse_than_worst, improves); SpecGa (reported); SpecExample (int_cube, cube, decimal32); SpecTest (cos_bounded, cos_near, cos_zero); SpecPossible (prepend). Proof: LimitPopulation kills the worst live individual (C16, C17) until n are left; a counting argument shows that the n survivors are at most c if n live individuals up to c were there before. The Hoare logic carries this through the run. That the first draws can place all individuals at a point is C94; that the runs end is C87; the tests pass by C86-style evaluation of the assertions near the minimum.

Theorems (Prop_Worst.v): `C108_limit_population` [D], `C108_next_iterations` [D], `C108_find_min` [D], `C108_result` [D], `C108_genetic_paraboloid` [D], `C108_genetic_rastrigin` [D], `C108_genetic_rosenbrock` [D], `C108_genetic_schwefel` [D], `C108_test_genetic_paraboloid` [D], `C108_test_genetic_rastrigin` [D], `C108_test_genetic_schwefel` [D], `C108_test_genetic_paraboloid_can_pass` [D], `C108_test_genetic_rastrigin_can_pass` [D].

### C109 The genetic programs can return every point of their box (proved)

Model: GaModel (ga_config, ga_find_min, ga_next_iterations); ExampleModel (ga_main, genetic_paraboloid, genetic_rastrigin, genetic_rosenbrock, genetic_schwefel, test_genetic_paraboloid, test_genetic_rastrigin, test_genetic_schwefel, genetic_paraboloid_asserts, genetic_rastrigin_asserts, genetic_schwefel_asserts). Specification: SpecSteady (all_steady, closed_while, ordinary, can_return, can_stay, unlucky); SpecClosed (lived_in); SpecGa (inside); SpecBits (exact_exp2); SpecExample (accepts, ticks, int_cube, cube, decimal32); SpecBox (in_box); SpecTest (cos_bounded); SpecPossible (prepend). Proof: The Hoare logic with the condition as part of the invariant (C100 is the case without a condition). The condition of the programs is that no number of the random stream is below the mutation probability; it survives because components only drop a prefix of the stream and loggers and stop checkers do not touch it. Equal parents have equal children by C24 and C100. That the first draws can place all individuals at a point is C94; that the runs end is C87, except for genetic-rosenbrock: its run is compared with the one that also has MaxIterations (C110), and a run in which only one point is evaluated cannot reach that limit, because GoalNotChange answers first.

Theorems (Prop_Steady.v): `C109_find_min` [D], `C109_next_iterations` [D], `C109_genetic_paraboloid` [D], `C109_genetic_rastrigin` [D], `C109_genetic_rosenbrock` [D], `C109_genetic_rosenbrock_returns` [D], `C109_genetic_schwefel` [D], `C109_test_genetic_paraboloid` [D], `C109_test_genetic_rastrigin` [D], `C109_test_genetic_schwefel` [D], `C109_test_genetic_paraboloid_can_fail` [D], `C109_test_genetic_rastrigin_can_fail` [D], `C109_test_genetic_schwefel_can_fail` [D].

### C110 An iteration limit that is not reached changes nothing (proved)

Model: GaModel (ga_config, ga_find_min, ga_set_stop_checker, ga_next_iterations); StopModel (stop_checker, composite_any, max_iterations); PsoModel (pso_config, pso_find_min, pso_set_stop_checker, pso_next_iterations). Specification: stated in the theorem itself. Proof: CompositeAny with MaxIterations at the end answers like CompositeAny without it, except that go on becomes the comparison with the limit. Induction over the loop: the two runs make the same steps while the limit does not speak, and each step increases the number of iterations by one.

Theorems (Prop_Limit.v): `C110_ga_find_min_limit` [D], `C110_ga_find_min_unreached` [D], `C110_ga_find_min_short` [D], `C110_ga_next_iterations_limit` [D], `C110_ga_next_iterations_unreached` [D], `C110_ga_next_iterations_short` [D], `C110_pso_find_min_limit` [D], `C110_pso_find_min_unreached` [D], `C110_pso_find_min_short` [D], `C110_pso_next_iterations_limit` [D], `C110_pso_next_iterations_unreached` [D], `C110_pso_next_iterations_short` [D].

## 8. Testing the theorems

`seeded/LOG.jsonl` records wrong programs tried against the theorems: one definition of the model was
edited in a scratch copy, everything was rebuilt, and the theorems that failed were
noted.  A theorem set that survived was tightened (field `tightened`).
