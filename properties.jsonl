{"id": "C01", "title": "GA result is a point the goal really returned that value for", "statement": "If GeneticOptimizer::find_min (or a later next_iterations) returns Some((x, v)), then the goal function was called on exactly x after the start of the last find_min and that call returned exactly v; in particular v = f(x) for a GoalFromFunction f.", "quantifier": "every goal, creator, pairing, cross, mutation, pre-birth, selection, stop checker and logger (with arbitrary internal state and randomness), every chromosome type, every number of iterations and every history of find_min/next_iterations/set_* calls", "why_tests_cant": "depends on every generation of an unbounded, randomised run with arbitrary user-supplied trait objects", "anchors": ["optlib/src/genetic/mod.rs: GeneticOptimizer::find_min, next_iterations", "optlib/src/genetic/mod.rs: Population::push, append, update_best_worst_individuals"]}
{"id": "C02", "title": "GA best/worst individual are the extremes of the generation", "statement": "Whenever a stop checker or logger observes the population after at least one iteration and the population is not empty, get_best() is a member of the population, has the least fitness (a NaN fitness counts as larger than everything, so it is NaN only if all are), and is the earliest such member (the last one if all are NaN); get_worst() is a member with the greatest fitness, NaN counting as smaller than everything, and is the latest such member.", "quantifier": "every population (any length, any mix of NaN, infinities, signed zeros), every iteration of every run", "why_tests_cant": "the comparators are not a lawful total order (NaN vs NaN answers Greater/Less), so correctness depends on the fold order over arbitrarily long lists", "anchors": ["optlib/src/genetic/mod.rs: update_best_worst_individuals, individuals_min_cmp, individuals_max_cmp"]}
{"id": "C03", "title": "GA returns None exactly when no generation was ever completed with a survivor", "statement": "find_min returns None iff in this run no completed iteration left a non-empty population; in particular it returns None whenever the stop checker stops before the first iteration, even if the initial population is not empty, and Some after the first iteration that leaves a survivor.", "quantifier": "every configuration and every number of iterations", "why_tests_cant": "quantifies over all runs, including those in which the whole population dies", "anchors": ["optlib/src/genetic/mod.rs: find_min, next_iterations, update_best_worst_individuals"]}
{"id": "C04", "title": "Every individual carries the goal value of its own chromosomes", "statement": "At every observation point (pairing, pre-birth, selection, stop checker, logger) each individual in the population has get_fitness() equal to the value the goal returned when it was called on that individual's chromosomes in the current run.", "quantifier": "every run, every individual, every goal (also stateful or random ones)", "why_tests_cant": "invariant over unbounded histories of births and deaths", "anchors": ["optlib/src/genetic/mod.rs: Population::push, append, remove_dead"]}
{"id": "C05", "title": "GA evaluates the goal exactly once per born individual", "statement": "A GA run calls the goal exactly once for every chromosome returned by the creator and once for every child chromosome left after the pre-births, in that order, and never calls it for any other point: the number of calls is the initial size plus the total number of born children.", "quantifier": "every configuration and run length", "why_tests_cant": "counting statement over all iterations of all runs", "anchors": ["optlib/src/genetic/mod.rs: append, push, next_iterations"]}
{"id": "C06", "title": "GA generation counter and call protocol", "statement": "During find_min each logger is called start once, then resume once, then next_iteration once per completed generation with get_iteration() = 1, 2, 3, ..., then finish once with the same state that produced the return value; the stop checker is consulted once before every generation and once more before finish; next_iterations follows the same protocol without start and continues the numbering.", "quantifier": "every configuration, number of loggers and run length", "why_tests_cant": "temporal ordering over unbounded event histories", "anchors": ["optlib/src/genetic/mod.rs: find_min, next_iterations, next_iteration", "optlib/src/tools/logging/mod.rs: Logger"]}
{"id": "C07", "title": "A generation is old population plus newborns minus the dead, in order", "statement": "In one iteration the children are exactly the concatenation of cross() over the pairs in order, mutated one by one in order, filtered by the pre-births in order; the new population is the old one in its old order followed by the newborns, restricted to the individuals that no selection killed; the selections run after all births and in list order.", "quantifier": "every population and every set of components", "why_tests_cant": "functional characterisation of one step for all inputs", "anchors": ["optlib/src/genetic/mod.rs: run_pairing, next_iterations, remove_dead"]}
{"id": "C08", "title": "find_min starts from scratch", "statement": "The result, the goal calls and the final population of find_min do not depend on the population, best/worst individual or generation number left by earlier calls on the same optimizer, only on the trait objects' own state.", "quantifier": "every previous state and every configuration", "why_tests_cant": "two-run (hyper)property over all histories", "anchors": ["optlib/src/genetic/mod.rs: find_min, Population::reset", "optlib/src/particleswarm/mod.rs: find_min, renew_swarm, Swarm::reset"]}
{"id": "C09", "title": "GA never loses its best solution", "statement": "The best goal value reported by the GA is non-increasing from generation to generation, and the value returned by find_min is the least value evaluated in the run (users read get_best_solution as 'best so far').", "quantifier": "every run with LimitPopulation/KillFitnessNaN selections, and in general every selection that never kills a best individual", "why_tests_cant": "depends on which individuals selection kills in every generation of every run", "anchors": ["optlib/src/genetic/mod.rs: update_best_worst_individuals, next_iterations", "optlib/src/genetic/selection/mod.rs: kill_worst"]}
{"id": "C10", "title": "LimitPopulation enforces its limit", "statement": "After LimitPopulation::kill the number of live individuals is at most max_count: exactly max_count if there were more, unchanged otherwise; no dead individual is revived and nothing else about any individual changes.", "quantifier": "every population (any length, any alive/dead pattern, any fitness values) and every max_count", "why_tests_cant": "needs all alive/dead patterns and all fitness orders", "anchors": ["optlib/src/genetic/selection/mod.rs: LimitPopulation, kill_worst", "optlib/src/genetic/mod.rs: len_alive"]}
{"id": "C11", "title": "kill_worst kills the worst", "statement": "kill_worst(population, count) kills exactly count live individuals and every killed one has fitness at least that of every survivor.", "quantifier": "every population and every count", "why_tests_cant": "needs every fitness ordering of unbounded populations", "anchors": ["optlib/src/genetic/selection/mod.rs: kill_worst"]}
{"id": "C12", "title": "KillFitnessNaN kills exactly the non-finite", "statement": "KillFitnessNaN::kill marks dead exactly the individuals whose fitness is NaN or infinite and changes nothing else; hence with KillFitnessNaN among the selections every survivor and every returned goal value is finite.", "quantifier": "every population; every run", "why_tests_cant": "all float classes in all positions, all runs", "anchors": ["optlib/src/genetic/selection/mod.rs: KillFitnessNaN"]}
{"id": "C13", "title": "Interval check before birth keeps exactly the admissible children", "statement": "pre_birth::CheckChromoInterval keeps, in order, exactly those children all of whose genes are finite and inside the closed interval of their position, and panics iff it meets a child whose length differs from the number of intervals.", "quantifier": "every list of children and every interval list (also empty, reversed or NaN intervals)", "why_tests_cant": "all lengths and all float values including NaN and infinities", "anchors": ["optlib/src/genetic/pre_birth/vec_float.rs: CheckChromoInterval"]}
{"id": "C14", "title": "Interval check by selection kills exactly the inadmissible individuals", "statement": "selection::CheckChromoInterval marks dead exactly the individuals with a gene that is not finite or outside its closed interval, changes nothing else, and panics iff some individual (alive or dead) has the wrong length.", "quantifier": "every population and every interval list", "why_tests_cant": "all lengths and all float values", "anchors": ["optlib/src/genetic/selection/vec_float.rs: CheckChromoInterval"]}
{"id": "C15", "title": "RandomCreator produces a full population inside the intervals", "statement": "RandomCreator::new panics iff the size is 0, the interval list is empty or some interval is not lower < upper; otherwise create() returns exactly population_size chromosomes, each with one gene per interval, each gene inside its closed interval after conversion to the gene type (f32 and f64).", "quantifier": "every population size, every interval list with finite width, every random stream", "why_tests_cant": "all random outcomes; the f64 to f32 rounding must not leave the interval", "anchors": ["optlib/src/genetic/creation/vec_float.rs: RandomCreator"]}
{"id": "C16", "title": "RandomPairing pairs are valid", "statement": "RandomPairing returns exactly len/2 pairs of two valid population indices, and panics iff the population is empty.", "quantifier": "every population and every random stream", "why_tests_cant": "all random streams", "anchors": ["optlib/src/genetic/pairing/mod.rs: RandomPairing"]}
{"id": "C17", "title": "Tournament families are valid and winners beat their challengers", "statement": "Tournament returns exactly families_count families of partners_count valid indices; each partner is the first draw or one of the rounds_count challengers drawn for it and no drawn competitor for that slot has a strictly smaller goal than it (if no NaN was drawn); it panics iff the population is empty.", "quantifier": "every population, every parameter setting, every random stream", "why_tests_cant": "all random streams and all tournament lengths", "anchors": ["optlib/src/genetic/pairing/mod.rs: Tournament"]}
{"id": "C18", "title": "CrossMean stays between the parents", "statement": "CrossMean returns one child; for two finite float parents whose sum does not overflow the child lies between the smaller and the larger parent, and equals the correctly rounded mean; fewer than two parents panic.", "quantifier": "all pairs of f32/f64 values; all parent counts", "why_tests_cant": "all pairs of floats; rounding", "anchors": ["optlib/src/genetic/cross/mod.rs: CrossMean"]}
{"id": "C19", "title": "FloatCrossGeometricMean shape", "statement": "FloatCrossGeometricMean panics on fewer than two parents and otherwise returns exactly one child, powf(product of the parents in order, 1/n).", "quantifier": "all parent lists, any powf implementation", "why_tests_cant": "all lengths and values", "anchors": ["optlib/src/genetic/cross/mod.rs: FloatCrossGeometricMean"]}
{"id": "C20", "title": "Unsigned single-point crossing takes low bits from the second parent, high bits from the first", "statement": "For 0 < pos < width, bit i of cross_u8/u16/u32/u64(p1, p2, pos) is bit i of p2 when i < pos and bit i of p1 otherwise; pos = 0 and pos >= width panic in a debug build.", "quantifier": "all values of both parents, all positions, all four widths", "why_tests_cant": "2^128 parent pairs", "anchors": ["optlib/src/genetic/cross/mod.rs: cross_u64, cross_u32, cross_u16, cross_u8"]}
{"id": "C21", "title": "Signed single-point crossing, including the sign bit", "statement": "For 0 <= pos < width, bit i of the two's complement pattern of cross_i16/i8(p1, p2, pos) is bit i of p2 when i < pos and bit i of p1 otherwise (so the sign is p1's); the result is in range; pos >= width panics in a debug build.", "quantifier": "all values, all positions, both widths", "why_tests_cant": "too many pairs; two's complement corner cases", "anchors": ["optlib/src/genetic/cross/mod.rs: cross_i16, cross_i8"]}
{"id": "C22", "title": "Bitwise crossing of floats acts on the IEEE bit pattern", "statement": "cross_f32/cross_f64 return the float whose bit pattern is the single-point crossing of the parents' patterns (NaN payloads included); CrossBitwise draws a position in 1..width, never panics on two parents, panics otherwise; crossing a value with itself returns it unchanged.", "quantifier": "all float pairs (including NaN, infinities, subnormals), all positions and random streams", "why_tests_cant": "2^128 pairs", "anchors": ["optlib/src/genetic/cross/mod.rs: cross_f64, cross_f32, CrossBitwise"]}
{"id": "C23", "title": "VecCrossAllGenes crosses position by position", "statement": "VecCrossAllGenes panics unless there are exactly two parents and the second is at least as long as the first; otherwise it returns a single child, the concatenation of the single-gene crossings at positions 0..len(first) in order, so with one-child gene crossings the child has the first parent's length.", "quantifier": "all parents and all gene crossing components", "why_tests_cant": "all lengths, arbitrary stateful gene crossing", "anchors": ["optlib/src/genetic/cross/mod.rs: VecCrossAllGenes"]}
{"id": "C24", "title": "FloatCrossExp recombines sign, exponent and mantissa of the parents", "statement": "FloatCrossExp returns one child sign*mantissa*2^exponent whose sign is a parent's sign and whose mantissa and exponent are single-point crossings of the parents'; crossing a normal (or zero) float with itself returns that float.", "quantifier": "all f32/f64 parents and random streams, any exp2 exact on representable powers of two", "why_tests_cant": "all float pairs", "anchors": ["optlib/src/genetic/cross/mod.rs: FloatCrossExp"]}
{"id": "C25", "title": "BitwiseMutation flips exactly the drawn bits", "statement": "BitwiseMutation(n) returns the float whose bit pattern differs from the input's exactly in the positions drawn an odd number of times among n draws from 0..width; hence at most n bits change, 0 draws is the identity, and every position drawn is a legal shift.", "quantifier": "all floats, all n, all random streams, f32 and f64", "why_tests_cant": "all floats and streams", "anchors": ["optlib/src/genetic/mutation/mod.rs: BitwiseMutation"]}
{"id": "C26", "title": "VecMutation touches genes independently and keeps the length", "statement": "VecMutation returns a vector of the same length in which gene i is either the unchanged input gene or the result of the single mutation on it, mutated exactly when its own draw from [0,100) is below probability; probability <= 0 (or NaN) changes nothing and never calls the gene mutation; probability >= 100 mutates every gene.", "quantifier": "all vectors, probabilities, gene mutations and random streams", "why_tests_cant": "all lengths and streams", "anchors": ["optlib/src/genetic/mutation/mod.rs: VecMutation"]}
{"id": "C27", "title": "GA never leaves the search box", "statement": "If the creator only creates points of a set S (e.g. RandomCreator with intervals) and the last pre-birth only keeps points of S (e.g. CheckChromoInterval with the same intervals), then every point the goal is ever called on, every individual ever in the population and every returned solution is in S, even in runs that panic or never stop.", "quantifier": "every other component, every run prefix", "why_tests_cant": "safety property of unbounded randomised runs", "anchors": ["optlib/src/genetic/mod.rs: next_iterations", "optlib/src/genetic/pre_birth/vec_float.rs", "optlib/src/genetic/creation/vec_float.rs"]}
{"id": "C28", "title": "The documented GA configuration never panics and terminates", "statement": "The README configuration (RandomCreator, Tournament with two partners, VecCrossAllGenes over FloatCrossExp, VecMutation over BitwiseMutation, CheckChromoInterval, KillFitnessNaN, LimitPopulation(n>0), CompositeAny(Threshold, MaxIterations)) never panics, stops after at most max_iter generations and returns Some point inside the intervals with its finite goal value, provided the goal is finite on the box and max_iter > 0; the population never becomes empty.", "quantifier": "every goal finite on the box, every box, every random stream, all positive sizes", "why_tests_cant": "all random streams; absence of panics needs all of them", "anchors": ["README.md", "optlib/src/genetic/mod.rs", "optlib/src/genetic/selection/mod.rs", "optlib/src/genetic/cross/mod.rs", "optlib/src/genetic/pairing/mod.rs", "optlib/src/genetic/mutation/mod.rs", "optlib/src/genetic/creation/vec_float.rs", "optlib/src/tools/stopchecker/mod.rs"]}
{"id": "C29", "title": "PSO result is a point the goal really returned that value for", "statement": "If ParticleSwarmOptimizer::find_min (or a later next_iterations) returns Some((x, v)), the goal was called on exactly x after the start of the last find_min and returned exactly v.", "quantifier": "every goal, initializers, velocity calculator, post-processors, stop checker and loggers, every history of calls", "why_tests_cant": "unbounded randomised runs with arbitrary components", "anchors": ["optlib/src/particleswarm/mod.rs: find_min, next_iterations, renew_swarm, update_best_particle"]}
{"id": "C30", "title": "PSO returns the least value ever evaluated", "statement": "The value returned by PSO find_min is no larger than any finite value the goal returned during the run, and it is non-finite only if every value was non-finite.", "quantifier": "every configuration and run length", "why_tests_cant": "ranges over all evaluations of an unbounded run", "anchors": ["optlib/src/particleswarm/mod.rs: update_best_particle, find_best_particle, compare_floats"]}
{"id": "C31", "title": "PSO best never worsens, worst never improves", "statement": "From one observation to the next in a run the best value never gets worse (non-increasing once finite, never from finite to non-finite), and the worst value never gets better.", "quantifier": "every run", "why_tests_cant": "temporal property over unbounded runs", "anchors": ["optlib/src/particleswarm/mod.rs: update_best_particle, update_worst_particle"]}
{"id": "C32", "title": "Personal best and worst are the extremes of the particle's own history", "statement": "After any sequence of moves a particle's best_personal_value is the least value (non-finite counting as worst) among its initial value and all values it moved to, attained at best_personal_coordinates (earliest such point), and symmetrically for the personal worst; cloning a particle preserves all of it.", "quantifier": "every sequence of moves", "why_tests_cant": "unbounded histories; NaN/infinite values in any position", "anchors": ["optlib/src/particleswarm/mod.rs: Particle::new, move_to, clone"]}
{"id": "C33", "title": "PSO returns None exactly for an empty swarm", "statement": "find_min returns None iff the coordinates initializer produced no particles, independently of the number of iterations (so, unlike the GA, also with zero iterations it returns the best initial particle).", "quantifier": "every configuration", "why_tests_cant": "all runs", "anchors": ["optlib/src/particleswarm/mod.rs: find_min, replace_particles, next_iterations"]}
{"id": "C34", "title": "PSO evaluates each particle once per iteration", "statement": "A PSO run with n particles and k iterations calls the goal exactly n*(k+1) times: once per particle in order at initialization and once per particle in order in every iteration, on exactly the point the particle then occupies.", "quantifier": "every configuration, n and k", "why_tests_cant": "counting over all runs", "anchors": ["optlib/src/particleswarm/mod.rs: renew_swarm, next_iterations"]}
{"id": "C35", "title": "PSO iteration counter and call protocol", "statement": "find_min calls each logger start, resume, next_iteration with get_iteration() = 1, 2, ..., finish; the stop checker is consulted before every iteration; next_iterations continues the numbering without start.", "quantifier": "every configuration and run length", "why_tests_cant": "temporal ordering over unbounded histories", "anchors": ["optlib/src/particleswarm/mod.rs: find_min, next_iterations"]}
{"id": "C36", "title": "PSO never leaves the search box with MoveToBoundary last", "statement": "If MoveToBoundary is the last post-move and every interval is finite with lower <= upper, then every point the goal is ever called on, every particle position, personal best/worst and the returned solution lie in the box, even in runs that panic or never stop.", "quantifier": "every initializer, velocity calculator, velocity limiter, earlier post-moves, goal and random stream", "why_tests_cant": "safety of unbounded runs under arbitrary (NaN, infinite) velocities", "anchors": ["optlib/src/particleswarm/mod.rs: renew_swarm, next_iterations", "optlib/src/particleswarm/postmove/mod.rs: MoveToBoundary"]}
{"id": "C37", "title": "Pausing and resuming PSO changes nothing", "statement": "Running find_min with a limit of n iterations, then raising the limit to n+m and calling next_iterations, evaluates the same points in the same order and returns the same result as a single find_min with limit n+m (for components that are not affected by loggers).", "quantifier": "all n, m and configurations", "why_tests_cant": "equivalence of two unbounded runs", "anchors": ["optlib/src/particleswarm/mod.rs: next_iterations", "optlib/src/tools/stopchecker/mod.rs: MaxIterations"]}
{"id": "C38", "title": "MoveToBoundary clamps", "statement": "MoveToBoundary panics iff the lengths differ; otherwise each coordinate inside its interval is unchanged, below goes to the lower end, above goes to the upper end, NaN/infinite goes to the lower end; the result is in the box and applying it twice equals applying it once.", "quantifier": "all vectors and all interval lists", "why_tests_cant": "all float values", "anchors": ["optlib/src/particleswarm/postmove/mod.rs: MoveToBoundary"]}
{"id": "C39", "title": "RandomTeleport moves all coordinates or none, inside the intervals", "statement": "RandomTeleport::new panics exactly when not 0 <= probability <= 1 (NaN panics) or some interval has lower > upper, a NaN or an infinite end; post_move panics iff the lengths differ; otherwise it either leaves the vector unchanged (one draw) or replaces every coordinate by the value drawn for its interval, which is inside the interval when its width is finite; probability 0 never teleports, probability 1 always does.", "quantifier": "all vectors, intervals, probabilities and random streams", "why_tests_cant": "all random streams", "anchors": ["optlib/src/particleswarm/postmove/mod.rs: RandomTeleport"]}
{"id": "C40", "title": "MaxVelocityDimensions bounds every component and keeps its sign", "statement": "For non-NaN components and non-negative limits, the corrected velocity has the same length, every component has absolute value at most its limit and the sign of the original, components already within the limit are unchanged bit for bit, and the correction is idempotent; a length mismatch panics.", "quantifier": "all vectors and limits", "why_tests_cant": "all float values", "anchors": ["optlib/src/particleswarm/postvelocitycalc/mod.rs: MaxVelocityDimensions"]}
{"id": "C41", "title": "MaxVelocityAbs bounds the speed and keeps the direction", "statement": "The length never changes, and a velocity whose computed norm does not exceed the limit is returned unchanged. If the norm is finite and exceeds a non-negative limit, no component becomes NaN or changes sign, and no component whose product with the limit is zero or not subnormal grows in absolute value. In exact arithmetic the velocity is then multiplied by one factor in [0,1) and its new norm equals the limit. In floats the computed norm of n components is the Euclidean length up to n+3 relative roundings and the underflow of the squares, the corrected velocity is finite, its Euclidean length equals the limit up to n+7 relative roundings and four times that underflow, and in no case exceeds the limit by more than n+5 roundings and that underflow.", "quantifier": "all vectors and limits", "why_tests_cant": "all vectors and rounding behaviours", "anchors": ["optlib/src/particleswarm/postvelocitycalc/mod.rs: MaxVelocityAbs"]}
{"id": "C42", "title": "Velocity calculators produce one component per dimension and obey their formula's fixed point", "statement": "Each velocity calculator panics iff the swarm has no best (worst) particle or some vector is shorter than the particle's coordinates; otherwise it returns one component per coordinate, consumes its fixed number of random draws per dimension (2 or 6), and for a particle that sits at all its attractors with finite parameters the new velocity is numerically v (Classic), xi*v (Canonical, NegativeReinforcement), w(t)*v (Inertia) whatever the random draws.", "quantifier": "all swarms, particles, parameters and random streams", "why_tests_cant": "all random streams and float values", "anchors": ["optlib/src/particleswarm/velocitycalc/mod.rs: ClassicVelocityCalculator, CanonicalVelocityCalculator, NegativeReinforcement, InertiaVelocityCalculator"]}
{"id": "C43", "title": "CanonicalVelocityCalculator::new accepts exactly the convergent parameters and its constriction factor is below one", "statement": "new panics iff not (phi_p + phi_g > 4 and 0 < alpha < 1); otherwise 0 <= xi <= alpha < 1.", "quantifier": "all float parameters (including NaN and infinities)", "why_tests_cant": "all float triples; rounding", "anchors": ["optlib/src/particleswarm/velocitycalc/mod.rs: CanonicalVelocityCalculator::new"]}
{"id": "C44", "title": "LinearInertia decreases from w_max", "statement": "For finite w_min <= w_max with finite difference and 0 < t_max, LinearInertia::get(0) is w_max, get is non-increasing in the iteration number, and in exact arithmetic get(t_max) = w_min and get stays in [w_min, w_max] up to t_max.", "quantifier": "all parameters and iterations", "why_tests_cant": "all floats; monotonicity under rounding", "anchors": ["optlib/src/particleswarm/velocitycalc/mod.rs: LinearInertia"]}
{"id": "C45", "title": "PSO initializers produce full swarms", "statement": "RandomCoordinatesInitializer/RandomVelocityInitializer return exactly particles_count vectors with one component per interval, each the value drawn for it and inside its interval, when every interval has lower < upper and a finite width; with particles_count > 0 they panic when some interval is not lower < upper or has an infinite end; with particles_count = 0 they return nothing; ZeroVelocityInitializer returns particles_count zero vectors of the given dimension.", "quantifier": "all sizes, intervals, random streams", "why_tests_cant": "all random streams; f64->f32 rounding", "anchors": ["optlib/src/particleswarm/initializing/mod.rs", "optlib/src/tools/mod.rs: RandomVectorCreator"]}
{"id": "C46", "title": "The documented PSO configuration never panics and terminates", "statement": "With RandomCoordinatesInitializer over non-empty intervals of finite width, ZeroVelocityInitializer or RandomVelocityInitializer of the same dimension and count, any of the four velocity calculators with any parameters, any MaxVelocityAbs/MaxVelocityDimensions and RandomTeleport/MoveToBoundary of that dimension followed by MoveToBoundary over the same intervals, and MaxIterations(k), for f32 and f64, find_min never panics, runs exactly k iterations and returns Some point of the box with its goal value (None iff zero particles).", "quantifier": "every goal, box, random stream, k, n", "why_tests_cant": "absence of panics needs all random streams", "anchors": ["optlib/examples/particleswarm-schwefel.rs", "optlib/src/particleswarm/mod.rs", "optlib/src/particleswarm/velocitycalc/mod.rs"]}
{"id": "C47", "title": "PSO keeps the dimension of every particle", "statement": "If all initial coordinates have dimension d, the velocity calculator returns velocities of length >= d and post-moves keep lengths, then all positions, personal bests and solutions have dimension d throughout the run.", "quantifier": "every such configuration and run", "why_tests_cant": "unbounded runs; zip silently truncates", "anchors": ["optlib/src/particleswarm/mod.rs: next_iterations"]}
{"id": "C48", "title": "MaxIterations stops exactly at the limit", "statement": "With MaxIterations(n) as stop checker a find_min that does not panic terminates with exactly n iterations, and next_iterations on a state with i iterations performs exactly max(0, n - i) more.", "quantifier": "all n and configurations (GA and PSO)", "why_tests_cant": "all run lengths", "anchors": ["optlib/src/tools/stopchecker/mod.rs: MaxIterations"]}
{"id": "C49", "title": "Threshold stops only when reached", "statement": "With Threshold(t) as stop checker the optimizer finishes only in a state whose best goal is <= t (never NaN), it finishes at the first such state, and the returned value is <= t.", "quantifier": "all thresholds, configurations and runs that stop", "why_tests_cant": "all runs", "anchors": ["optlib/src/tools/stopchecker/mod.rs: Threshold"]}
{"id": "C50", "title": "Composite stop checkers are any/all with short circuit", "statement": "CompositeAny stops iff some checker, asked in order, says stop, asking no checker after the first that does; CompositeAll stops iff all do, asking none after the first that does not; both constructors panic on an empty list; for checkers without state they equal logical or/and and nest accordingly.", "quantifier": "all lists of (stateful) checkers and all states", "why_tests_cant": "arbitrary nesting and statefulness", "anchors": ["optlib/src/tools/stopchecker/mod.rs: CompositeAny, CompositeAll"]}
{"id": "C51", "title": "GoalNotChange stops after the goal has been quiet", "statement": "In one run consulted once per iteration, GoalNotChange(m, delta) answers stop at iteration i iff the best goal has differed by at most delta from a reference value for all iterations since the reference was taken, more than m iterations ago; it never stops while there is no solution.", "quantifier": "all sequences of best goals and all m, delta", "why_tests_cant": "unbounded histories", "anchors": ["optlib/src/tools/stopchecker/mod.rs: GoalNotChange"]}
{"id": "C52", "title": "Stop checkers can be reused for another run", "statement": "Calling find_min again on the same optimizer (the stop checker object included) never panics because of the stop checker and gives the same stopping rule as the first run.", "quantifier": "all histories of two runs", "why_tests_cant": "needs histories spanning several runs", "anchors": ["optlib/src/tools/stopchecker/mod.rs: GoalNotChange", "optlib/src/genetic/mod.rs: find_min"]}
{"id": "C53", "title": "StatisticsLogger records every iteration and every result", "statement": "After a find_min with a StatisticsLogger attached get_convergence() has one more row, whose i-th entry is the best solution after iteration i+1 and whose length is the number of iterations, and get_results() has one more entry, equal to the value returned by find_min; earlier rows are untouched.", "quantifier": "all configurations, run lengths and previous contents", "why_tests_cant": "all runs", "anchors": ["optlib/src/tools/statistics/mod.rs: StatisticsLogger, Statistics"]}
{"id": "C54", "title": "Run count counts optimisation runs", "statement": "get_run_count() equals the number of find_min calls made with the logger attached, and results and convergence rows correspond one to one, also when runs are paused and resumed with next_iterations.", "quantifier": "all histories of find_min and next_iterations", "why_tests_cant": "histories of calls", "anchors": ["optlib/src/tools/statistics/mod.rs: get_run_count, StatisticsLogger::start, finish"]}
{"id": "C55", "title": "next_iterations on a fresh optimizer is safe", "statement": "Calling next_iterations before the first find_min does not panic because of the library's own loggers: it is a run on an empty state.", "quantifier": "all configurations with the library's loggers", "why_tests_cant": "API-misuse histories", "anchors": ["optlib/src/tools/statistics/mod.rs: add_convergence", "optlib/src/tools/logging/mod.rs: TimeLogger"]}
{"id": "C56", "title": "unite concatenates", "statement": "Statistics::unite and CallCountData::unite append the other's runs after self's runs, keeping order and content; uniting is associative with the empty statistics as unit.", "quantifier": "all statistics", "why_tests_cant": "all sizes", "anchors": ["optlib/src/tools/statistics/mod.rs: Statistics::unite, CallCountData::unite"]}
{"id": "C57", "title": "get_average_convergence averages per iteration over the runs that have a solution", "statement": "The result's length is the least row length (0 for no rows), entry i is None iff no row has a solution at i and otherwise the sum over the rows having one, in row order, divided by their number.", "quantifier": "all convergence tables", "why_tests_cant": "all shapes", "anchors": ["optlib/src/tools/statistics/mod.rs: get_average_convergence, get_min_iterations"]}
{"id": "C58", "title": "get_average_convergence is None whenever some run has no solution", "statement": "As documented: 'Value is None if Solution is None for any running'.", "quantifier": "all convergence tables", "why_tests_cant": "all shapes", "anchors": ["optlib/src/tools/statistics/mod.rs: StatFunctionsConvergence (doc comment), get_average_convergence"]}
{"id": "C59", "title": "Average and standard deviation are defined exactly when there is enough data", "statement": "get_average_goal/get_average are None iff no result is Some; get_standard_deviation_goal/get_standard_deviation are None iff fewer than two results are Some; a defined deviation of finite data is never negative, and in exact arithmetic they are the mean and the sample standard deviation; adding None entries changes nothing (except the two-entry rule).", "quantifier": "all result lists of all lengths", "why_tests_cant": "all lengths and values", "anchors": ["optlib/src/tools/statistics/mod.rs: StatFunctionsGoal, StatFunctionsSolution"]}
{"id": "C60", "title": "Average solution keeps the dimension", "statement": "get_average and get_standard_deviation panic iff two solutions have different lengths (and the statistic is defined); otherwise the result has that length and component j is computed from the j-th components only.", "quantifier": "all result lists", "why_tests_cant": "all lengths", "anchors": ["optlib/src/tools/statistics/mod.rs: get_average, get_standard_deviation, vectorize"]}
{"id": "C61", "title": "Success rate is the fraction of successful runs", "statement": "get_success_rate is None iff there are no runs; otherwise it is (number of runs with a solution satisfying the predicate)/(number of runs), between 0 and 1, 1 iff all runs succeed and 0 iff none does.", "quantifier": "all result lists and predicates", "why_tests_cant": "all lengths; rounding of the quotient", "anchors": ["optlib/src/tools/statistics/mod.rs: get_success_rate"]}
{"id": "C62", "title": "Success predicates accept exactly the close solutions", "statement": "get_predicate_success_goal accepts iff |goal - expected| < delta and get_predicate_success_vec_solution accepts iff every component is within delta of the expected one; a NaN goal or NaN component is never a success, nor is a solution of the wrong dimension.", "quantifier": "all solutions, expectations and deltas", "why_tests_cant": "all floats including NaN", "anchors": ["optlib/src/tools/statistics/mod.rs: get_predicate_success_goal, get_predicate_success_vec_solution"]}
{"id": "C63", "title": "CallCountData counts per run", "statement": "After any sequence of next_run, increment, add(n) and unite the data equals the per-run sums of the calls made since each next_run (calls before the first next_run open a run), and the average is total/runs, None iff there are none.", "quantifier": "all operation sequences", "why_tests_cant": "unbounded operation sequences", "anchors": ["optlib/src/tools/statistics/mod.rs: CallCountData"]}
{"id": "C64", "title": "GoalCalcStatistics counts without disturbing", "statement": "Wrapping the goal in GoalCalcStatistics changes neither the result nor the events of a run, and adds exactly the number of goal calls of the run to the current counter: n*(k+1) for PSO, the number of born individuals for the GA.", "quantifier": "all runs of both optimizers", "why_tests_cant": "relates two runs, all lengths", "anchors": ["optlib/src/tools/statistics/mod.rs: GoalCalcStatistics"]}
{"id": "C65", "title": "TimeLogger never unwraps a missing start time", "statement": "Under the optimizers' call protocol TimeLogger::finish always finds a start time (resume precedes finish in find_min and next_iterations), so it never panics on a working writer, and it writes exactly one line per finish.", "quantifier": "all histories of find_min and next_iterations", "why_tests_cant": "temporal property", "anchors": ["optlib/src/tools/logging/mod.rs: TimeLogger", "optlib/src/genetic/mod.rs: next_iterations", "optlib/src/particleswarm/mod.rs: next_iterations"]}
{"id": "C66", "title": "VerboseLogger and ResultOnlyLogger write what happened", "statement": "VerboseLogger writes exactly one line per iteration that has a solution, carrying the iteration number, every coordinate in order and the goal; ResultOnlyLogger writes, on each finish only, every coordinate and the goal (or 'Solution not found') and the iteration count.", "quantifier": "all runs and solutions", "why_tests_cant": "all histories and dimensions", "anchors": ["optlib/src/tools/logging/mod.rs: VerboseLogger, ResultOnlyLogger"]}
{"id": "C67", "title": "Paraboloid has its documented global minimum", "statement": "For f64 and f32, paraboloid(x) is NaN iff a coordinate is NaN, and otherwise never negative; up to 2^53 (2^24) coordinates it is 0 at (1, 2, ..., n) and positive at every other vector. The same holds in exact arithmetic, where it is the documented sum.", "quantifier": "all vectors of all lengths", "why_tests_cant": "all vectors", "anchors": ["optlib-testfunc/src/lib.rs: paraboloid"]}
{"id": "C68", "title": "Rosenbrock has its documented global minimum", "statement": "rosenbrock panics exactly on the empty vector; on finite f64 or f32 coordinates it is never negative, is 0 at (1, ..., 1) and in dimension 1, and in dimension >= 2 is positive at every other vector. The same holds in exact arithmetic, where it is the documented sum.", "quantifier": "all vectors of all lengths", "why_tests_cant": "all vectors", "anchors": ["optlib-testfunc/src/lib.rs: rosenbrock"]}
{"id": "C69", "title": "Rastrigin has its documented global minimum", "statement": "With a cosine that stays in [-1, 1] and is 1 at 0, and 10*n at most 2^53 (f64) or 2^24 (f32): rastrigin is 0 at the origin and never negative at coordinates up to 2^1020 (2^124). If the cosine is moreover right to 1/2000 between -1 and 1 (and 10240*n is at most 2^53 or 2^24), a computed value below 1/128 means that every coordinate is below 0.0099 in absolute value. In exact arithmetic it is the documented sum, non-negative, and 0 only at the origin.", "quantifier": "all such vectors and cosines", "why_tests_cant": "all vectors", "anchors": ["optlib-testfunc/src/lib.rs: rastrigin"]}
{"id": "C70", "title": "Schwefel is separable and bounded below on its box", "statement": "In exact arithmetic schwefel(x) is the sum over the coordinates of 418.9829 - x_i*sin(sqrt|x_i|), independent of the order of the coordinates, never negative on [-500, 500]^n, and at the documented minimum (420.9687, ...) at most 21e-6 per coordinate.", "quantifier": "all vectors of all lengths", "why_tests_cant": "all vectors", "anchors": ["optlib-testfunc/src/lib.rs: schwefel"]}
{"id": "C71", "title": "Swapping components between runs is safe", "statement": "After any sequence of find_min, next_iterations and set_* calls the optimizer's invariants hold (every individual/particle carries its own goal value, best/worst are consistent, the iteration number is the number of iterations since the last find_min).", "quantifier": "all histories of API calls", "why_tests_cant": "unbounded histories", "anchors": ["optlib/src/genetic/mod.rs: set_pairing, set_cross, set_mutation, set_selection, set_pre_birth, set_stop_checker, set_loggers", "optlib/src/particleswarm/mod.rs: set_stop_checker, set_post_moves, set_post_velocity_calc, set_loggers"]}
{"id": "C72", "title": "compare_floats is a total preorder with all non-finite values last", "statement": "The order used for particles is reflexive, total, transitive and antisymmetric up to numeric equality, orders finite values numerically and puts NaN and both infinities after every finite value.", "quantifier": "all pairs and triples of f64", "why_tests_cant": "2^192 triples", "anchors": ["optlib/src/particleswarm/mod.rs: compare_floats"]}
{"id": "C73", "title": "Pausing and resuming the GA changes nothing", "statement": "Running GeneticOptimizer::find_min with MaxIterations(n), then set_stop_checker(MaxIterations(n+m)) and next_iterations, makes the same component calls with the same results, ends in the same population and returns the same solution as one find_min with MaxIterations(n+m) (for components that are not affected by loggers).", "quantifier": "all n, m, configurations and component behaviours", "why_tests_cant": "equivalence of two unbounded randomised runs", "anchors": ["optlib/src/genetic/mod.rs: next_iterations, find_min", "optlib/src/tools/stopchecker/mod.rs: MaxIterations"]}
{"id": "C74", "title": "What one PSO iteration does, step by step", "statement": "Every iteration handles the particles in index order: the velocity calculator sees the swarm with the earlier particles already moved but the best and worst of the last iteration, the velocity goes through every PostVelocityCalc in order, the new position is position + velocity through every PostMove in order, the goal is called once on it; afterwards best/worst are renewed (replaced only by a strictly better/worse particle), the iteration number grows by one and every logger is told.", "quantifier": "every configuration and every run that returns", "why_tests_cant": "unbounded runs, arbitrary components", "anchors": ["optlib/src/particleswarm/mod.rs: next_iterations, Particle::move_to, Swarm::update_best_particle, update_worst_particle"]}
{"id": "C75", "title": "A PSO whose components agree on the dimension never panics", "statement": "If the initializers return n vectors of dimension d, and goal, stop checker, loggers, velocity calculator and post-processing return (do not panic themselves) and keep the dimension d, then no call of find_min or of a later next_iterations panics, the swarm keeps its n particles of dimension d and has a best and a worst particle iff n > 0; with MaxIterations find_min returns, and returns None iff n = 0.", "quantifier": "every such configuration (any float type, any component state), every swarm reached and every number of iterations", "why_tests_cant": "absence of panics (index out of bounds, unwrap) on all executions", "anchors": ["optlib/src/particleswarm/mod.rs: find_min, next_iterations, renew_swarm, Particle::move_to"]}
{"id": "C76", "title": "A GA whose components fit together never panics and never dies out", "statement": "If the creator returns a non-empty list of chromosomes that may be born, the goal value of every such chromosome is acceptable, pairing returns families of existing individuals, cross, mutation and pre-birth return and end in chromosomes that may be born, and the selections never kill everybody, then no call of find_min or of a later next_iterations panics, every population a stop checker or logger sees is not empty and contains only live individuals that were allowed to be born; with a stop checker that stops by generation n find_min returns, and returns None iff no generation was run.", "quantifier": "every such configuration (any chromosome type, any component state), every population reached and every number of generations", "why_tests_cant": "absence of panics (index out of bounds, unwrap, empty ranges) on all executions", "anchors": ["optlib/src/genetic/mod.rs: find_min, next_iterations, run_pairing", "optlib/src/genetic/mod.rs: Population"]}
{"id": "C77", "title": "The GA uses its components only through the recorded calls", "statement": "Take any run of find_min or next_iterations and the list of calls it made to its components. Making the same calls again in the same order from the same component state, the pre-births and the selections taking turns in list order, gives the same answers and ends in the same component state: nothing is called unrecorded, twice, out of turn, or with a stale answer. For a run that panics or does not end this holds of all calls but the last.", "quantifier": "every configuration, stateful component behaviour and run", "why_tests_cant": "unbounded runs of arbitrary stateful components", "anchors": ["optlib/src/genetic/mod.rs: find_min, next_iterations, run_pairing"]}
{"id": "C78", "title": "The PSO uses its components only through the recorded calls", "statement": "Take any run of the particle swarm and the list of calls it made to its components. Making the same calls again in the same order from the same component state, the velocity corrections and the post-moves taking turns in list order, gives the same answers and ends in the same component state. For a run that panics or does not end this holds of all calls but the last.", "quantifier": "every configuration, stateful component behaviour and run", "why_tests_cant": "unbounded runs of arbitrary stateful components", "anchors": ["optlib/src/particleswarm/mod.rs: find_min, next_iterations"]}
{"id": "C79", "title": "PSO find_min starts afresh", "statement": "ParticleSwarmOptimizer::find_min gives the same result, the same final swarm and the same component calls whatever swarm was left by earlier calls.", "quantifier": "all earlier swarms and configurations", "why_tests_cant": "all histories", "anchors": ["optlib/src/particleswarm/mod.rs: find_min, Swarm::reset"]}
{"id": "C80", "title": "Setters replace exactly one component", "statement": "Every set_* method of GeneticOptimizer and ParticleSwarmOptimizer replaces the named component and leaves every other one, and the population/swarm, alone; the constructors take every component from the argument of the same name and start with an empty population/swarm; Tournament::new and its setters set exactly their own parameter.", "quantifier": "all configurations and components", "why_tests_cant": "all configurations", "anchors": ["optlib/src/genetic/mod.rs: new, set_*", "optlib/src/particleswarm/mod.rs: new, set_*", "optlib/src/genetic/pairing.rs: Tournament::new, partners_count, families_count, rounds_count"]}
{"id": "C81", "title": "Any logger object is driven by exactly the documented calls", "statement": "A logger object attached at any position of the list, whose state no other component touches, goes through exactly: start and resume on the initial state (resume only for next_iterations), next_iteration on the state after every iteration, finish on the final state.", "quantifier": "every logger, every position in the list, every run that returns", "why_tests_cant": "unbounded runs", "anchors": ["optlib/src/genetic/mod.rs: find_min, next_iterations", "optlib/src/particleswarm/mod.rs: find_min, next_iterations", "optlib/src/tools/logging/mod.rs: Logger"]}
{"id": "C82", "title": "CrossMean of integers", "statement": "CrossMean on integer genes: with at least two parents, all partial sums within the type and a count the type can hold, the one child is the sum divided by the count rounded toward zero, and lies between the least and the greatest parent; fewer than two parents, or more than the type can count, panic; with overflow checks a partial sum that leaves the type panics, without them the sum is taken modulo the size of the type.", "quantifier": "every integer type (MIN, MAX), every list of parents, both build modes", "why_tests_cant": "all integer types and parent lists; overflow corners", "anchors": ["optlib/src/genetic/cross/mod.rs: CrossMean"]}
{"id": "C83", "title": "Random creation of integer genes", "statement": "RandomCreator::new accepts exactly a positive size and a non-empty list of intervals with lo < hi; for integer intervals within the type whose endpoints are at most 2^53 in absolute value, RandomCreator::create and the random initializers of the particle swarm never panic, use one draw per gene, and give every gene as its own draw from [lo, hi] rounded toward zero, which lies in [lo, hi].", "quantifier": "every integer type, every list of intervals, every random stream", "why_tests_cant": "random streams; conversions between integers and f64", "anchors": ["optlib/src/genetic/creation/vec_float.rs: RandomCreator", "optlib/src/tools/mod.rs: RandomVectorCreator", "optlib/src/particleswarm/initializing/mod.rs: RandomCoordinatesInitializer, RandomVelocityInitializer"]}
{"id": "C84", "title": "Accuracy of means", "statement": "For finite numbers whose absolute values sum to no more than the format can hold (with the rounding allowance), CrossMean's child, get_average_goal, every component of get_average and every entry of get_average_convergence are finite and differ from the exact mean by at most ((1+u)^n - 1) times the mean of the absolute values plus half the least subnormal, u being the unit roundoff and n the number of data.", "quantifier": "all lists of finite floats (f32 and f64) within the stated bound", "why_tests_cant": "floating-point rounding over all inputs", "anchors": ["optlib/src/genetic/cross/mod.rs: CrossMean", "optlib/src/tools/statistics/mod.rs: get_average_goal, get_average, get_average_convergence"]}
{"id": "C85", "title": "Runs under GoalNotChange end", "statement": "With GoalNotChange(m, delta), delta > 0, alone or inside a CompositeAny, if all goal values of a run lie in an interval of at most n deltas, then the particle swarm's find_min ends within (n+2)(m+1) iterations (next_iterations: that many further ones), and the genetic algorithm's find_min within 1+(n+2)(m+1) when no selection loses the best individual; so for all finite goal values there is a bound that depends on m and delta alone. The first population/swarm must not be empty.", "quantifier": "every m, finite delta > 0, every configuration whose components return, every run", "why_tests_cant": "termination of unbounded runs", "anchors": ["optlib/src/tools/stopchecker/mod.rs: GoalNotChange, CompositeAny", "optlib/src/genetic/mod.rs: find_min", "optlib/src/particleswarm/mod.rs: find_min, next_iterations"]}
{"id": "C86", "title": "The test functions are finite and bounded on a box", "statement": "At a point of dimension n with all coordinates finite and at most b in absolute value, and as long as the bound is at most 2^24 (f32 genes) or 2^53 (f64 genes): paraboloid is finite and at most n(b+n)^2 in absolute value, rosenbrock (n > 0) returns a finite value of at most (n-1)(100(b+b^2)^2+(1+b)^2), rastrigin is finite and at most n(b^2+20), schwefel finite and at most n(b+419); sin and cos are assumed to lie in [-1, 1]. So every point of the boxes of the example programs has a finite value.", "quantifier": "all dimensions, all boxes within the bound, all points, f32 and f64", "why_tests_cant": "all points of the box; overflow and rounding of sums", "anchors": ["optlib-testfunc/src/lib.rs: paraboloid, schwefel, rastrigin, rosenbrock"]}
{"id": "C87", "title": "The example programs and tests end with a solution", "statement": "For every random stream, the example programs genetic-paraboloid, -rastrigin, -schwefel, particleswarm-paraboloid, -rastrigin, -rosenbrock, -schwefel and the tests genetic-paraboloid, -rastrigin, -schwefel and particleswarm-paraboloid run to their end without a panic: find_min returns a point of the program's box with the finite value of the test function there, within the program's maximum number of iterations, and for one of the reasons given to its stop checker. The two -iterative programs stop after exactly the 100 and 500 (50 and 150) iterations they ask for, and the second particle swarm result is no worse than the first. genetic-rosenbrock never panics and, if it returns, has done more than 3000 iterations. The assertions of the two tests on the paraboloid hold whenever the value found is at most the threshold 1e-6, so these tests can fail only after more than 150 iterations. With a cosine right to 1/2000 the assertions of the test on the Rastrigin function hold whenever its threshold 1e-4 is reached, so it can fail only after more than 200 iterations. The assertions of the tests on Rastrigin and Schwefel say that 30 coordinates are within 0.01 of 0 (5 coordinates within 0.1 of 421) and the value within 0.001 of 0.", "quantifier": "every random stream, every accepting terminal, every clock, every libm with sin and cos in [-1, 1], both build modes", "why_tests_cant": "random streams; runs of up to 5000 iterations with populations of up to 800", "anchors": ["optlib/examples/*.rs (without the statistics programs)", "optlib/tests/genetic-paraboloid.rs, genetic-rastrigin.rs, genetic-schwefel.rs, particleswarm-paraboloid.rs"]}
{"id": "C88", "title": "A failing writer is noticed", "statement": "VerboseLogger and ResultOnlyLogger go on only as long as their writer takes the text: a call returns exactly when every text was taken and panics at the first refusal. So with a writer that takes nothing no run with a ResultOnlyLogger or a TimeLogger returns, and a run with a VerboseLogger returns only if no iteration had a solution to print.", "quantifier": "every writer that answers, every formatter, every configuration, every run of either algorithm", "why_tests_cant": "all writers and runs; tests write to strings that never fail", "anchors": ["optlib/src/tools/logging/mod.rs: VerboseLogger, ResultOnlyLogger, TimeLogger"]}
{"id": "C89", "title": "The statistics programs report on the runs they made", "statement": "For every random stream of each thread and every order in which the threads end, the programs genetic-schwefel-statistics, particleswarm-schwefel-statistics, -rosenbrock-statistics, -schwefel-statistics-full, -schwefel-statistics-inertia and -rastrigin-statistics-inertia end without a panic when there are at most as many processors as runs to make. Each thread makes its share of the runs; each run finds a point of the box with the finite value of the test function there, stops for one of the reasons given, ends its convergence row with its result, and calls the goal as often as its iterations allow (swarms: exactly size*(iterations+1)). The report has a line for each run, the mean of every iteration that all runs reached, the share of runs near the answer (between 0 and 1), the mean and standard deviation of the goals and the mean number of calls. Another order of the threads changes only the order of the runs and the rounding of sums of goals. genetic-rosenbrock-statistics reports the same way if its runs end. With more processors than runs the programs panic. The two tests in genetic-stat-paraboloid.rs pass (the second in release builds). The test in genetic-rosenbrock.rs, if its runs end, passes exactly if at least three quarters of its runs (each thread making its share of 100) come within 0.01 of the minimum in every coordinate; with more than 100 processors it panics.", "quantifier": "every stream of every thread, every order of arrival, every number of processors, every libm with sin and cos in [-1, 1], both build modes", "why_tests_cant": "random streams and thread schedules; a thousand runs of up to 3000 iterations", "anchors": ["optlib/examples/*-statistics*.rs", "optlib/tests/genetic-stat-paraboloid.rs", "optlib/tests/genetic-rosenbrock.rs", "optlib/src/tools/statistics/mod.rs"]}
{"id": "C90", "title": "A genetic run calls the goal no more often than its families allow", "statement": "If the creator makes n chromosomes, the pairing at most m families while the population size is in a given range, a family at most c children, no pre-birth adds any, and the last selection brings the size back into the range, then find_min calls the goal at least n and at most n + m*c*iterations times, next_iterations at most m*c times per iteration, and the population size stays in the range. Tournament with one child per family satisfies this with m = families_count, RandomPairing after LimitPopulation(k) with m = (k+1)/2.", "quantifier": "every such configuration, every run, every random stream", "why_tests_cant": "all configurations and runs", "anchors": ["optlib/src/genetic/mod.rs: find_min, next_iterations", "optlib/src/genetic/pairing/mod.rs", "optlib/src/genetic/selection/mod.rs: LimitPopulation"]}
{"id": "C91", "title": "A run that is cut off has done what the whole run does first", "statement": "For every configuration: if find_min or next_iterations returns or panics within some number of iterations, then allowing more iterations changes nothing of the result, the environment or the events; if it does not, the events so far are the first events of every longer observation.", "quantifier": "every configuration of either algorithm, every state, every environment, every number of iterations", "why_tests_cant": "statement about all runs, endless ones included", "anchors": ["optlib/src/genetic/mod.rs: find_min, next_iterations", "optlib/src/particleswarm/mod.rs: find_min, next_iterations"]}
{"id": "C92", "title": "No component can forge an individual", "statement": "A Selection written against the public methods of Population and Individual (kill, clone, swap, assignment through IndexMut or iter_mut, get_best, get_worst) can only leave copies of individuals that it sees or has saved; one that saves none meets the hypotheses of C01, C02 and C04. If components remember individuals in their fields, from one generation or one run to another, every stop checker, logger and component still sees only individuals with a value the goal returned for their chromosomes since the optimizer was made, best and worst are still the extremes of each generation, and a returned solution was really evaluated, though possibly in an earlier run.", "quantifier": "every program made of these operations, every configuration with such components, every sequence of calls", "why_tests_cant": "statement about all user-written components", "anchors": ["optlib/src/genetic/mod.rs: Individual, Population (iter_mut, IndexMut, get_best, get_worst)", "optlib/src/genetic/mod.rs: trait Selection"]}
{"id": "C93", "title": "The accessors show the state of the run", "statement": "get_agents lists all individuals (particles) in order, len is their number, population[n] is the n-th of them and panics exactly when there is none; population[n].kill() clears the alive flag of that one and changes nothing else. At every observation during find_min each agent's get_goal is a value that the goal returned for its get_parameter, and the best solution reported to stop checkers and loggers is no worse than any agent (GA: it is one of them, after an iteration with survivors).", "quantifier": "every population and swarm, every run of either algorithm", "why_tests_cant": "all runs and populations; the repository has no tests of these methods", "anchors": ["optlib/src/lib.rs: Agent, AgentsState", "optlib/src/genetic/mod.rs: get_agents, len, Index, IndexMut, kill", "optlib/src/particleswarm/mod.rs: get_agents, len"]}
{"id": "C94", "title": "Every outcome the random components allow is possible", "statement": "For every permitted outcome there are finitely many draws that lead to it: RandomCreator and the random initializers can give every list of vectors of the box (f64, f32, integers up to 2^53); RandomPairing can form any pairs and Tournament any families, whatever the number of rounds; CrossBitwise can cut at every position, FloatCrossExp at every pair of positions with either sign, VecCrossAllGenes independently for each gene; BitwiseMutation can flip any bits, VecMutation with a probability strictly between 0 and 100 can change any genes and leave any others; RandomTeleport with a positive probability can move to any point of its intervals, and with one below 1 can leave the point alone; the classic, canonical, inertia and negative-reinforcement velocities take every combination of random factors in [0, 1]. So for every point of the box with a finite value some draws make a particle swarm, or a genetic run whose selections keep the best, return a result at least as good.", "quantifier": "every permitted outcome of every component, every configuration of the rest", "why_tests_cant": "existence of a stream for each outcome; tests see only a few streams", "anchors": ["optlib/src/genetic/creation/vec_float.rs", "optlib/src/genetic/pairing/mod.rs", "optlib/src/genetic/cross/mod.rs", "optlib/src/genetic/mutation/mod.rs", "optlib/src/tools/mod.rs", "optlib/src/particleswarm/initializing/mod.rs, postmove/mod.rs, velocitycalc/mod.rs"]}
{"id": "C95", "title": "Only the order of the goal values matters", "statement": "Two programs whose components correspond and whose goals rank all points alike (the same comparisons, finite and NaN together) make the same calls in the same order, visit the same points and return the same point, whatever the scale of the values; this holds for find_min and next_iterations of both algorithms. RandomPairing, Tournament, LimitPopulation, KillFitnessNaN, CheckChromoInterval, all velocity calculators and MaxIterations only compare goal values; a Threshold has to be moved with them. GoalNotChange depends on the scale.", "quantifier": "every pair of corresponding configurations, every run, every random stream", "why_tests_cant": "relation between two whole runs", "anchors": ["optlib/src/genetic/mod.rs: find_min, next_iterations", "optlib/src/particleswarm/mod.rs: find_min, next_iterations", "optlib/src/genetic/pairing/mod.rs", "optlib/src/genetic/selection/mod.rs", "optlib/src/particleswarm/velocitycalc/mod.rs", "optlib/src/tools/stopchecker/mod.rs"]}
{"id": "C96", "title": "The unit tests of the modules pass", "statement": "Each of the 94 test functions inside optlib/src (vec_float, tools, postmove, postvelocitycalc, particleswarm, statistics) returns, and each of the nine marked should_panic panics, whatever bits NaNs carry and, for those that draw random numbers, whatever they draw.", "quantifier": "all test functions, every NaN representation, every random stream", "why_tests_cant": "a run of the random tests samples one stream; the theorem covers all of them", "anchors": ["optlib/src/genetic/creation/vec_float.rs: tests", "optlib/src/tools/mod.rs: tests", "optlib/src/tools/statistics/mod.rs: tests", "optlib/src/particleswarm/mod.rs, postmove/mod.rs, postvelocitycalc/mod.rs: tests"]}
{"id": "C97", "title": "Computed standard deviations are accurate", "statement": "For at least two results whose sum stays clear of overflow and whose computed standard deviation is finite, get_standard_deviation_goal and every component of get_standard_deviation equal the exact sample standard deviation (divisor n-1) of the n values up to n+5 relative roundings, twice the error bound of the computed mean and the underflow of the squares, for f32 and f64. Limits: the squares of finite goals can overflow to an infinite deviation, and equal goals can have a positive deviation because the mean is rounded.", "quantifier": "all result lists with gaps, all float formats with at least two bits of precision", "why_tests_cant": "rounding errors and underflow of arbitrary data", "anchors": ["optlib/src/tools/statistics/mod.rs: get_standard_deviation_goal, get_standard_deviation"]}
{"id": "C98", "title": "A coordinate in which the swarm rests stays as it is", "statement": "If in some coordinate all particles, their best and worst positions and the swarm's best and worst agree on a finite number and all velocities are zero, then find_min and next_iterations only evaluate points with that number in that coordinate and the swarm stays so, whatever the goal, the draws and the number of iterations. Classic, Canonical, Inertia and NegativeReinforcement calculators with finite parameters, MaxVelocityAbs, MaxVelocityDimensions and MoveToBoundary all preserve this rest. In particular a swarm of one particle started by ZeroVelocityInitializer evaluates only its starting point.", "quantifier": "all goals, random streams, iteration counts, swarm sizes, dimensions and float formats", "why_tests_cant": "stagnation concerns runs of any length and every random stream; a test sees one run", "anchors": ["optlib/src/particleswarm/mod.rs: find_min, next_iterations", "optlib/src/particleswarm/velocitycalc/mod.rs", "optlib/src/particleswarm/postvelocitycalc/mod.rs", "optlib/src/particleswarm/postmove/mod.rs: MoveToBoundary", "optlib/src/particleswarm/initializing/mod.rs: ZeroVelocityInitializer"]}
{"id": "C99", "title": "A swarm with RandomTeleport can leave every state", "statement": "Whatever a swarm has done before, wherever its particles are and however small the positive teleport probability, for every point x of the box some finite sequence of draws makes the next iteration evaluate x, and the run then returns a value no worse than the goal at x. This needs a non-empty swarm, a velocity calculator that can return, velocity limits that do not draw, RandomTeleport followed by MoveToBoundary, and a stop checker and loggers that do not draw. Together with C98 it separates swarms that can be stuck from swarms that cannot.", "quantifier": "all histories, swarms, boxes, points, probabilities above 0, goals; f32 and f64", "why_tests_cant": "the draws wanted have a tiny probability", "anchors": ["optlib/src/particleswarm/mod.rs: next_iterations", "optlib/src/particleswarm/postmove/mod.rs: RandomTeleport, MoveToBoundary"]}
{"id": "C100", "title": "Breeding does not leave a set closed under the components", "statement": "If a set of chromosomes contains the first population and is closed under the cross, the mutation, the pre-birth checks and the selections, then everything a genetic run evaluates, shows to its components and returns lies in it, however the run ends; the same for next_iterations. VecCrossAllGenes and VecMutation are closed gene by gene. Without mutation (probability not above 0) and with the standard checks and selections: a run with CrossMean never leaves any box around its first population whose doubled bounds are finite, a run with CrossBitwise keeps every bit on which the whole first population agrees, and a population of clones breeds only clones under CrossBitwise and (genes zero or normal) FloatCrossExp.", "quantifier": "all goals, random streams, pairings, loggers, lengths of run, boxes, bit masks; f32 and f64", "why_tests_cant": "an invariant of runs of any length under every random stream; a test sees one run", "anchors": ["optlib/src/genetic/mod.rs: find_min, next_iterations", "optlib/src/genetic/cross/mod.rs", "optlib/src/genetic/mutation/mod.rs: VecMutation", "optlib/src/genetic/pre_birth/vec_float.rs", "optlib/src/genetic/selection/mod.rs"]}
{"id": "C101", "title": "How much work the example programs do", "statement": "The fourteen programs in optlib/examples and optlib/tests that run one optimization only ask the goal about points of their search box, even if the function fails, the output fails or the run is cut off. A genetic program with n first chromosomes and n/2 families that ends after i iterations has asked the goal at least n and at most n + (n/2) * i times and never keeps more than n + 1 individuals; a particle swarm program with n particles asks it exactly n * (i + 1) times and keeps n particles. The same holds over both runs of the two iterative programs.", "quantifier": "all random streams, fuel, output, clocks, debug and release builds, NaN policies, libm functions, second stop checkers", "why_tests_cant": "the counts depend on every draw; a test counts one run", "anchors": ["optlib/examples/genetic-*.rs", "optlib/examples/particleswarm-*.rs", "optlib/tests/*.rs", "optlib/src/genetic/mod.rs: find_min, next_iterations", "optlib/src/particleswarm/mod.rs: find_min, next_iterations"]}
{"id": "C102", "title": "A swarm keeps its speed limit", "statement": "A swarm whose post-velocity calculator is MaxVelocityAbs(limit), whose last move is MoveToBoundary and whose first velocities keep the limit only ever shows its velocity calculator, stop checkers and loggers velocities with finite components and a Euclidean length of at most the limit, up to d+5 roundings and underflow; it needs a calculator whose answers are so bounded that the squares of d of them do not overflow, which Classic, Canonical, Inertia and NegativeReinforcement guarantee with explicit powers of two. Without a limit every bound on the components that the calculator keeps is kept by the swarm. For the programs: particleswarm-paraboloid never exceeds 10.00001; the Schwefel programs (plain, iterative over both runs, and three with statistics) and the Rastrigin inertia program never exceed 700.001; the Rosenbrock program with statistics never exceeds 2.000002. The programs without a limit keep all components within 8 (Rastrigin), 3 (Rosenbrock) and 128 (paraboloid test): the constriction alone keeps the velocities bounded.", "quantifier": "all goals, random streams, iteration counts, loggers, stop checkers; any binary float format for the library, f32 for the programs", "why_tests_cant": "an invariant with rounding over runs of any length under every random stream", "anchors": ["optlib/src/particleswarm/mod.rs: find_min, next_iterations", "optlib/src/particleswarm/postvelocitycalc/mod.rs: MaxVelocityAbs", "optlib/src/particleswarm/velocitycalc/mod.rs", "optlib/examples/particleswarm-*.rs", "optlib/tests/particleswarm-paraboloid.rs"]}
{"id": "C103", "title": "The example programs are set up as their constants say", "statement": "The 23 example and test programs construct without panicking and their components behave as the numbers in the source say. Genetic programs: the pairing makes half as many families of two as the first population has members, each partner the unbeaten one of rounds+1 drawn individuals (rounds 2 or 5), or pairs drawn at random; each gene costs a draw from [0, 100) and, if that is below 10, 15, 80 or 85, three random bits of it are flipped, otherwise it is kept. Swarm programs: the new velocity is the constricted sum of the old one and the two pulls with the given strengths, with a constriction within 10^-6 of 1/15, 2/25, 2/35, 9/11 or 3/4; or the inertia formula with weight 0.85; or the six-term formula. A velocity clearly longer than the program's limit (10, 700, 2 or none) is cut to that length up to a hundred-thousandth, a clearly shorter one is kept. After the move each coordinate outside of the box moves to its nearer end and the others stay; the two statistics programs with a teleport first draw from [0, 1) and below 0.05 (respectively 0, that is never) draw all coordinates anew from the box. All: a new stop checker that has not stopped so far stops exactly if the best value is at most the threshold, or the reference value is older than the given number of iterations, or the number of iterations is reached; all literals are the floats closest to the decimals.", "quantifier": "all random streams, populations, swarms, sequences of states with non-decreasing iterations, worlds, NaN policies, libm functions, debug and release builds", "why_tests_cant": "each component is used on a few inputs per run; a wrong constant still finds the minimum in a test", "anchors": ["optlib/examples/*.rs", "optlib/tests/*.rs", "optlib/src/particleswarm/velocitycalc/mod.rs: CanonicalVelocityCalculator::new", "optlib/src/tools/stopchecker/mod.rs", "optlib/src/genetic/pairing/mod.rs", "optlib/src/genetic/mutation/mod.rs"]}
{"id": "C104", "title": "What the programs that collect statistics print and write", "statement": "The seven statistics programs, run on any console and disk (which may fail at any point), print the number of processors and the runs per processor, then, after the runs, create result_stat.txt and convergence_stat.txt, write one line per run and one line per iteration that all runs reached, and print the five lines of the summary: exactly the report of C89, in this order; the first output that fails makes the program panic there. Without processors they panic before any output; if runs do not end only the heading has been printed; with more processors than runs two empty files are left. On a working computer the two files are overwritten with exactly these lines, whatever they contained, and no other file changes. The fields of a line are aligned in columns of fixed width if the texts of the numbers fit, and the numbers of runs and iterations can be read back.", "quantifier": "all random streams, numbers of processors, orders of arrival, output devices, texts of floats, contents of the disk", "why_tests_cant": "the device can fail at any write; the tests do not look at the output", "anchors": ["optlib/examples/*-statistics*.rs: main, print_solution, print_convergence_statistics, print_statistics"]}
{"id": "C105", "title": "The computed test functions are close to the documented formulas", "statement": "paraboloid, rosenbrock, rastrigin and schwefel, computed in f32 or f64, differ from the documented formula over real numbers (with the number pi and the decimal 418.9829) at the same point by an explicit error bound: paraboloid by n+3 relative roundings plus the underflow of n squares, whenever the result is finite; rosenbrock, after a square root, by n+1 relative roundings plus the rounding of x^2; rastrigin and schwefel, on arguments within b and with a cosine or sine off by at most e, by an absolute error that is linear in e and in the unit roundoff. Consequently the value that the example programs report with their solution is the value of the documented function at that solution: to six digits for the paraboloid, to within 1/2000 or 1/100 for Rastrigin, 1/200 or 1/25 for Schwefel and, after a square root, to six digits or five decimals for Rosenbrock. The computed Schwefel function is nowhere on the boxes of the programs below its documented minimum 0 by more than 1/200, 1/100 or 1/25 (dimensions 3, 5 and 15).", "quantifier": "all points, dimensions within stated limits, NaN policies, libm functions with the stated error, random streams, clocks and outputs", "why_tests_cant": "a bound over all floats of the domain; a test looks at a few points", "anchors": ["optlib-testfunc/src/lib.rs: paraboloid, schwefel, rastrigin, rosenbrock", "optlib/examples/genetic-*.rs", "optlib/examples/particleswarm-*.rs"]}
{"id": "C106", "title": "Low values are found only near the documented minimum", "statement": "A point of the box of an example program at which the computed test function is low lies near the documented minimum, in every coordinate: for the paraboloid a value of at most k^2 means within k (up to a millionth) of 1, 2, 3, ...; for Rosenbrock, k at most 1/10, within 2.3 (k + 1/10^5) of 1; for Rastrigin a value of at most s^2 less the rounding error of C105, s at most 1/2, means within s/9 of 0; for Schwefel, s at most 1, within 3.13 s + 1/10^4 of 420.9687. So a low value reported by one of the example programs comes with a solution near the answer. In the statistics programs every solution with a value of at most 0.09 (Schwefel), 0.2 (Rastrigin) or 1e-5 (Rosenbrock) is counted by the success rate, and a run of particleswarm-schwefel-statistics that stops before iteration 3000 is a success.", "quantifier": "all points of the boxes, values, NaN policies, libm functions with the stated error, random streams, threads, clocks and outputs", "why_tests_cant": "a statement about all points with a low value; a test sees a few", "anchors": ["optlib-testfunc/src/lib.rs: paraboloid, schwefel, rastrigin, rosenbrock", "optlib/src/tools/statistics/mod.rs: get_predicate_success_vec_solution", "optlib/examples/genetic-*.rs", "optlib/examples/particleswarm-*.rs"]}
{"id": "C107", "title": "The swarm programs can stay where they start", "statement": "Particles that all start at the same point of the box without a velocity stay there: with a quiet velocity calculator (C98) and MoveToBoundary the goal function is only ever asked about that point. For each of the programs particleswarm-paraboloid, -rastrigin, -rosenbrock, -schwefel and the test particleswarm-paraboloid and every point of its box there are finitely many first draws after which the program asks the goal function only about that point, whatever is drawn later, and returns that point (up to the signs of zeros): every point of the box, and so any value however bad, is a possible result. The assertions of the test particleswarm-paraboloid fail for some draws, whatever is drawn after them.", "quantifier": "all points of the boxes, later draws, worlds, clocks, outputs, NaN policies, debug and release builds", "why_tests_cant": "the draws have a tiny probability; a test never sees them", "anchors": ["optlib/src/particleswarm/mod.rs: find_min, next_iterations", "optlib/src/particleswarm/velocitycalc/mod.rs", "optlib/examples/particleswarm-*.rs", "optlib/tests/particleswarm-paraboloid.rs"]}
{"id": "C108", "title": "The worst of a full population never gets worse", "statement": "With KillFitnessNaN and LimitPopulation(n) as the selections, whatever the goal function, the pairing, the cross and the mutation do: if a run starts from n live individuals with finite values up to c, every population it reports has exactly n live individuals with finite values up to c, and so does its best individual, so the result is at most c. Hence the result of find_min is no worse than the worst of the points of the first population (the best one can be lost, C09). The programs genetic-paraboloid, -rastrigin, -rosenbrock, -schwefel and the tests genetic-paraboloid, -rastrigin and -schwefel have this guarantee under every random stream, and for every point of their box there are first draws after which the result is no worse than this point, whatever is drawn later. For some first draws the assertions of the tests genetic-paraboloid and genetic-rastrigin hold, whatever is drawn after them.", "quantifier": "all populations, goals, components, random streams, worlds, NaN policies, debug and release builds, points of the boxes", "why_tests_cant": "an invariant of runs of any length under every random stream", "anchors": ["optlib/src/genetic/mod.rs: find_min, next_iterations", "optlib/src/genetic/selection/mod.rs: KillFitnessNaN, LimitPopulation", "optlib/examples/genetic-*.rs", "optlib/tests/genetic-*.rs"]}
{"id": "C109", "title": "The genetic programs can return every point of their box", "statement": "If a condition on the world survives every call of the components (goal, stop checker, pairing, cross, mutation, pre-birth, selection, loggers) and, while it holds, breeding does not leave a set of chromosomes, then a run that starts in that set under the condition never leaves it. Applied to the programs genetic-paraboloid, -rastrigin, -rosenbrock, -schwefel and the tests genetic-paraboloid, -rastrigin and -schwefel: for every point of the box without subnormal coordinates there are finitely many first draws after which the goal function is asked only about this point, as long as every later draw is at least the mutation probability; the program returns exactly this point (genetic-rosenbrock, whose only stop checker is GoalNotChange and which need not end in general, C87, after at most 2\u00b73001+2 iterations). The assertions of the three tests therefore fail for some draws.", "quantifier": "all points of the boxes without subnormal coordinates, unlucky later draws, worlds, clocks, outputs, NaN policies, libm functions with exact powers of two, debug and release builds", "why_tests_cant": "the draws have a tiny probability; a test never sees them", "anchors": ["optlib/src/genetic/mod.rs: find_min, next_iterations", "optlib/src/genetic/cross/mod.rs: FloatCrossExp, VecCrossAllGenes", "optlib/src/genetic/mutation/mod.rs: VecMutation", "optlib/examples/genetic-*.rs", "optlib/tests/genetic-*.rs"]}
{"id": "C110", "title": "An iteration limit that is not reached changes nothing", "statement": "Take find_min or next_iterations of either optimizer with the stop checker CompositeAny(cs) and with CompositeAny(cs followed by MaxIterations(k)), everything else the same (set_stop_checker). The limited call never returns after more than k iterations (next_iterations: if it did not start above k). If the limited call returns after fewer than k iterations, the call without the limit returns the same: result, state, world and sequence of events are equal. If the call without the limit returns after at most k iterations, the limited call returns the same.", "quantifier": "all configurations, lists of stop checkers (stateful ones too), limits, states, worlds", "why_tests_cant": "compares two runs of any length for every choice of the components", "anchors": ["optlib/src/tools/stopchecker/mod.rs: CompositeAny, MaxIterations", "optlib/src/genetic/mod.rs: find_min, next_iterations, set_stop_checker", "optlib/src/particleswarm/mod.rs: find_min, next_iterations, set_stop_checker"]}
