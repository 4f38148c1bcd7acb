(** * Example programs and integration tests: optlib/examples, optlib/tests

    The programs that run one optimization.  All of them optimize f32 vectors.

    The world of a program: the thread-local random generator, the state of the
    GoalNotChange checker (if any), the start time kept by the TimeLogger and, as [W],
    the standard output and the clock.  Standard output is one stream even where the
    programs open several handles.

    Simplifications: as for the components; [usize] parameters are [nat].  The unused
    command line and environment are not modelled. *)

From Coq Require Import List Arith ZArith Bool String.
From Verif Require Import Base FloatModel Rng GaModel GaComponents PsoModel PsoComponents
  StopModel LogModel TestFuncModel.
Import ListNotations.

Record world (W : Type) := World {
  w_rng : rng;
  w_gnc : gnc;
  w_started : option Z;
  w_rest : W
}.
Arguments World {W}.
Arguments w_rng {W}.
Arguments w_gnc {W}.
Arguments w_started {W}.
Arguments w_rest {W}.

Section Lenses.
  Context {W : Type}.
  Definition at_rng : lens (world W) rng :=
    Lens w_rng (fun x u => World x (w_gnc u) (w_started u) (w_rest u)).
  Definition at_gnc : lens (world W) gnc :=
    Lens w_gnc (fun x u => World (w_rng u) x (w_started u) (w_rest u)).
  Definition at_started : lens (world W) (option Z) :=
    Lens w_started (fun x u => World (w_rng u) (w_gnc u) x (w_rest u)).
  Definition at_rest : lens (world W) W :=
    Lens w_rest (fun x u => World (w_rng u) (w_gnc u) (w_started u) x).
End Lenses.

(** Decimal literals, rounded to nearest by the compiler. *)
Definition f32_5_12 : f32 := from_bits32 1084479242.
Definition f32_m5_12 : f32 := from_bits32 3231962890.
Definition f32_0_1 : f32 := from_bits32 1036831949.
Definition f32_0_01 : f32 := from_bits32 1008981770.
Definition f32_0_2 : f32 := from_bits32 1045220557.
Definition f32_0_3 : f32 := from_bits32 1050253722.
Definition f32_0_9 : f32 := from_bits32 1063675494.
Definition f32_3_2 : f32 := from_bits32 1078774989.
Definition f64_0_1 : f64 := from_bits64 4591870180066957722.
Definition f64_1em3 : f64 := from_bits64 4562254508917369340.
Definition f64_1em4 : f64 := from_bits64 4547007122018943789.
Definition f64_1em6 : f64 := from_bits64 4517329193108106637.
Definition f64_1em7 : f64 := from_bits64 4502148214488346440.
Definition f64_1em8 : f64 := from_bits64 4487126258331716666.
Definition f64_1em9 : f64 := from_bits64 4472406533629990549.

Section Examples.
  Context {W : Type}.
  (** standard output and the clock *)
  Variables (write : string -> comp W bool) (now : comp W Z).
  Variable fmt : formatter f32.
  Variables (np32 : nan_policy 24 128) (np64 : nan_policy 53 1024).
  Context {LM : Libm f32}.
  (** debug build? *)
  Variable dbg : bool.
  #[local] Instance Float32 : FloatTrait f32 := FloatIEEE np32.
  #[local] Instance To64 : ToF64 f32 := ToF64_32 np64.
  #[local] Instance Gene32 : NumGene f32 := NumGene32 np64 np32.
  Notation U := (world W).
  Notation vec := (list f32).
  Notation point := (option (vec * f64)).

  Definition print (s : string) : comp U bool := zoom at_rest (write s).
  Definition verbose : logger U vec := verbose_logger fmt print 15.
  Definition result_only : logger U vec := result_only_logger fmt print 15.
  Definition time : logger U vec := time_logger fmt print at_started (zoom at_rest now).

  Definition not_change (max_iter : nat) (delta : f64) : stop_checker U vec :=
    fun s => zoom at_gnc (goal_not_change np64 dbg max_iter delta s).
  Definition any_of (stop_checkers : list (stop_checker U vec)) : outcome (stop_checker U vec) :=
    let! checkers := composite_new stop_checkers in Ret (composite_any checkers).

  (** ** Genetic programs *)

  (** What the genetic programs have in common; e.g. examples/genetic-paraboloid.rs:13-92,
      genetic-rastrigin.rs:29-126. *)
  Definition ga_program (minval maxval : f32) (population_size chromo_count : nat)
    (goal : vec -> comp U f64) (pairing : population vec -> comp rng (list (list nat)))
    (mutation_probability : f64)
    (stop_checker : outcome (stop_checker U vec)) (loggers : list (logger U vec))
    : outcome (ga_config U vec) :=
    let intervals := repeat (minval, maxval) chromo_count in
    let! creator := random_creator_new population_size intervals in
    let! stop := stop_checker in
    Ret (ga_set_loggers
           (ga_new goal stop (zoom at_rng (random_create np64 creator))
              (fun p => zoom at_rng (pairing p))
              (vec_cross_all_genes (fun parents => zoom at_rng (float_cross_exp dbg parents)))
              (vec_mutation np64 at_rng mutation_probability
                 (fun gene => zoom at_rng (bitwise_mutation32 3 gene)))
              [fun p => cret (kill_fitness_nan p); fun p => cpure (limit_population population_size p)]
              [fun p xs => cpure (pre_birth_interval intervals p xs)])
           loggers).

  (** [optimizer.find_min()] of a new optimizer, in a new process. *)
  Definition ga_main (program : outcome (ga_config U vec)) (fuel : nat) (r : rng) (w : W)
    : outcome (point * population vec) * U * list (ga_event vec) :=
    let u := World r gnc_new None w in
    match program with
    | Ret cfg => ga_find_min cfg fuel pop_new u
    | Panic => (Panic, u, [])
    | NoFuel => (NoFuel, u, [])
    end.

  (** [optimizer.find_min(); optimizer.set_stop_checker(stop_checker_2);
      optimizer.next_iterations();] (examples/genetic-schwefel-iterative.rs:110-114). *)
  Definition ga_main_iterative (program : outcome (ga_config U vec)) (stop_checker_2 : stop_checker U vec)
    (fuel : nat) (r : rng) (w : W)
    : outcome (point * population vec * (point * population vec)) * U * list (ga_event vec) :=
    let u := World r gnc_new None w in
    match program with
    | Ret cfg =>
        (first <- ga_find_min cfg fuel pop_new ;;
         second <- ga_next_iterations (ga_set_stop_checker cfg stop_checker_2) fuel (snd first) ;;
         mret (first, second)) u
    | Panic => (Panic, u, [])
    | NoFuel => (NoFuel, u, [])
    end.

  (** examples/genetic-paraboloid.rs:12-95. *)
  Definition genetic_paraboloid : outcome (ga_config U vec) :=
    ga_program (b_of_Z (-100)) (b_of_Z 100) 200 5 (goal_from_function paraboloid)
      (tournament_pairs (set_rounds_count (set_partners_count (tournament_new (200 / 2)) 2) 2)) (b_of_Z 15)
      (any_of [threshold f64_1em6; max_iterations 3000]) [verbose; result_only; time].

  (** examples/genetic-rastrigin.rs:28-130. *)
  Definition genetic_rastrigin : outcome (ga_config U vec) :=
    ga_program f32_m5_12 f32_5_12 20 30 (goal_from_function rastrigin)
      (tournament_pairs (set_rounds_count (tournament_new (20 / 2)) 5)) (b_of_Z 15)
      (any_of [threshold f64_1em4; max_iterations 3000]) [result_only; time].

  (** examples/genetic-rosenbrock.rs:28-130. *)
  Definition genetic_rosenbrock : outcome (ga_config U vec) :=
    ga_program (b_of_Z (-2)) (b_of_Z 2) 600 3 (fun x => cpure (rosenbrock x))
      (tournament_pairs (set_rounds_count (tournament_new (600 / 2)) 5)) (b_of_Z 85)
      (any_of [not_change 3000 f64_1em9]) [verbose; result_only; time].

  (** examples/genetic-schwefel.rs:28-130. *)
  Definition genetic_schwefel : outcome (ga_config U vec) :=
    ga_program (b_of_Z (-500)) (b_of_Z 500) 500 15 (goal_from_function schwefel)
      (tournament_pairs (set_rounds_count (tournament_new (500 / 2)) 5)) (b_of_Z 15)
      (any_of [threshold f64_1em4; max_iterations 3000]) [result_only; time].

  (** examples/genetic-schwefel-iterative.rs:28-108. *)
  Definition genetic_schwefel_iterative : outcome (ga_config U vec) :=
    ga_program (b_of_Z (-500)) (b_of_Z 500) 500 15 (goal_from_function schwefel)
      (tournament_pairs (set_rounds_count (tournament_new (500 / 2)) 5)) (b_of_Z 15)
      (Ret (max_iterations 100)) [result_only; time].

  (** tests/genetic-paraboloid.rs:13-83. *)
  Definition test_genetic_paraboloid : outcome (ga_config U vec) :=
    ga_program (b_of_Z (-100)) (b_of_Z 100) 800 5 (goal_from_function paraboloid)
      (tournament_pairs (set_rounds_count (set_partners_count (tournament_new (800 / 2)) 2) 2)) (b_of_Z 15)
      (any_of [threshold f64_1em6; not_change 150 f64_1em7; max_iterations 5000]) [].

  (** tests/genetic-rastrigin.rs:29-117. *)
  Definition test_genetic_rastrigin : outcome (ga_config U vec) :=
    ga_program f32_m5_12 f32_5_12 20 30 (goal_from_function rastrigin)
      (tournament_pairs (set_rounds_count (tournament_new (20 / 2)) 5)) (b_of_Z 15)
      (any_of [threshold f64_1em4; not_change 200 f64_1em7; max_iterations 3000]) [].

  (** tests/genetic-schwefel.rs:30-118. *)
  Definition test_genetic_schwefel : outcome (ga_config U vec) :=
    ga_program (b_of_Z (-500)) (b_of_Z 500) 800 5 (goal_from_function schwefel)
      (tournament_pairs (set_rounds_count (tournament_new (800 / 2)) 5)) (b_of_Z 15)
      (any_of [threshold f64_1em4; not_change 200 f64_1em7; max_iterations 3000]) [].

  (** ** Particle swarm programs *)

  (** [CanonicalVelocityCalculator::new(phi_personal, phi_global, k)] as a component. *)
  Definition canonical (phi_personal phi_global k : f32)
    : outcome (swarm f32 -> particle f32 -> comp U vec) :=
    let! xi := canonical_new phi_personal phi_global k in
    Ret (fun s p => zoom at_rng (canonical_velocity np32 phi_personal phi_global xi s p)).

  (** What the particle swarm programs have in common: random coordinates, zero
      velocities, MoveToBoundary after the [first_moves]; e.g.
      examples/particleswarm-paraboloid.rs:16-83, particleswarm-rastrigin.rs:20-74. *)
  Definition pso_program (minval maxval : f32) (particles_count dimension : nat)
    (velocity_calculator : outcome (swarm f32 -> particle f32 -> comp U vec)) (goal : vec -> comp U f64)
    (post_velocity_calc : list (vec -> comp U vec)) (first_moves : outcome (list (vec -> comp U vec)))
    (stop_checker : outcome (stop_checker U vec)) (loggers : list (logger U vec))
    : outcome (pso_config U f32) :=
    let intervals := repeat (minval, maxval) dimension in
    let! moves := first_moves in
    let! calculator := velocity_calculator in
    let! stop := stop_checker in
    Ret (pso_set_post_velocity_calc
           (pso_set_post_moves
              (pso_set_loggers
                 (pso_new goal stop (zoom at_rng (random_vectors np64 intervals particles_count))
                    (cret (zero_velocities dimension particles_count))
                    calculator)
                 loggers)
              (moves ++ [fun x => cpure (move_to_boundary intervals x)]))
           post_velocity_calc).

  (** [optimizer.find_min()] of a new optimizer, in a new process. *)
  Definition pso_main (program : outcome (pso_config U f32)) (fuel : nat) (r : rng) (w : W)
    : outcome (point * swarm f32) * U * list (pso_event f32) :=
    let u := World r gnc_new None w in
    match program with
    | Ret cfg => pso_find_min cfg fuel swarm_new u
    | Panic => (Panic, u, [])
    | NoFuel => (NoFuel, u, [])
    end.

  (** [optimizer.find_min(); optimizer.set_stop_checker(stop_checker_2);
      optimizer.next_iterations();] (examples/particleswarm-schwefel-iterative.rs:71-74). *)
  Definition pso_main_iterative (program : outcome (pso_config U f32)) (stop_checker_2 : stop_checker U vec)
    (fuel : nat) (r : rng) (w : W)
    : outcome (point * swarm f32 * (point * swarm f32)) * U * list (pso_event f32) :=
    let u := World r gnc_new None w in
    match program with
    | Ret cfg =>
        (first <- pso_find_min cfg fuel swarm_new ;;
         second <- pso_next_iterations (pso_set_stop_checker cfg stop_checker_2) fuel (snd first) ;;
         mret (first, second)) u
    | Panic => (Panic, u, [])
    | NoFuel => (NoFuel, u, [])
    end.

  (** examples/particleswarm-paraboloid.rs:15-86. *)
  Definition particleswarm_paraboloid : outcome (pso_config U f32) :=
    pso_program (b_of_Z (-100)) (b_of_Z 100) 80 5 (canonical (b_of_Z 2) (b_of_Z 6) f32_0_2)
      (goal_from_function paraboloid) [fun v => cret (max_velocity_abs (b_of_Z 10) v)] (Ret [])
      (any_of [threshold f64_1em6; not_change 150 f64_1em7; max_iterations 3000])
      [verbose; result_only; time].

  (** examples/particleswarm-rastrigin.rs:19-77. *)
  Definition particleswarm_rastrigin : outcome (pso_config U f32) :=
    pso_program f32_m5_12 f32_5_12 500 3 (canonical (b_of_Z 2) (b_of_Z 5) f32_0_2)
      (goal_from_function rastrigin) [] (Ret [])
      (any_of [threshold f64_1em6; not_change 150 f64_1em8; max_iterations 3000])
      [verbose; result_only; time].

  (** examples/particleswarm-rosenbrock.rs:19-77. *)
  Definition particleswarm_rosenbrock : outcome (pso_config U f32) :=
    pso_program (b_of_Z (-2)) (b_of_Z 2) 1000 3 (canonical (b_of_Z 1) (b_of_Z 8) f32_0_2)
      (fun x => cpure (rosenbrock x)) [] (Ret [])
      (any_of [threshold f64_1em6; not_change 150 f64_1em8; max_iterations 3000])
      [verbose; result_only; time].

  (** examples/particleswarm-schwefel.rs:21-84. *)
  Definition particleswarm_schwefel : outcome (pso_config U f32) :=
    pso_program (b_of_Z (-500)) (b_of_Z 500) 100 3 (canonical f32_3_2 (b_of_Z 1) f32_0_9)
      (goal_from_function schwefel) [fun v => cret (max_velocity_abs (b_of_Z 700) v)] (Ret [])
      (any_of [threshold f64_1em6; not_change 150 f64_1em8; max_iterations 3000])
      [verbose; result_only; time].

  (** examples/particleswarm-schwefel-iterative.rs:15-69. *)
  Definition particleswarm_schwefel_iterative : outcome (pso_config U f32) :=
    pso_program (b_of_Z (-500)) (b_of_Z 500) 100 3 (canonical f32_3_2 (b_of_Z 1) f32_0_9)
      (goal_from_function schwefel) [fun v => cret (max_velocity_abs (b_of_Z 700) v)] (Ret [])
      (Ret (max_iterations 50)) [verbose; result_only; time].

  (** tests/particleswarm-paraboloid.rs:20-67. *)
  Definition test_particleswarm_paraboloid : outcome (pso_config U f32) :=
    pso_program (b_of_Z (-100)) (b_of_Z 100) 150 5 (canonical (b_of_Z 2) (b_of_Z 6) f32_0_2)
      (goal_from_function paraboloid) [] (Ret [])
      (any_of [threshold f64_1em6; not_change 150 f64_1em7; max_iterations 3000]) [].

  (** ** The assertions of the tests on the result of [find_min] *)

  (** [assert!(abs(solution[i] - expected(i)) < tolerance)] for i in 0..dimension and
      [assert!(abs(goal_value) < goal_tolerance)]; a missing solution fails
      (tests/genetic-paraboloid.rs:86-95, tests/particleswarm-paraboloid.rs:69-78,
      tests/genetic-rastrigin.rs:120-129, tests/genetic-schwefel.rs:121-130). *)
  Definition test_asserts (dimension : nat) (expected : nat -> f32) (tolerance : f32)
    (goal_tolerance : f64) (result : point) : outcome unit :=
    match result with
    | None => Panic
    | Some (solution, goal_value) =>
        let! _ := ofold (fun _ i =>
                           let! x := index solution i in
                           oassert (ltb (b_abs (fsub x (expected i))) tolerance))
                        (seq 0 dimension) tt in
        oassert (ltb (b_abs goal_value) goal_tolerance)
    end.
  (** [i as f32 + 1.0] *)
  Definition expected_paraboloid (i : nat) : f32 := fadd (fof_nat i) fone.
  (** tests/genetic-paraboloid.rs:86-95 and tests/particleswarm-paraboloid.rs:69-78. *)
  Definition genetic_paraboloid_asserts : point -> outcome unit :=
    test_asserts 5 expected_paraboloid f32_0_1 f64_1em3.
  Definition particleswarm_paraboloid_asserts : point -> outcome unit :=
    test_asserts 5 expected_paraboloid f32_0_3 f64_0_1.
  (** tests/genetic-rastrigin.rs:120-129. *)
  Definition genetic_rastrigin_asserts : point -> outcome unit :=
    test_asserts 30 (fun _ => b_of_Z 0) f32_0_01 f64_1em3.
  (** tests/genetic-schwefel.rs:121-130. *)
  Definition genetic_schwefel_asserts : point -> outcome unit :=
    test_asserts 5 (fun _ => b_of_Z 421) f32_0_1 f64_1em3.
End Examples.
