(** * Programs that collect statistics: optlib/examples/*-statistics*.rs and
    optlib/tests/genetic-stat-paraboloid.rs, optlib/tests/genetic-rosenbrock.rs

    The examples run an optimization many times in several threads and print what the
    statistics say.

    Simplifications: every thread has its own stream of random numbers; the order in which
    the results of the threads arrive is a parameter; a thread that panics or does not end
    sends nothing, and the main thread, which keeps a sender, waits for ever ([NoFuel]).
    The report is the list of the values printed; StatOutputModel.v adds the files and the
    text.  As for the other programs, one [fuel] bounds each run. *)

From Coq Require Import List Arith ZArith Bool.
From Verif Require Import Base FloatModel Rng GaModel GaComponents PsoModel PsoComponents
  StopModel LogModel StatModel TestFuncModel ExampleModel.
Import ListNotations.

(** Decimal literals. *)
Definition f32_1em2 : f32 := from_bits32 1008981770.
Definition f32_0_05 : f32 := from_bits32 1028443341.
Definition f32_0_6 : f32 := from_bits32 1058642330.
Definition f32_0_85 : f32 := from_bits32 1062836634.
Definition f32_2_2 : f32 := from_bits32 1074580685.
Definition f32_3_4 : f32 := from_bits32 1079613850.
Definition f32_420_9687 : f32 := from_bits32 1137867774.
Definition f64_0_75 : f64 := from_bits64 4604930618986332160.
Definition f64_1em10 : f64 := from_bits64 4457293557087583675.

(** What one run collects: [statistics_data] and [call_count]
    (examples/genetic-schwefel-statistics.rs:214-215). *)
Notation run_data := (statistics (list f32) * call_count_data)%type.

Section Lenses.
  Notation U := (world run_data).
  Definition at_statistics : lens U (statistics (list f32)) :=
    Lens (fun u => fst (w_rest u))
         (fun x u => World (w_rng u) (w_gnc u) (w_started u) (x, snd (w_rest u))).
  Definition at_calls : lens U call_count_data :=
    Lens (fun u => snd (w_rest u))
         (fun x u => World (w_rng u) (w_gnc u) (w_started u) (fst (w_rest u), x)).
End Lenses.

(** What an example prints: the lines of the two files and the summary. *)
Record report := Report {
  rp_solutions : list (nat * option (list f32 * f64));
  rp_convergence : list (nat * f64);
  rp_run_count : nat;
  rp_success_rate : f64;
  rp_average_goal : f64;
  rp_standard_deviation : f64;
  rp_average_calls : f64
}.

Section Programs.
  Variables (np32 : nan_policy 24 128) (np64 : nan_policy 53 1024).
  Context {LM : Libm f32}.
  (** debug build? *)
  Variable dbg : bool.
  #[local] Hint Extern 0 (FloatTrait (bfloat 24 128)) => exact (FloatIEEE np32) : typeclass_instances.
  #[local] Hint Extern 0 (FloatTrait f32) => exact (FloatIEEE np32) : typeclass_instances.
  #[local] Hint Extern 0 (ToF64 f32) => exact (ToF64_32 np64) : typeclass_instances.
  #[local] Hint Extern 0 (NumGene f32) => exact (NumGene32 np64 np32) : typeclass_instances.
  Notation U := (world run_data).
  Notation vec := (list f32).
  Notation point := (option (vec * f64)).

  (** [StatisticsLogger::new(&mut statistics_data)] *)
  Definition stat_logger : logger U vec := {|
    lg_start := fun s => zoom at_statistics (lg_start statistics_logger s);
    lg_resume := fun s => zoom at_statistics (lg_resume statistics_logger s);
    lg_next := fun s => zoom at_statistics (lg_next statistics_logger s);
    lg_finish := fun s => zoom at_statistics (lg_finish statistics_logger s)
  |}.
  (** [GoalCalcStatistics::new(&mut goal_object, &mut call_count)] *)
  Definition counted_goal (goal : vec -> comp U f64) : vec -> comp U f64 :=
    goal_calc_statistics at_calls goal.

  (** ** The optimizers *)

  (** [create_optimizer] and [set_loggers]; examples/genetic-schwefel-statistics.rs:36-118. *)
  Definition create_genetic_schwefel (loggers : list (logger U vec)) (goal : vec -> comp U f64)
    : outcome (ga_config U vec) :=
    ga_program np32 np64 dbg (b_of_Z (-500)) (b_of_Z 500) 100 3 goal
      (tournament_pairs (set_rounds_count (tournament_new (100 / 2)) 5)) (b_of_Z 10)
      (any_of [max_iterations 3000]) loggers.

  (** examples/genetic-rosenbrock-statistics.rs:36-112. *)
  Definition create_genetic_rosenbrock (loggers : list (logger U vec)) (goal : vec -> comp U f64)
    : outcome (ga_config U vec) :=
    ga_program np32 np64 dbg (b_of_Z (-2)) (b_of_Z 2) 700 3 goal random_pairing (b_of_Z 80)
      (any_of [threshold f64_1em6; not_change np64 dbg 2000 f64_1em7]) loggers.

  (** [RandomTeleport::new(vec![(minval, maxval); dimension], probability)] as a component. *)
  Definition teleport (minval maxval : f32) (dimension : nat) (probability : f32)
    : outcome (list (vec -> comp U vec)) :=
    let! rt := random_teleport_new (repeat (minval, maxval) dimension) probability in
    Ret [fun x => zoom at_rng (random_teleport_post_move np32 rt x)].

  (** examples/particleswarm-schwefel-statistics.rs:24-84. *)
  Definition create_particleswarm_schwefel (loggers : list (logger U vec)) (goal : vec -> comp U f64)
    : outcome (pso_config U f32) :=
    pso_program np32 np64 (b_of_Z (-500)) (b_of_Z 500) 30 3 (canonical np32 f32_3_2 (b_of_Z 1) f32_0_9)
      goal [fun v => cret (max_velocity_abs (b_of_Z 700) v)]
      (teleport (b_of_Z (-500)) (b_of_Z 500) 3 f32_0_05)
      (any_of [threshold f64_1em8; max_iterations 3000]) loggers.

  (** examples/particleswarm-rosenbrock-statistics.rs:24-84. *)
  Definition create_particleswarm_rosenbrock (loggers : list (logger U vec)) (goal : vec -> comp U f64)
    : outcome (pso_config U f32) :=
    pso_program np32 np64 (b_of_Z (-2)) (b_of_Z 2) 20 3 (canonical np32 f32_3_4 (b_of_Z 1) f32_0_9)
      goal [fun v => cret (max_velocity_abs (b_of_Z 2) v)]
      (teleport (b_of_Z (-2)) (b_of_Z 2) 3 (b_of_Z 0))
      (any_of [threshold f64_1em8; not_change np64 dbg 500 f64_1em10]) loggers.

  (** examples/particleswarm-schwefel-statistics-full.rs:22-93. *)
  Definition create_particleswarm_schwefel_full (loggers : list (logger U vec)) (goal : vec -> comp U f64)
    : outcome (pso_config U f32) :=
    let phi_best_personal := f32_3_2 in
    let phi_best_current := b_of_Z 0 in
    let phi_best_global := b_of_Z 1 in
    let phi_worst_personal := b_of_Z 0 in
    let phi_worst_current := b_of_Z 0 in
    let phi_worst_global := b_of_Z 0 in
    let phi_t := fadd (fadd (fadd phi_best_personal phi_best_current) phi_best_global) phi_worst_current in
    let alpha := f32_0_9 in
    let xi := fdiv (fmul (b_of_Z 2) alpha) (fsub phi_t (b_of_Z 2)) in
    pso_program np32 np64 (b_of_Z (-500)) (b_of_Z 500) 50 3
      (Ret (fun s p => zoom at_rng (negative_velocity np64
         (NegativeReinforcement phi_best_personal phi_best_current phi_best_global
            phi_worst_personal phi_worst_current phi_worst_global xi) s p)))
      goal [fun v => cret (max_velocity_abs (b_of_Z 700) v)] (Ret [])
      (any_of [threshold f64_1em6; not_change np64 dbg 50 f64_1em8; max_iterations 1000]) loggers.

  (** examples/particleswarm-schwefel-statistics-inertia.rs:22-80 and
      examples/particleswarm-rastrigin-statistics-inertia.rs:24-82, which differ in the box. *)
  Definition create_particleswarm_inertia (minval maxval : f32) (loggers : list (logger U vec))
    (goal : vec -> comp U f64) : outcome (pso_config U f32) :=
    pso_program np32 np64 minval maxval 50 3
      (Ret (inertia_velocity np32 at_rng f32_2_2 f32_0_6 (fun t => cret (const_inertia f32_0_85 t))))
      goal [fun v => cret (max_velocity_abs (b_of_Z 700) v)] (Ret [])
      (any_of [threshold f64_1em6; not_change np64 dbg 50 f64_1em8; max_iterations 400]) loggers.
  Definition create_particleswarm_schwefel_inertia := create_particleswarm_inertia (b_of_Z (-500)) (b_of_Z 500).
  Definition create_particleswarm_rastrigin_inertia := create_particleswarm_inertia f32_m5_12 f32_5_12.

  (** ** One run *)

  (** A new optimizer with fresh statistics and a counted goal, [find_min]
      (examples/genetic-schwefel-statistics.rs:214-231). *)
  Definition ga_single (create : list (logger U vec) -> (vec -> comp U f64) -> outcome (ga_config U vec))
    (goal : vec -> comp U f64) (fuel : nat) : comp rng run_data :=
    fun r =>
      let '(o, u, _) := ga_main (create [stat_logger] (counted_goal goal)) fuel r (statistics_new, ccd_new) in
      (let! _ := o in Ret (w_rest u), w_rng u).
  Definition pso_single (create : list (logger U vec) -> (vec -> comp U f64) -> outcome (pso_config U f32))
    (goal : vec -> comp U f64) (fuel : nat) : comp rng run_data :=
    fun r =>
      let '(o, u, _) := pso_main np32 (create [stat_logger] (counted_goal goal)) fuel r (statistics_new, ccd_new) in
      (let! _ := o in Ret (w_rest u), w_rng u).

  (** ** Threads *)

  (** [full_stat.unite(statistics_data); full_call_count.unite(call_count);] *)
  Definition unite_both (full d : run_data) : run_data :=
    (unite (fst full) (fst d), ccd_unite (snd full) (snd d)).
  (** The closure of a thread (examples/genetic-schwefel-statistics.rs:208-240). *)
  Definition thread (single : comp rng run_data) (run_count : nat) : comp rng run_data :=
    cfold (fun local _ => do d <- single ;; cret (unite_both local d)) (seq 0 run_count)
          (statistics_new, ccd_new).
  (** Collecting what the threads send (examples/genetic-schwefel-statistics.rs:243-248);
      [arrivals]: the threads in the order in which they end. *)
  Definition collect (messages : list (outcome run_data)) (arrivals : list nat) : outcome run_data :=
    ofold (fun full i =>
             let! d := match nth_error messages i with
                       | Some (Ret d) => Ret d
                       | _ => NoFuel
                       end in
             Ret (unite_both full d)) arrivals (statistics_new, ccd_new).

  (** ** The report *)

  (** [print_solution] (examples/genetic-schwefel-statistics.rs:138-158). *)
  Definition print_solution (st : statistics vec) : outcome (list (nat * point)) :=
    omap (fun n => let! result := index (results st) n in Ret (n, result)) (seq 0 (get_run_count st)).
  (** [print_convergence_statistics] (examples/genetic-schwefel-statistics.rs:120-136). *)
  Definition print_convergence_statistics (st : statistics vec) : outcome (list (nat * f64)) :=
    let! average_convergence := get_average_convergence np64 (convergence st) in
    ofold (fun lines n =>
             let! cell := index average_convergence n in
             Ret (match cell with
                  | Some goal_value => (lines ++ [(n, goal_value)])%list
                  | None => lines
                  end)) (seq 0 (length average_convergence)) [].
  (** [print_solution], [print_convergence_statistics] and [print_statistics]
      (examples/genetic-schwefel-statistics.rs:160-186, 252-260). *)
  Definition print_report (valid_answer delta : f32) (dimension : nat) (d : run_data) : outcome report :=
    let '(stat, call_count) := d in
    let! solutions := print_solution stat in
    let! lines := print_convergence_statistics stat in
    let! predicate := predicate_success_vec_new (repeat valid_answer dimension) (repeat delta dimension) in
    let! success_rate_answer := unwrap (get_success_rate np64 (predicate_success_vec predicate) (results stat)) in
    let! average_goal := unwrap (get_average_goal np64 (results stat)) in
    let! standard_deviation_goal := unwrap (get_standard_deviation_goal np64 (results stat)) in
    let! average_call_count := unwrap (get_average_call_count np64 call_count) in
    Ret (Report solutions lines (get_run_count stat) success_rate_answer average_goal
           standard_deviation_goal average_call_count).

  (** [main] (examples/genetic-schwefel-statistics.rs:188-261): [streams] has one entry for
      each of the [num_cpus::get()] threads, [total / cpu] divides by their number. *)
  Definition stat_main (single : comp rng run_data) (total : nat) (valid_answer delta : f32)
    (streams : list rng) (arrivals : list nat) : outcome report :=
    let cpu := length streams in
    let! run_count := if cpu =? 0 then Panic else Ret (total / cpu) in
    let! d := collect (map (fun r => fst (thread single run_count r)) streams) arrivals in
    print_report valid_answer delta 3 d.

  (** examples/genetic-schwefel-statistics.rs *)
  Definition genetic_schwefel_statistics (fuel : nat) : list rng -> list nat -> outcome report :=
    stat_main (ga_single create_genetic_schwefel (goal_from_function schwefel) fuel) 1000 f32_420_9687 (b_of_Z 1).
  (** examples/genetic-rosenbrock-statistics.rs *)
  Definition genetic_rosenbrock_statistics (fuel : nat) : list rng -> list nat -> outcome report :=
    stat_main (ga_single create_genetic_rosenbrock (fun x => cpure (rosenbrock x)) fuel) 100 (b_of_Z 1) f32_1em2.
  (** examples/particleswarm-schwefel-statistics.rs *)
  Definition particleswarm_schwefel_statistics (fuel : nat) : list rng -> list nat -> outcome report :=
    stat_main (pso_single create_particleswarm_schwefel (goal_from_function schwefel) fuel) 1000 f32_420_9687 (b_of_Z 1).
  (** examples/particleswarm-rosenbrock-statistics.rs *)
  Definition particleswarm_rosenbrock_statistics (fuel : nat) : list rng -> list nat -> outcome report :=
    stat_main (pso_single create_particleswarm_rosenbrock (fun x => cpure (rosenbrock x)) fuel) 1000 (b_of_Z 1) f32_1em2.
  (** examples/particleswarm-schwefel-statistics-full.rs *)
  Definition particleswarm_schwefel_statistics_full (fuel : nat) : list rng -> list nat -> outcome report :=
    stat_main (pso_single create_particleswarm_schwefel_full (goal_from_function schwefel) fuel) 1000 f32_420_9687 (b_of_Z 1).
  (** examples/particleswarm-schwefel-statistics-inertia.rs *)
  Definition particleswarm_schwefel_statistics_inertia (fuel : nat) : list rng -> list nat -> outcome report :=
    stat_main (pso_single create_particleswarm_schwefel_inertia (goal_from_function schwefel) fuel) 1000 f32_420_9687 (b_of_Z 1).
  (** examples/particleswarm-rastrigin-statistics-inertia.rs *)
  Definition particleswarm_rastrigin_statistics_inertia (fuel : nat) : list rng -> list nat -> outcome report :=
    stat_main (pso_single create_particleswarm_rastrigin_inertia (goal_from_function rastrigin) fuel) 1000 (b_of_Z 0) f32_0_1.

  (** ** tests/genetic-stat-paraboloid.rs *)

  (** [_create_optimizer] and [set_loggers] (tests/genetic-stat-paraboloid.rs:11-77). *)
  Definition create_stat_paraboloid : outcome (ga_config U vec) :=
    ga_program np32 np64 dbg (b_of_Z (-100)) (b_of_Z 100) 800 5 (goal_from_function paraboloid)
      (tournament_pairs (set_rounds_count (set_partners_count (tournament_new (800 / 2)) 2) 2)) (b_of_Z 15)
      (any_of [threshold f64_1em6; not_change np64 dbg 150 f64_1em7; max_iterations 5000]) [stat_logger].
  (** [==] of floats. *)
  Definition float_eq {prec emax : Z} (x y : bfloat prec emax) : bool :=
    match partial_cmp x y with Some Eq => true | _ => false end.
  (** [assert_eq!] of points. *)
  Definition assert_eq_point (p : vec * f64) (recorded : vec * f64) : outcome unit :=
    let! _ := oassert ((length (fst p) =? length (fst recorded)) &&
                       forallb (fun xy => float_eq (fst xy) (snd xy)) (combine (fst p) (fst recorded))) in
    oassert (float_eq (snd p) (snd recorded)).
  (** The assertions on the statistics after the runs with these results, the same for one
      run and for two (tests/genetic-stat-paraboloid.rs:98-106, 130-142). *)
  Definition stat_asserts (found : list (vec * f64)) (st : statistics vec) : outcome unit :=
    let run_count := length found in
    let! _ := oassert (get_run_count st =? run_count) in
    let! _ := oassert (length (results st) =? run_count) in
    let! _ := oassert (length (convergence st) =? run_count) in
    let! recorded := omap (fun i => let! r := index (results st) i in unwrap r) (seq 0 run_count) in
    ofold (fun _ pr => assert_eq_point (fst pr) (snd pr)) (combine found recorded) tt.
  (** [genetic_paraboloid_single] (tests/genetic-stat-paraboloid.rs:79-107). *)
  Definition test_stat_single (fuel : nat) (r : rng) : outcome unit :=
    let '(o, u, _) := ga_main create_stat_paraboloid fuel r (statistics_new, ccd_new) in
    let! found := o in
    let! result := unwrap (fst found) in
    stat_asserts [result] (fst (w_rest u)).
  (** [genetic_paraboloid_two] (tests/genetic-stat-paraboloid.rs:109-143). *)
  Definition test_stat_two (fuel : nat) (r : rng) : outcome unit :=
    let! cfg := create_stat_paraboloid in
    let '(o1, u1, _) := ga_find_min cfg fuel pop_new (World r gnc_new None (statistics_new, ccd_new)) in
    let! found_1 := o1 in
    let! result_1 := unwrap (fst found_1) in
    let '(o2, u2, _) := ga_find_min cfg fuel (snd found_1) u1 in
    let! found_2 := o2 in
    let! result_2 := unwrap (fst found_2) in
    stat_asserts [result_1; result_2] (fst (w_rest u2)).

  (** ** tests/genetic-rosenbrock.rs *)

  (** [create_optimizer] and [set_loggers] (tests/genetic-rosenbrock.rs:31-107, 138-141). *)
  Definition create_test_rosenbrock : outcome (ga_config U vec) :=
    ga_program np32 np64 dbg (b_of_Z (-2)) (b_of_Z 2) 700 3 (fun x => cpure (rosenbrock x)) random_pairing (b_of_Z 80)
      (any_of [threshold f64_1em6; not_change np64 dbg 2000 f64_1em7]) [stat_logger].
  (** One run (tests/genetic-rosenbrock.rs:129-145). *)
  Definition test_rosenbrock_run (fuel : nat) : comp rng (statistics vec) :=
    fun r =>
      let '(o, u, _) := ga_main create_test_rosenbrock fuel r (statistics_new, ccd_new) in
      (let! _ := o in Ret (fst (w_rest u)), w_rng u).
  (** The closure of a thread (tests/genetic-rosenbrock.rs:125-151). *)
  Definition test_rosenbrock_thread (fuel run_count : nat) : comp rng (statistics vec) :=
    cfold (fun local _ => do d <- test_rosenbrock_run fuel ;; cret (unite local d)) (seq 0 run_count) statistics_new.
  (** [genetic_rosenbrock] (tests/genetic-rosenbrock.rs:109-169); the parameters are those of
      [stat_main]. *)
  Definition test_genetic_rosenbrock (fuel : nat) (streams : list rng) (arrivals : list nat) : outcome unit :=
    let cpu := length streams in
    let! run_count := if cpu =? 0 then Panic else Ret (100 / cpu) in
    let messages := map (fun r => fst (test_rosenbrock_thread fuel run_count r)) streams in
    let! full_stat :=
      ofold (fun full i =>
               let! d := match nth_error messages i with
                         | Some (Ret d) => Ret d
                         | _ => NoFuel
                         end in
               Ret (unite full d)) arrivals statistics_new in
    let! predicate := predicate_success_vec_new (repeat (b_of_Z 1 : f32) 3) (repeat f32_1em2 3) in
    let! success_rate := unwrap (get_success_rate np64 (predicate_success_vec predicate) (results full_stat)) in
    oassert (leb f64_0_75 success_rate).
End Programs.
