(** * Property C103: the settings of the example programs *)

From Coq Require Import List Arith ZArith Bool Reals String.
From Verif Require Import Base FloatModel Rng GaModel PsoModel StopModel LogModel TestFuncModel ExampleModel StatModel StatProgramModel
  SpecStop SpecVel SpecExample SpecPace SpecRand SpecSettings SettingFacts DemoSettings.
Import ListNotations.

(** ** Genetic programs: families, rounds of a tournament, chance of a mutation, stopping *)

Theorem C103_genetic_paraboloid :
  forall (W : Type) (write : string -> comp W bool) (now : comp W Z) (fmt : formatter f32)
    (np32 : nan_policy 24 128) (np64 : nan_policy 53 1024) (LM : Libm f32) (dbg : bool),
    breeds np64 100 2 15 [AtMost (decimal64 1 6); Iterations 3000]
      (genetic_paraboloid write now fmt np32 np64 dbg).
Proof. exact @ga_paraboloid_set. Qed.
Print Assumptions C103_genetic_paraboloid.

Theorem C103_genetic_rastrigin :
  forall (W : Type) (write : string -> comp W bool) (now : comp W Z) (fmt : formatter f32)
    (np32 : nan_policy 24 128) (np64 : nan_policy 53 1024) (LM : Libm f32) (dbg : bool),
    breeds np64 10 5 15 [AtMost (decimal64 1 4); Iterations 3000]
      (genetic_rastrigin write now fmt np32 np64 dbg).
Proof. exact @ga_rastrigin_set. Qed.
Print Assumptions C103_genetic_rastrigin.

Theorem C103_genetic_rosenbrock :
  forall (W : Type) (write : string -> comp W bool) (now : comp W Z) (fmt : formatter f32)
    (np32 : nan_policy 24 128) (np64 : nan_policy 53 1024) (LM : Libm f32) (dbg : bool),
    breeds np64 300 5 85 [Steady 3000 (decimal64 1 9)]
      (genetic_rosenbrock write now fmt np32 np64 dbg).
Proof. exact @ga_rosenbrock_set. Qed.
Print Assumptions C103_genetic_rosenbrock.

Theorem C103_genetic_schwefel :
  forall (W : Type) (write : string -> comp W bool) (now : comp W Z) (fmt : formatter f32)
    (np32 : nan_policy 24 128) (np64 : nan_policy 53 1024) (LM : Libm f32) (dbg : bool),
    breeds np64 250 5 15 [AtMost (decimal64 1 4); Iterations 3000]
      (genetic_schwefel write now fmt np32 np64 dbg).
Proof. exact @ga_schwefel_set. Qed.
Print Assumptions C103_genetic_schwefel.

Theorem C103_genetic_schwefel_iterative :
  forall (W : Type) (write : string -> comp W bool) (now : comp W Z) (fmt : formatter f32)
    (np32 : nan_policy 24 128) (np64 : nan_policy 53 1024) (LM : Libm f32) (dbg : bool),
    breeds np64 250 5 15 [Iterations 100]
      (genetic_schwefel_iterative write now fmt np32 np64 dbg).
Proof. exact @ga_schwefel_iterative_set. Qed.
Print Assumptions C103_genetic_schwefel_iterative.

Theorem C103_test_genetic_paraboloid :
  forall (W : Type) (np32 : nan_policy 24 128) (np64 : nan_policy 53 1024) (LM : Libm f32) (dbg : bool),
    breeds (W := W) np64 400 2 15 [AtMost (decimal64 1 6); Steady 150 (decimal64 1 7); Iterations 5000]
      (test_genetic_paraboloid np32 np64 dbg).
Proof. exact @ga_test_paraboloid_set. Qed.
Print Assumptions C103_test_genetic_paraboloid.

Theorem C103_test_genetic_rastrigin :
  forall (W : Type) (np32 : nan_policy 24 128) (np64 : nan_policy 53 1024) (LM : Libm f32) (dbg : bool),
    breeds (W := W) np64 10 5 15 [AtMost (decimal64 1 4); Steady 200 (decimal64 1 7); Iterations 3000]
      (test_genetic_rastrigin np32 np64 dbg).
Proof. exact @ga_test_rastrigin_set. Qed.
Print Assumptions C103_test_genetic_rastrigin.

Theorem C103_test_genetic_schwefel :
  forall (W : Type) (np32 : nan_policy 24 128) (np64 : nan_policy 53 1024) (LM : Libm f32) (dbg : bool),
    breeds (W := W) np64 400 5 15 [AtMost (decimal64 1 4); Steady 200 (decimal64 1 7); Iterations 3000]
      (test_genetic_schwefel np32 np64 dbg).
Proof. exact @ga_test_schwefel_set. Qed.
Print Assumptions C103_test_genetic_schwefel.

(** A concrete case: after 151 states with the same best value the program stops at the next. *)
Example C103_quiet : exists cfg, test_program = Ret cfg /\
  not_decreasing (map as_iter (map quiet (seq 1 151) ++ [quiet 152])) /\
  exists u1, asked (map (ga_stop cfg) (map quiet (seq 1 151))) at_start (repeat false 151) u1 /\
    Exists (applies np64_default (map quiet (seq 1 151)) (quiet 152)) [AtMost (decimal64 1 6); Steady 150 (decimal64 1 7); Iterations 5000].
Proof. exact demo_quiet. Qed.
Example C103_flips : exists cfg, test_program = Ret cfg /\
  exists y u, ga_mutation cfg [b_of_Z 1] at_start = (Ret [y], u) /\ to_bits32 y = (to_bits32 (b_of_Z 1) + 1)%Z.
Proof. exact demo_mutation. Qed.

Theorem C103_genetic_schwefel_statistics :
  forall (np32 : nan_policy 24 128) (np64 : nan_policy 53 1024) (LM : Libm f32) (dbg : bool)
    (loggers : list (logger (world run_data) (list f32))) (goal : list f32 -> comp (world run_data) f64),
    breeds np64 50 5 10 [Iterations 3000] (create_genetic_schwefel np32 np64 dbg loggers goal).
Proof. exact @ga_stat_schwefel_set. Qed.
Print Assumptions C103_genetic_schwefel_statistics.

Theorem C103_genetic_rosenbrock_statistics :
  forall (np32 : nan_policy 24 128) (np64 : nan_policy 53 1024) (LM : Libm f32) (dbg : bool)
    (loggers : list (logger (world run_data) (list f32))) (goal : list f32 -> comp (world run_data) f64),
    breeds_at_random np64 80 [AtMost (decimal64 1 6); Steady 2000 (decimal64 1 7)]
      (create_genetic_rosenbrock np32 np64 dbg loggers goal).
Proof. exact @ga_stat_rosenbrock_set. Qed.
Print Assumptions C103_genetic_rosenbrock_statistics.

Theorem C103_test_genetic_stat_paraboloid :
  forall (np32 : nan_policy 24 128) (np64 : nan_policy 53 1024) (LM : Libm f32) (dbg : bool),
    breeds np64 400 2 15 [AtMost (decimal64 1 6); Steady 150 (decimal64 1 7); Iterations 5000]
      (create_stat_paraboloid np32 np64 dbg).
Proof. exact @ga_stat_paraboloid_set. Qed.
Print Assumptions C103_test_genetic_stat_paraboloid.

Theorem C103_test_genetic_rosenbrock :
  forall (np32 : nan_policy 24 128) (np64 : nan_policy 53 1024) (LM : Libm f32) (dbg : bool),
    breeds_at_random np64 80 [AtMost (decimal64 1 6); Steady 2000 (decimal64 1 7)]
      (create_test_rosenbrock np32 np64 dbg).
Proof. exact @ga_test_rosenbrock_set. Qed.
Print Assumptions C103_test_genetic_rosenbrock.

(** ** Swarm programs: box, speed limit, chance of a teleport, strength of the pulls, constriction, stopping *)

Theorem C103_particleswarm_paraboloid :
  forall (W : Type) (write : string -> comp W bool) (now : comp W Z) (fmt : formatter f32)
    (np32 : nan_policy 24 128) (np64 : nan_policy 53 1024) (dbg : bool),
    swarms np32 np64 5 (b_of_Z (-100)) (b_of_Z 100) (Some 10%R) None
      (constricted np32 (b_of_Z 2) (b_of_Z 6) (1 / 15)%R)
      [AtMost (decimal64 1 6); Steady 150 (decimal64 1 7); Iterations 3000] (particleswarm_paraboloid write now fmt np32 np64 dbg).
Proof. exact @pso_paraboloid_set. Qed.
Print Assumptions C103_particleswarm_paraboloid.

Theorem C103_particleswarm_rastrigin :
  forall (W : Type) (write : string -> comp W bool) (now : comp W Z) (fmt : formatter f32)
    (np32 : nan_policy 24 128) (np64 : nan_policy 53 1024) (LM : Libm f32) (dbg : bool),
    swarms np32 np64 3 (decimal32 (-512) 2) (decimal32 512 2) None None
      (constricted np32 (b_of_Z 2) (b_of_Z 5) (2 / 25)%R)
      [AtMost (decimal64 1 6); Steady 150 (decimal64 1 8); Iterations 3000] (particleswarm_rastrigin write now fmt np32 np64 dbg).
Proof. exact @pso_rastrigin_set. Qed.
Print Assumptions C103_particleswarm_rastrigin.

Theorem C103_particleswarm_rosenbrock :
  forall (W : Type) (write : string -> comp W bool) (now : comp W Z) (fmt : formatter f32)
    (np32 : nan_policy 24 128) (np64 : nan_policy 53 1024) (dbg : bool),
    swarms np32 np64 3 (b_of_Z (-2)) (b_of_Z 2) None None
      (constricted np32 (b_of_Z 1) (b_of_Z 8) (2 / 35)%R)
      [AtMost (decimal64 1 6); Steady 150 (decimal64 1 8); Iterations 3000] (particleswarm_rosenbrock write now fmt np32 np64 dbg).
Proof. exact @pso_rosenbrock_set. Qed.
Print Assumptions C103_particleswarm_rosenbrock.

Theorem C103_particleswarm_schwefel :
  forall (W : Type) (write : string -> comp W bool) (now : comp W Z) (fmt : formatter f32)
    (np32 : nan_policy 24 128) (np64 : nan_policy 53 1024) (LM : Libm f32) (dbg : bool),
    swarms np32 np64 3 (b_of_Z (-500)) (b_of_Z 500) (Some 700%R) None
      (constricted np32 (decimal32 32 1) (b_of_Z 1) (9 / 11)%R)
      [AtMost (decimal64 1 6); Steady 150 (decimal64 1 8); Iterations 3000] (particleswarm_schwefel write now fmt np32 np64 dbg).
Proof. exact @pso_schwefel_set. Qed.
Print Assumptions C103_particleswarm_schwefel.

Theorem C103_particleswarm_schwefel_iterative :
  forall (W : Type) (write : string -> comp W bool) (now : comp W Z) (fmt : formatter f32)
    (np32 : nan_policy 24 128) (np64 : nan_policy 53 1024) (LM : Libm f32),
    swarms np32 np64 3 (b_of_Z (-500)) (b_of_Z 500) (Some 700%R) None
      (constricted np32 (decimal32 32 1) (b_of_Z 1) (9 / 11)%R)
      [Iterations 50] (particleswarm_schwefel_iterative write now fmt np32 np64).
Proof. exact @pso_schwefel_iterative_set. Qed.
Print Assumptions C103_particleswarm_schwefel_iterative.

Theorem C103_test_particleswarm_paraboloid :
  forall (W : Type) (np32 : nan_policy 24 128) (np64 : nan_policy 53 1024) (dbg : bool),
    swarms (W := W) np32 np64 5 (b_of_Z (-100)) (b_of_Z 100) None None
      (constricted np32 (b_of_Z 2) (b_of_Z 6) (1 / 15)%R)
      [AtMost (decimal64 1 6); Steady 150 (decimal64 1 7); Iterations 3000] (test_particleswarm_paraboloid np32 np64 dbg).
Proof. exact @pso_test_paraboloid_set. Qed.
Print Assumptions C103_test_particleswarm_paraboloid.

(** A concrete case: a particle, a swarm and a velocity. *)
Example C103_velocity :
  best_particle two = Some there /\ covers here (velocity here) /\ covers here (best_personal_coordinates here) /\
  covers here (coordinates there) /\
  exists cfg, test_particleswarm_paraboloid (W := unit) np32_default np64_default true = Ret cfg /\
    exists y u, pso_calc cfg two here all_ones = (Ret y, u) /\ map (fun v => ltb v (b_of_Z 0)) y = [true; true].
Proof. exact demo_velocity. Qed.

(** Velocities above and below the limit of 700 and draws below and above the chance of 0.05. *)
Example C103_fast : bounded 3 (2 ^ 20) [b_of_Z 1000; b_of_Z 0; b_of_Z 0 : f32] /\
  (700 * (1 + / 100000) <= speed [b_of_Z 1000; b_of_Z 0; b_of_Z 0 : f32])%R /\
  (speed [b_of_Z 6; b_of_Z 0; b_of_Z 0 : f32] <= 700 * (1 - / 100000))%R.
Proof. exact demo_fast. Qed.
Example C103_leap : ltb (@drawn_excl f32 (FloatIEEE np32) _ (b_of_Z 0) (b_of_Z 1) (w_rng at_start) 0) (decimal32 5 2) = true /\
  leb (decimal32 5 2) (@drawn_excl f32 (FloatIEEE np32) _ (b_of_Z 0) (b_of_Z 1) (fun _ => 1056964608%Z) 0) = true.
Proof. exact demo_leap. Qed.

Theorem C103_particleswarm_schwefel_statistics :
  forall (np32 : nan_policy 24 128) (np64 : nan_policy 53 1024)
    (loggers : list (logger (world run_data) (list f32))) (goal : list f32 -> comp (world run_data) f64),
    swarms np32 np64 3 (b_of_Z (-500)) (b_of_Z 500) (Some 700%R) (Some (decimal32 5 2))
      (constricted np32 (decimal32 32 1) (b_of_Z 1) (9 / 11)%R)
      [AtMost (decimal64 1 8); Iterations 3000] (create_particleswarm_schwefel np32 np64 loggers goal).
Proof. exact @pso_stat_schwefel_set. Qed.
Print Assumptions C103_particleswarm_schwefel_statistics.

Theorem C103_particleswarm_rosenbrock_statistics :
  forall (np32 : nan_policy 24 128) (np64 : nan_policy 53 1024) (dbg : bool)
    (loggers : list (logger (world run_data) (list f32))) (goal : list f32 -> comp (world run_data) f64),
    swarms np32 np64 3 (b_of_Z (-2)) (b_of_Z 2) (Some 2%R) (Some (b_of_Z 0))
      (constricted np32 (decimal32 34 1) (b_of_Z 1) (3 / 4)%R)
      [AtMost (decimal64 1 8); Steady 500 (decimal64 1 10)] (create_particleswarm_rosenbrock np32 np64 dbg loggers goal).
Proof. exact @pso_stat_rosenbrock_set. Qed.
Print Assumptions C103_particleswarm_rosenbrock_statistics.

Theorem C103_particleswarm_schwefel_statistics_full :
  forall (np32 : nan_policy 24 128) (np64 : nan_policy 53 1024) (dbg : bool)
    (loggers : list (logger (world run_data) (list f32))) (goal : list f32 -> comp (world run_data) f64),
    swarms np32 np64 3 (b_of_Z (-500)) (b_of_Z 500) (Some 700%R) None
      (reinforced np32 np64 (decimal32 32 1) (b_of_Z 0) (b_of_Z 1) (b_of_Z 0) (b_of_Z 0) (b_of_Z 0) (9 / 11)%R)
      [AtMost (decimal64 1 6); Steady 50 (decimal64 1 8); Iterations 1000] (create_particleswarm_schwefel_full np32 np64 dbg loggers goal).
Proof. exact @pso_stat_full_set. Qed.
Print Assumptions C103_particleswarm_schwefel_statistics_full.

Theorem C103_particleswarm_statistics_inertia :
  forall (np32 : nan_policy 24 128) (np64 : nan_policy 53 1024) (dbg : bool) (minval maxval : f32)
    (loggers : list (logger (world run_data) (list f32))) (goal : list f32 -> comp (world run_data) f64),
    ltb minval maxval = true ->
    swarms np32 np64 3 minval maxval (Some 700%R) None
      (weighted np32 (decimal32 22 1) (decimal32 6 1) (decimal32 85 2))
      [AtMost (decimal64 1 6); Steady 50 (decimal64 1 8); Iterations 400]
      (create_particleswarm_inertia np32 np64 dbg minval maxval loggers goal).
Proof. exact @pso_stat_inertia_set. Qed.
Print Assumptions C103_particleswarm_statistics_inertia.
