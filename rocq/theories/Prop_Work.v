(** * Property C101: how much the example programs do *)

From Coq Require Import List Arith ZArith Bool String Lia.
From Flocq Require Import IEEE754.Binary.
From Verif Require Import Base FloatModel Rng GaModel PsoModel StopModel LogModel TestFuncModel ExampleModel StatProgramModel
  SpecGa SpecPso SpecBox SpecTest SpecExample SpecWork ExampleRuns WorkFacts ExampleAsserts DemoExample.
Import ListNotations.
Local Open Scope nat_scope.

Notation decimal_cube d := (cube d (decimal32 (-512) 2) (decimal32 512 2)).

(** Whatever the functions compute, whether or not the output and the clock work. *)
Theorem C101_genetic_programs :
  forall (W : Type) (write : string -> comp W bool) (now : comp W Z) (fmt : formatter f32)
    (np32 : nan_policy 24 128) (np64 : nan_policy 53 1024) (LM : Libm f32) (dbg : bool) fuel r (w : W),
    ga_works 200 100 (int_cube 5 (-100) 100) (ga_main (@genetic_paraboloid W write now fmt np32 np64 LM dbg) fuel r w) /\
    ga_works 20 10 (decimal_cube 30) (ga_main (@genetic_rastrigin W write now fmt np32 np64 LM dbg) fuel r w) /\
    ga_works 600 300 (int_cube 3 (-2) 2) (ga_main (@genetic_rosenbrock W write now fmt np32 np64 LM dbg) fuel r w) /\
    ga_works 500 250 (int_cube 15 (-500) 500) (ga_main (@genetic_schwefel W write now fmt np32 np64 LM dbg) fuel r w) /\
    ga_works 800 400 (int_cube 5 (-100) 100) (ga_main (@test_genetic_paraboloid W np32 np64 LM dbg) fuel r w) /\
    ga_works 20 10 (decimal_cube 30) (ga_main (@test_genetic_rastrigin W np32 np64 LM dbg) fuel r w) /\
    ga_works 800 400 (int_cube 5 (-500) 500) (ga_main (@test_genetic_schwefel W np32 np64 LM dbg) fuel r w).
Proof. exact @genetic_programs_work. Qed.
Print Assumptions C101_genetic_programs.
Theorem C101_swarm_programs :
  forall (W : Type) (write : string -> comp W bool) (now : comp W Z) (fmt : formatter f32)
    (np32 : nan_policy 24 128) (np64 : nan_policy 53 1024) (LM : Libm f32) (dbg : bool) fuel r (w : W),
    pso_works 80 (int_cube 5 (-100) 100) (pso_main np32 (@particleswarm_paraboloid W write now fmt np32 np64 dbg) fuel r w) /\
    pso_works 500 (decimal_cube 3) (pso_main np32 (@particleswarm_rastrigin W write now fmt np32 np64 LM dbg) fuel r w) /\
    pso_works 1000 (int_cube 3 (-2) 2) (pso_main np32 (@particleswarm_rosenbrock W write now fmt np32 np64 dbg) fuel r w) /\
    pso_works 100 (int_cube 3 (-500) 500) (pso_main np32 (@particleswarm_schwefel W write now fmt np32 np64 LM dbg) fuel r w) /\
    pso_works 150 (int_cube 5 (-100) 100) (pso_main np32 (@test_particleswarm_paraboloid W np32 np64 dbg) fuel r w).
Proof. exact @swarm_programs_work. Qed.
Print Assumptions C101_swarm_programs.

(** The programs that run twice, for every second stop checker. *)
Theorem C101_genetic_iterative :
  forall (W : Type) (write : string -> comp W bool) (now : comp W Z) (fmt : formatter f32)
    (np32 : nan_policy 24 128) (np64 : nan_policy 53 1024) (LM : Libm f32) (dbg : bool) stop fuel r (w : W),
    ga_works_twice 500 250 (int_cube 15 (-500) 500)
      (ga_main_iterative (@genetic_schwefel_iterative W write now fmt np32 np64 LM dbg) stop fuel r w).
Proof. exact @genetic_iterative_works. Qed.
Print Assumptions C101_genetic_iterative.
Theorem C101_swarm_iterative :
  forall (W : Type) (write : string -> comp W bool) (now : comp W Z) (fmt : formatter f32)
    (np32 : nan_policy 24 128) (np64 : nan_policy 53 1024) (LM : Libm f32) stop fuel r (w : W),
    pso_works_twice 100 (int_cube 3 (-500) 500)
      (pso_main_iterative np32 (@particleswarm_schwefel_iterative W write now fmt np32 np64 LM) stop fuel r w).
Proof. exact @swarm_iterative_works. Qed.
Print Assumptions C101_swarm_iterative.

(** ** C87: the decimal literals of the programs are the floats closest to the numbers written *)
Theorem C87_literals :
  f32_5_12 = decimal32 512 2 /\ f32_m5_12 = decimal32 (-512) 2 /\ f32_0_1 = decimal32 1 1 /\
  f32_0_2 = decimal32 2 1 /\ f32_0_3 = decimal32 3 1 /\ f32_0_9 = decimal32 9 1 /\ f32_3_2 = decimal32 32 1 /\
  f64_0_1 = decimal64 1 1 /\ f64_1em3 = decimal64 1 3 /\ f64_1em4 = decimal64 1 4 /\ f64_1em6 = decimal64 1 6 /\
  f64_1em7 = decimal64 1 7 /\ f64_1em8 = decimal64 1 8 /\ f64_1em9 = decimal64 1 9 /\
  f32_1em2 = decimal32 1 2 /\ f32_0_05 = decimal32 5 2 /\ f32_0_6 = decimal32 6 1 /\ f32_0_85 = decimal32 85 2 /\
  f32_2_2 = decimal32 22 1 /\ f32_3_4 = decimal32 34 1 /\ f32_420_9687 = decimal32 4209687 4 /\
  f64_0_75 = decimal64 75 2 /\ f64_1em10 = decimal64 1 10.
Proof. exact example_literals. Qed.
Print Assumptions C87_literals.

(** ** Runs that end: the goal is called at most 300,200 and 240,080 times *)
Example C101_genetic_paraboloid : forall (fmt : formatter f32) r, exists x v p u t,
  ga_main (@genetic_paraboloid _ record_lines clock_at_7 fmt np32_default np64_default demo_libm32 true) 3001 r []
    = (Ret (Some (x, v), p), u, t) /\
  200 <= List.length (evals t) <= 200 + 100 * 3000.
Proof. exact demo_genetic_work. Qed.
Example C101_particleswarm_paraboloid : forall (fmt : formatter f32) r, exists x v s u t,
  pso_main np32_default (@particleswarm_paraboloid _ record_lines clock_at_7 fmt np32_default np64_default true) 3001 r []
    = (Ret (Some (x, v), s), u, t) /\
  80 <= List.length (evals t) <= 80 * 3001.
Proof. exact demo_swarm_work. Qed.
