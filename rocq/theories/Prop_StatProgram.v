(** * Property C89: the programs that collect statistics *)

From Coq Require Import List Arith ZArith Bool Permutation.
From Flocq Require Import IEEE754.Binary.
From Verif Require Import Base FloatModel Rng GaModel PsoModel StopModel StatModel TestFuncModel ExampleModel StatProgramModel
  SpecBox SpecTest SpecExample SpecStat SpecStatProgram StatProgramFacts StatProgramRuns StatTestFacts RosenTestFacts AssertFacts
  ExampleAsserts DemoFloats DemoExample DemoStatProgram.
Import ListNotations.
Local Open Scope nat_scope.

Notation schwef np32 np64 LM := (fun x => Ret (@schwefel f32 (FloatIEEE np32) LM (ToF64_32 np64) x)).
Notation rastr np32 np64 LM := (fun x => Ret (@rastrigin f32 (FloatIEEE np32) LM (ToF64_32 np64) x)).
Notation rosen np32 np64 := (@rosenbrock f32 (FloatIEEE np32) (ToF64_32 np64)).

(** ** C89: whatever the threads draw and whichever is first, the program ends with a report on the runs it made *)
Theorem C89_genetic_schwefel :
  forall (np32 : nan_policy 24 128) (np64 : nan_policy 53 1024) (LM : Libm f32) (dbg : bool) fuel,
    cos_bounded (@fsin f32 LM) -> 3000 < fuel ->
    reports_all np32 np64 (decimal32 4209687 4) (b_of_Z 1) 1000
      (good_run (schwef np32 np64 LM) (int_cube 3 (-500) 500) [After 3000] (fun i c => 100 <= c <= 100 + 50 * i))
      (@genetic_schwefel_statistics np32 np64 LM dbg fuel).
Proof. exact (fun np32 np64 LM dbg => @genetic_schwefel_reports np32 np64 LM dbg). Qed.
Print Assumptions C89_genetic_schwefel.
(** The runs of this program need not end: LimitPopulation can lose the best individual. *)
Theorem C89_genetic_rosenbrock :
  forall (np32 : nan_policy 24 128) (np64 : nan_policy 53 1024) (LM : Libm f32) (dbg : bool) fuel,
    reports_ended np32 np64 (b_of_Z 1) (decimal32 1 2) 100
      (good_run (rosen np32 np64) (int_cube 3 (-2) 2) [Below (decimal64 1 6); Quiet 2000] (fun i c => 700 <= c <= 700 + 350 * i))
      (@genetic_rosenbrock_statistics np32 np64 LM dbg fuel).
Proof. exact (fun np32 np64 LM dbg => @genetic_rosenbrock_reports np32 np64 LM dbg). Qed.
Print Assumptions C89_genetic_rosenbrock.
Theorem C89_particleswarm_schwefel :
  forall (np32 : nan_policy 24 128) (np64 : nan_policy 53 1024) (LM : Libm f32) fuel,
    cos_bounded (@fsin f32 LM) -> 3000 < fuel ->
    reports_all np32 np64 (decimal32 4209687 4) (b_of_Z 1) 1000
      (good_run (schwef np32 np64 LM) (int_cube 3 (-500) 500) [Below (decimal64 1 8); After 3000] (fun i c => c = 30 * (i + 1)))
      (@particleswarm_schwefel_statistics np32 np64 LM fuel).
Proof. exact (fun np32 np64 LM => @particleswarm_schwefel_reports np32 np64 LM true). Qed.
Print Assumptions C89_particleswarm_schwefel.
(** No limit of the iterations: GoalNotChange ends every run. *)
Theorem C89_particleswarm_rosenbrock :
  forall (np32 : nan_policy 24 128) (np64 : nan_policy 53 1024) (dbg : bool),
    exists B, forall fuel, B < fuel ->
    reports_all np32 np64 (b_of_Z 1) (decimal32 1 2) 1000
      (good_run (rosen np32 np64) (int_cube 3 (-2) 2) [Below (decimal64 1 8); Quiet 500] (fun i c => c = 20 * (i + 1)))
      (particleswarm_rosenbrock_statistics np32 np64 dbg fuel).
Proof. exact (fun np32 np64 dbg => @particleswarm_rosenbrock_reports np32 np64 dbg). Qed.
Print Assumptions C89_particleswarm_rosenbrock.
Theorem C89_particleswarm_full :
  forall (np32 : nan_policy 24 128) (np64 : nan_policy 53 1024) (LM : Libm f32) (dbg : bool) fuel,
    cos_bounded (@fsin f32 LM) -> 1000 < fuel ->
    reports_all np32 np64 (decimal32 4209687 4) (b_of_Z 1) 1000
      (good_run (schwef np32 np64 LM) (int_cube 3 (-500) 500) [Below (decimal64 1 6); Quiet 50; After 1000] (fun i c => c = 50 * (i + 1)))
      (@particleswarm_schwefel_statistics_full np32 np64 LM dbg fuel).
Proof. exact (fun np32 np64 LM dbg => @particleswarm_full_reports np32 np64 LM dbg). Qed.
Print Assumptions C89_particleswarm_full.
Theorem C89_schwefel_inertia :
  forall (np32 : nan_policy 24 128) (np64 : nan_policy 53 1024) (LM : Libm f32) (dbg : bool) fuel,
    cos_bounded (@fsin f32 LM) -> 400 < fuel ->
    reports_all np32 np64 (decimal32 4209687 4) (b_of_Z 1) 1000
      (good_run (schwef np32 np64 LM) (int_cube 3 (-500) 500) [Below (decimal64 1 6); Quiet 50; After 400] (fun i c => c = 50 * (i + 1)))
      (@particleswarm_schwefel_statistics_inertia np32 np64 LM dbg fuel).
Proof. exact (fun np32 np64 LM dbg => @schwefel_inertia_reports np32 np64 LM dbg). Qed.
Print Assumptions C89_schwefel_inertia.
Theorem C89_rastrigin_inertia :
  forall (np32 : nan_policy 24 128) (np64 : nan_policy 53 1024) (LM : Libm f32) (dbg : bool) fuel,
    cos_bounded (@fcos f32 LM) -> 400 < fuel ->
    reports_all np32 np64 (b_of_Z 0) (decimal32 1 1) 1000
      (good_run (rastr np32 np64 LM) (cube 3 (decimal32 (-512) 2) (decimal32 512 2)) [Below (decimal64 1 6); Quiet 50; After 400] (fun i c => c = 50 * (i + 1)))
      (@particleswarm_rastrigin_statistics_inertia np32 np64 LM dbg fuel).
Proof. exact (fun np32 np64 LM dbg => @rastrigin_inertia_reports np32 np64 LM dbg). Qed.
Print Assumptions C89_rastrigin_inertia.

(** ** C89: the order in which the threads end matters only for the rounding of sums *)
Theorem C89_any_order :
  forall (np32 : nan_policy 24 128) (np64 : nan_policy 53 1024) answer delta total good main streams a1 a2 rp1 rp2,
    reports_all np32 np64 answer delta total good main -> 0 < length streams <= total ->
    Permutation a1 (seq 0 (length streams)) -> Permutation a2 (seq 0 (length streams)) ->
    main streams a1 = Ret rp1 -> main streams a2 = Ret rp2 -> same_summary rp1 rp2.
Proof. exact any_order. Qed.
Print Assumptions C89_any_order.
Theorem C89_rounding_limit : exists gs1 gs2 : list f64, Permutation gs1 gs2 /\ Forall (fun g => is_finite g = true) gs1 /\
  mean64 np64_default gs1 <> mean64 np64_default gs2.
Proof. exact order_matters. Qed.
Print Assumptions C89_rounding_limit.

(** ** C89: a machine with more processors than runs makes none, and the report panics *)
Theorem C89_too_many_processors_limit :
  forall (np32 : nan_policy 24 128) (np64 : nan_policy 53 1024) (LM : Libm f32) (dbg : bool) fuel,
    fails_beyond 1000 (genetic_schwefel_statistics np32 np64 dbg fuel) /\
    fails_beyond 100 (genetic_rosenbrock_statistics np32 np64 dbg fuel) /\
    fails_beyond 1000 (particleswarm_schwefel_statistics np32 np64 fuel) /\
    fails_beyond 1000 (particleswarm_rosenbrock_statistics np32 np64 dbg fuel) /\
    fails_beyond 1000 (particleswarm_schwefel_statistics_full np32 np64 dbg fuel) /\
    fails_beyond 1000 (particleswarm_schwefel_statistics_inertia np32 np64 dbg fuel) /\
    fails_beyond 1000 (particleswarm_rastrigin_statistics_inertia np32 np64 dbg fuel).
Proof. exact (fun np32 np64 LM dbg => @too_many np32 np64 LM dbg). Qed.
Print Assumptions C89_too_many_processors_limit.

(** ** C89: the tests of the statistics pass *)
Theorem C89_test_single :
  forall (np32 : nan_policy 24 128) (np64 : nan_policy 53 1024) (LM : Libm f32) (dbg : bool) fuel r,
    5000 < fuel -> test_stat_single np32 np64 dbg fuel r = Ret tt.
Proof. exact (fun np32 np64 LM dbg => @stat_single_passes np32 np64 LM dbg). Qed.
Print Assumptions C89_test_single.
(** In a release build: the second run starts with the iteration number that GoalNotChange
    remembers of the first, and the subtraction of iteration numbers may wrap. *)
Theorem C89_test_two :
  forall (np32 : nan_policy 24 128) (np64 : nan_policy 53 1024) (LM : Libm f32) fuel r,
    5000 < fuel -> test_stat_two np32 np64 false fuel r = Ret tt.
Proof. exact (fun np32 np64 LM => @stat_two_passes np32 np64 LM). Qed.
Print Assumptions C89_test_two.
(** What the assertions of both tests say. *)
Theorem C89_asserts :
  forall found (st : statistics (list f32)), stat_asserts found st = Ret tt <->
    length (convergence st) = length found /\
    exists recorded, results st = map Some recorded /\ Forall2 equal_points found recorded.
Proof. exact stat_asserts_iff. Qed.
Print Assumptions C89_asserts.

(** ** C89: the test of the genetic algorithm on the Rosenbrock function passes exactly if at least
    three quarters of its runs come within 0.01 of the minimum in every coordinate *)
Theorem C89_rosenbrock_test :
  forall (np32 : nan_policy 24 128) (np64 : nan_policy 53 1024) (LM : Libm f32) (dbg : bool) fuel,
    tests_share np32 (b_of_Z 1) (decimal32 1 2) 100 3 4
      (good_run (rosen np32 np64) (int_cube 3 (-2) 2) [Below (decimal64 1 6); Quiet 2000] (fun _ _ => True))
      (@test_genetic_rosenbrock np32 np64 LM dbg fuel).
Proof. exact (fun np32 np64 LM dbg => @rosenbrock_test np32 np64 LM dbg). Qed.
Print Assumptions C89_rosenbrock_test.
(** On a machine with more than 100 processors it makes no run and panics. *)
Theorem C89_rosenbrock_test_limit :
  forall (np32 : nan_policy 24 128) (np64 : nan_policy 53 1024) (LM : Libm f32) (dbg : bool) fuel streams arrivals,
    100 < length streams -> Permutation arrivals (seq 0 (length streams)) ->
    @test_genetic_rosenbrock np32 np64 LM dbg fuel streams arrivals = Panic.
Proof. exact (fun np32 np64 LM dbg => @rosenbrock_test_fails np32 np64 LM dbg). Qed.
Print Assumptions C89_rosenbrock_test_limit.

(** ** The hypotheses are met *)
(** 100 processors make one run each, which ends; the test passes. *)
Example C89_rosenbrock_test_passes :
  @test_genetic_rosenbrock np32_default np64_default demo_libm32 true 2 (repeat ones 100) (seq 0 100) = Ret tt.
Proof. exact demo_rosenbrock_test. Qed.
(** Two processors make 500 runs each, whichever is first. *)
Example C89_two_processors : exists rp1 rp2,
  @particleswarm_schwefel_statistics np32_default np64_default demo_libm32 3001 [counter; one_two] [0; 1] = Ret rp1 /\
  @particleswarm_schwefel_statistics np32_default np64_default demo_libm32 3001 [counter; one_two] [1; 0] = Ret rp2 /\
  rp_run_count rp1 = 1000 /\ length (rp_solutions rp1) = 1000 /\ same_summary rp1 rp2.
Proof. exact demo_programs. Qed.
(** A report on two runs of 40 and 61 calls, one of them at the answer. *)
Example C89_report : exists rp,
  print_report np32_default np64_default (b_of_Z 1) (decimal32 1 2) 3 (data_of two_runs) = Ret rp /\
  rp_run_count rp = 2 /\ map fst (rp_solutions rp) = [0; 1] /\ map fst (rp_convergence rp) = [0] /\
  map (fun x => to_bits64 x)
    (rp_success_rate rp :: rp_average_goal rp :: rp_average_calls rp :: map snd (rp_convergence rp)) =
  map (fun x => to_bits64 x) [decimal64 5 1; decimal64 1 0; decimal64 505 1; decimal64 15 1].
Proof. exact demo_report. Qed.
