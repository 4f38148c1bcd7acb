(** * C107: the swarm programs can stay where they start *)

From Coq Require Import List Arith ZArith Bool Lia Reals Lra String.
From Flocq Require Import Core IEEE754.BinarySingleNaN IEEE754.Binary.
From Verif Require Import Base FloatModel Rng GaModel GaComponents PsoModel PsoComponents StopModel LogModel TestFuncModel ExampleModel
  SpecGa SpecPso SpecBox SpecVel SpecStill SpecPossible SpecTest SpecExample SpecStuck
  StillFacts StuckFacts ExampleAsserts DemoFloats DemoTrig DemoPso DemoExample.
From Verif Require Prop_Still.
Import ListNotations.
Local Open Scope nat_scope.

(** ** The library: particles that all start at one point without a velocity stay there *)
Theorem C107_crowd :
  forall prec emax (Hp : Prec_gt_0 prec) (He : Prec_lt_emax prec emax) (np : nan_policy prec emax)
    U goal stop coords calc limits loggers box n (x : list (bfloat prec emax)) xs fuel s u u1 o u' t,
    coords u = (Ret xs, u1) -> Forall (eq x) xs -> in_box box x ->
    (forall k c, is_finite c = true -> quiet_calc k c calc) ->
    Forall (fun f => forall k, k < List.length x -> quiet_velocity k f) limits ->
    @pso_find_min U _ (FloatIEEE np)
      (PsoConfig goal stop coords (cret (@zero_velocities _ (FloatIEEE np) (List.length x) n)) calc limits
         [fun x => cpure (@move_to_boundary _ (FloatIEEE np) box x)] loggers) fuel s u = (o, u', t) ->
    forall y w, evaluated t y w -> same_point y x.
Proof. exact @crowd. Qed.
Print Assumptions C107_crowd.
(** Three particles at one point, four rounds of evaluations. *)
Example C107_crowd_met :
  in_box swarm_box [three64; one64] /\
  let calc := fun s p => zoom lens_id (@classic_velocity f64 (FloatIEEE np64_default) np32_default one64 two64 s p) in
  (forall k c, is_finite c = true -> quiet_calc k c calc) /\
  Prop_Still.evals (snd (@pso_find_min rng f64 (FloatIEEE np64_default)
    (PsoConfig (goal_from_function swarm_goal) (max_iterations 3) (cret (repeat [three64; one64] 3)) (cret (zero_velocities 2 3))
       calc [] [fun x => cpure (@move_to_boundary f64 (FloatIEEE np64_default) swarm_box x)] [])
    10 swarm_new counter)) = repeat (map to_bits64 [three64; one64]) 12.
Proof.
  split; [repeat constructor|]. split; [intros; now apply Prop_Still.C98_classic|].
  vm_compute. reflexivity.
Qed.

(** ** The example programs: for every point of the box there are first draws after which the program never looks at
    another point, whatever is drawn later *)
Theorem C107_particleswarm_paraboloid :
  forall W (write : string -> comp W bool) (now : comp W Z) fmt np32 np64 dbg (q : list f32), in_box (int_cube 5 (-100) 100) q ->
  exists zs, forall fuel, only_sees (pso_main np32 (@particleswarm_paraboloid W write now fmt np32 np64 dbg) fuel) q zs.
Proof. exact @paraboloid_only. Qed.
Print Assumptions C107_particleswarm_paraboloid.
Theorem C107_particleswarm_rastrigin :
  forall W (write : string -> comp W bool) (now : comp W Z) fmt np32 np64 LM dbg (q : list f32), in_box (cube 3 (decimal32 (-512) 2) (decimal32 512 2)) q ->
  exists zs, forall fuel, only_sees (pso_main np32 (@particleswarm_rastrigin W write now fmt np32 np64 LM dbg) fuel) q zs.
Proof. exact @rastrigin_only. Qed.
Print Assumptions C107_particleswarm_rastrigin.
Theorem C107_particleswarm_rosenbrock :
  forall W (write : string -> comp W bool) (now : comp W Z) fmt np32 np64 dbg (q : list f32), in_box (int_cube 3 (-2) 2) q ->
  exists zs, forall fuel, only_sees (pso_main np32 (@particleswarm_rosenbrock W write now fmt np32 np64 dbg) fuel) q zs.
Proof. exact @rosenbrock_only. Qed.
Print Assumptions C107_particleswarm_rosenbrock.
Theorem C107_particleswarm_schwefel :
  forall W (write : string -> comp W bool) (now : comp W Z) fmt np32 np64 LM dbg (q : list f32), in_box (int_cube 3 (-500) 500) q ->
  exists zs, forall fuel, only_sees (pso_main np32 (@particleswarm_schwefel W write now fmt np32 np64 LM dbg) fuel) q zs.
Proof. exact @schwefel_only. Qed.
Print Assumptions C107_particleswarm_schwefel.
Theorem C107_test_particleswarm_paraboloid :
  forall W np32 np64 dbg (q : list f32), in_box (int_cube 5 (-100) 100) q ->
  exists zs, forall fuel, only_sees (pso_main np32 (@test_particleswarm_paraboloid W np32 np64 dbg) fuel) q zs.
Proof. exact @test_only. Qed.
Print Assumptions C107_test_particleswarm_paraboloid.

(** ** So every point of the box is a possible result *)
Theorem C107_particleswarm_paraboloid_result :
  forall W (write : string -> comp W bool) (now : comp W Z) fmt np32 np64 dbg, accepts write -> ticks now ->
  forall q : list f32, in_box (int_cube 5 (-100) 100) q ->
  exists zs, forall fuel rest w, 3000 < fuel -> exists x v s' u' t,
    pso_main np32 (@particleswarm_paraboloid W write now fmt np32 np64 dbg) fuel (prepend zs rest) w = (Ret (Some (x, v), s'), u', t) /\ same_point x q.
Proof. exact @paraboloid_stays. Qed.
Print Assumptions C107_particleswarm_paraboloid_result.
Theorem C107_particleswarm_rastrigin_result :
  forall W (write : string -> comp W bool) (now : comp W Z) fmt np32 np64 LM dbg, accepts write -> ticks now ->
  forall q : list f32, cos_bounded (@fcos f32 LM) -> in_box (cube 3 (decimal32 (-512) 2) (decimal32 512 2)) q ->
  exists zs, forall fuel rest w, 3000 < fuel -> exists x v s' u' t,
    pso_main np32 (@particleswarm_rastrigin W write now fmt np32 np64 LM dbg) fuel (prepend zs rest) w = (Ret (Some (x, v), s'), u', t) /\ same_point x q.
Proof. exact @rastrigin_stays. Qed.
Print Assumptions C107_particleswarm_rastrigin_result.
Theorem C107_particleswarm_rosenbrock_result :
  forall W (write : string -> comp W bool) (now : comp W Z) fmt np32 np64 dbg, accepts write -> ticks now ->
  forall q : list f32, in_box (int_cube 3 (-2) 2) q ->
  exists zs, forall fuel rest w, 3000 < fuel -> exists x v s' u' t,
    pso_main np32 (@particleswarm_rosenbrock W write now fmt np32 np64 dbg) fuel (prepend zs rest) w = (Ret (Some (x, v), s'), u', t) /\ same_point x q.
Proof. exact @rosenbrock_stays. Qed.
Print Assumptions C107_particleswarm_rosenbrock_result.
Theorem C107_particleswarm_schwefel_result :
  forall W (write : string -> comp W bool) (now : comp W Z) fmt np32 np64 LM dbg, accepts write -> ticks now ->
  forall q : list f32, cos_bounded (@fsin f32 LM) -> in_box (int_cube 3 (-500) 500) q ->
  exists zs, forall fuel rest w, 3000 < fuel -> exists x v s' u' t,
    pso_main np32 (@particleswarm_schwefel W write now fmt np32 np64 LM dbg) fuel (prepend zs rest) w = (Ret (Some (x, v), s'), u', t) /\ same_point x q.
Proof. exact @schwefel_stays. Qed.
Print Assumptions C107_particleswarm_schwefel_result.

(** ** The test of the swarm fails for some draws *)
Theorem C107_test_fails :
  forall W np32 np64 dbg, exists zs, forall fuel rest (w : W), 3000 < fuel -> exists x v s' u' t,
    pso_main np32 (@test_particleswarm_paraboloid W np32 np64 dbg) fuel (prepend zs rest) w = (Ret (Some (x, v), s'), u', t) /\
    particleswarm_paraboloid_asserts np32 (Some (x, v)) = Panic.
Proof. exact @test_fails. Qed.
Print Assumptions C107_test_fails.

(** ** The hypotheses are met *)
Example C107_points_met :
  in_box (int_cube 5 (-100) 100) (map b_of_Z [-100; 7; 0; 99; 42]%Z) /\
  in_box (cube 3 (decimal32 (-512) 2) (decimal32 512 2)) (map b_of_Z [-5; 1; 4]%Z) /\
  in_box (int_cube 3 (-2) 2) (map b_of_Z [-2; 1; 0]%Z) /\
  in_box (int_cube 3 (-500) 500) (map b_of_Z [-500; 499; 3]%Z).
Proof. repeat split; repeat constructor; vm_compute; reflexivity. Qed.
Example C107_world_met : accepts (@discard unit) /\ ticks (@cret unit Z 0%Z) /\
  cos_bounded (@fcos f32 (fine_libm np32_default)) /\ cos_bounded (@fsin f32 (fine_libm np32_default)).
Proof.
  split; [exact discard_accepts|]. split; [exact zero_ticks|].
  split; [exact (proj1 (proj1 (fine_libm_near np32_default)))|exact (proj1 (proj2 (fine_libm_near np32_default)))].
Qed.
(** A result that is far from the answer 1, 2, 3, 4, 5 of the function. *)
Example C107_result_met : exists zs, forall rest, exists x v s' u' t,
  pso_main np32_default (@particleswarm_paraboloid unit discard (cret 0%Z) blank np32_default np64_default true) 3001 (prepend zs rest) tt
    = (Ret (Some (x, v), s'), u', t) /\ same_point x (map b_of_Z [-100; 7; 0; 99; 42]%Z).
Proof.
  destruct (C107_particleswarm_paraboloid_result unit discard (cret 0%Z) blank np32_default np64_default true discard_accepts zero_ticks
    _ (proj1 C107_points_met)) as [zs H].
  exists zs. intros rest. apply H. lia.
Qed.
