(** * Property C87: the example programs and the tests *)

From Coq Require Import List Arith ZArith Bool String.
From Flocq Require Import IEEE754.Binary.
From Verif Require Import Base FloatModel Rng GaModel PsoModel StopModel LogModel TestFuncModel ExampleModel
  SpecBox SpecTest SpecExample SpecStat ExampleRuns ExampleAsserts AssertFacts RastriginTest DemoExample.
Import ListNotations.
Local Open Scope nat_scope.

Notation parab np32 np64 := (fun x => Ret (@paraboloid f32 (FloatIEEE np32) (ToF64_32 np64) x)).
Notation schwef np32 np64 LM := (fun x => Ret (@schwefel f32 (FloatIEEE np32) LM (ToF64_32 np64) x)).
Notation rastr np32 np64 LM := (fun x => Ret (@rastrigin f32 (FloatIEEE np32) LM (ToF64_32 np64) x)).
Notation rosen np32 np64 := (@rosenbrock f32 (FloatIEEE np32) (ToF64_32 np64)).

(** ** C87: every run of an example program ends with a solution, for every random stream *)
Theorem C87_genetic_paraboloid :
  forall (W : Type) (write : string -> comp W bool) (now : comp W Z) (fmt : formatter f32)
    (np32 : nan_policy 24 128) (np64 : nan_policy 53 1024) (LM : Libm f32) (dbg : bool) fuel r (w : W),
    accepts write -> ticks now ->
    3000 < fuel ->
    exists x v p' u' t,
      ga_main (@genetic_paraboloid W write now fmt np32 np64 LM dbg) fuel r w = (Ret (Some (x, v), p'), u', t) /\
      solves (parab np32 np64) (int_cube 5 (-100) 100) x v /\ 0 < iteration p' <= 3000 /\
      stopped_by [Below (decimal64 1 6); After 3000] (iteration p') v.
Proof.
  exact (fun W write now fmt np32 np64 LM dbg fuel r w Hw Hn => @genetic_paraboloid_ends W write now fmt np32 np64 LM dbg Hw Hn fuel r w).
Qed.
Print Assumptions C87_genetic_paraboloid.
Theorem C87_genetic_rastrigin :
  forall (W : Type) (write : string -> comp W bool) (now : comp W Z) (fmt : formatter f32)
    (np32 : nan_policy 24 128) (np64 : nan_policy 53 1024) (LM : Libm f32) (dbg : bool) fuel r (w : W),
    accepts write -> ticks now ->
    cos_bounded (@fcos f32 LM) -> 3000 < fuel ->
    exists x v p' u' t,
      ga_main (@genetic_rastrigin W write now fmt np32 np64 LM dbg) fuel r w = (Ret (Some (x, v), p'), u', t) /\
      solves (rastr np32 np64 LM) (cube 30 (decimal32 (-512) 2) (decimal32 512 2)) x v /\ 0 < iteration p' <= 3000 /\
      stopped_by [Below (decimal64 1 4); After 3000] (iteration p') v.
Proof.
  exact (fun W write now fmt np32 np64 LM dbg fuel r w Hw Hn => @genetic_rastrigin_ends W write now fmt np32 np64 LM dbg Hw Hn fuel r w).
Qed.
Print Assumptions C87_genetic_rastrigin.
Theorem C87_genetic_schwefel :
  forall (W : Type) (write : string -> comp W bool) (now : comp W Z) (fmt : formatter f32)
    (np32 : nan_policy 24 128) (np64 : nan_policy 53 1024) (LM : Libm f32) (dbg : bool) fuel r (w : W),
    accepts write -> ticks now ->
    cos_bounded (@fsin f32 LM) -> 3000 < fuel ->
    exists x v p' u' t,
      ga_main (@genetic_schwefel W write now fmt np32 np64 LM dbg) fuel r w = (Ret (Some (x, v), p'), u', t) /\
      solves (schwef np32 np64 LM) (int_cube 15 (-500) 500) x v /\ 0 < iteration p' <= 3000 /\
      stopped_by [Below (decimal64 1 4); After 3000] (iteration p') v.
Proof.
  exact (fun W write now fmt np32 np64 LM dbg fuel r w Hw Hn => @genetic_schwefel_ends W write now fmt np32 np64 LM dbg Hw Hn fuel r w).
Qed.
Print Assumptions C87_genetic_schwefel.
Theorem C87_test_genetic_rastrigin :
  forall (W : Type) (np32 : nan_policy 24 128) (np64 : nan_policy 53 1024) (LM : Libm f32) (dbg : bool) fuel r (w : W),
    cos_bounded (@fcos f32 LM) -> 3000 < fuel ->
    exists x v p' u' t,
      ga_main (@test_genetic_rastrigin W np32 np64 LM dbg) fuel r w = (Ret (Some (x, v), p'), u', t) /\
      solves (rastr np32 np64 LM) (cube 30 (decimal32 (-512) 2) (decimal32 512 2)) x v /\ 0 < iteration p' <= 3000 /\
      stopped_by [Below (decimal64 1 4); Quiet 200; After 3000] (iteration p') v.
Proof.
  exact (fun W np32 np64 LM dbg fuel r w => @test_genetic_rastrigin_ends W discard (cret 0%Z) blank np32 np64 LM dbg discard_accepts zero_ticks fuel r w).
Qed.
Print Assumptions C87_test_genetic_rastrigin.
Theorem C87_test_genetic_schwefel :
  forall (W : Type) (np32 : nan_policy 24 128) (np64 : nan_policy 53 1024) (LM : Libm f32) (dbg : bool) fuel r (w : W),
    cos_bounded (@fsin f32 LM) -> 3000 < fuel ->
    exists x v p' u' t,
      ga_main (@test_genetic_schwefel W np32 np64 LM dbg) fuel r w = (Ret (Some (x, v), p'), u', t) /\
      solves (schwef np32 np64 LM) (int_cube 5 (-500) 500) x v /\ 0 < iteration p' <= 3000 /\
      stopped_by [Below (decimal64 1 4); Quiet 200; After 3000] (iteration p') v.
Proof.
  exact (fun W np32 np64 LM dbg fuel r w => @test_genetic_schwefel_ends W discard (cret 0%Z) blank np32 np64 LM dbg discard_accepts zero_ticks fuel r w).
Qed.
Print Assumptions C87_test_genetic_schwefel.
Theorem C87_genetic_rosenbrock :
  forall (W : Type) (write : string -> comp W bool) (now : comp W Z) (fmt : formatter f32)
    (np32 : nan_policy 24 128) (np64 : nan_policy 53 1024) (LM : Libm f32) (dbg : bool) fuel r (w : W),
    accepts write -> ticks now ->
  
    fst (fst (ga_main (@genetic_rosenbrock W write now fmt np32 np64 LM dbg) fuel r w)) <> Panic /\
    forall res p' u' t, ga_main (@genetic_rosenbrock W write now fmt np32 np64 LM dbg) fuel r w = (Ret (res, p'), u', t) ->
      exists x v, res = Some (x, v) /\ solves (rosen np32 np64) (int_cube 3 (-2) 2) x v /\ 3000 < iteration p'.
Proof.
  exact (fun W write now fmt np32 np64 LM dbg fuel r w Hw Hn => @genetic_rosenbrock_runs W write now fmt np32 np64 LM dbg Hw Hn fuel r w).
Qed.
Print Assumptions C87_genetic_rosenbrock.
Theorem C87_genetic_schwefel_iterative :
  forall (W : Type) (write : string -> comp W bool) (now : comp W Z) (fmt : formatter f32)
    (np32 : nan_policy 24 128) (np64 : nan_policy 53 1024) (LM : Libm f32) (dbg : bool) fuel r (w : W),
    accepts write -> ticks now ->
    cos_bounded (@fsin f32 LM) -> 500 < fuel ->
    exists x1 v1 p1 x2 v2 p2 u' t,
      ga_main_iterative (@genetic_schwefel_iterative W write now fmt np32 np64 LM dbg) (max_iterations 500) fuel r w
        = (Ret (Some (x1, v1), p1, (Some (x2, v2), p2)), u', t) /\
      solves (schwef np32 np64 LM) (int_cube 15 (-500) 500) x1 v1 /\ iteration p1 = 100 /\
      solves (schwef np32 np64 LM) (int_cube 15 (-500) 500) x2 v2 /\ iteration p2 = 500.
Proof.
  exact (fun W write now fmt np32 np64 LM dbg fuel r w Hw Hn => @genetic_schwefel_iterative_ends W write now fmt np32 np64 LM dbg Hw Hn fuel r w).
Qed.
Print Assumptions C87_genetic_schwefel_iterative.
Theorem C87_particleswarm_paraboloid :
  forall (W : Type) (write : string -> comp W bool) (now : comp W Z) (fmt : formatter f32)
    (np32 : nan_policy 24 128) (np64 : nan_policy 53 1024) (dbg : bool) fuel r (w : W),
    accepts write -> ticks now ->
    3000 < fuel ->
    exists x v s' u' t,
      pso_main np32 (particleswarm_paraboloid write now fmt np32 np64 dbg) fuel r w = (Ret (Some (x, v), s'), u', t) /\
      solves (parab np32 np64) (int_cube 5 (-100) 100) x v /\ sw_iteration s' <= 3000 /\
      stopped_by [Below (decimal64 1 6); Quiet 150; After 3000] (sw_iteration s') v.
Proof.
  exact (fun W write now fmt np32 np64 dbg fuel r w Hw Hn => @particleswarm_paraboloid_ends W write now fmt np32 np64 dbg Hw Hn fuel r w).
Qed.
Print Assumptions C87_particleswarm_paraboloid.
Theorem C87_particleswarm_rastrigin :
  forall (W : Type) (write : string -> comp W bool) (now : comp W Z) (fmt : formatter f32)
    (np32 : nan_policy 24 128) (np64 : nan_policy 53 1024) (LM : Libm f32) (dbg : bool) fuel r (w : W),
    accepts write -> ticks now ->
    cos_bounded (@fcos f32 LM) -> 3000 < fuel ->
    exists x v s' u' t,
      pso_main np32 (@particleswarm_rastrigin W write now fmt np32 np64 LM dbg) fuel r w = (Ret (Some (x, v), s'), u', t) /\
      solves (rastr np32 np64 LM) (cube 3 (decimal32 (-512) 2) (decimal32 512 2)) x v /\ sw_iteration s' <= 3000 /\
      stopped_by [Below (decimal64 1 6); Quiet 150; After 3000] (sw_iteration s') v.
Proof.
  exact (fun W write now fmt np32 np64 LM dbg fuel r w Hw Hn => @particleswarm_rastrigin_ends W write now fmt np32 np64 LM dbg Hw Hn fuel r w).
Qed.
Print Assumptions C87_particleswarm_rastrigin.
Theorem C87_particleswarm_rosenbrock :
  forall (W : Type) (write : string -> comp W bool) (now : comp W Z) (fmt : formatter f32)
    (np32 : nan_policy 24 128) (np64 : nan_policy 53 1024) (dbg : bool) fuel r (w : W),
    accepts write -> ticks now ->
    3000 < fuel ->
    exists x v s' u' t,
      pso_main np32 (particleswarm_rosenbrock write now fmt np32 np64 dbg) fuel r w = (Ret (Some (x, v), s'), u', t) /\
      solves (rosen np32 np64) (int_cube 3 (-2) 2) x v /\ sw_iteration s' <= 3000 /\
      stopped_by [Below (decimal64 1 6); Quiet 150; After 3000] (sw_iteration s') v.
Proof.
  exact (fun W write now fmt np32 np64 dbg fuel r w Hw Hn => @particleswarm_rosenbrock_ends W write now fmt np32 np64 dbg Hw Hn fuel r w).
Qed.
Print Assumptions C87_particleswarm_rosenbrock.
Theorem C87_particleswarm_schwefel :
  forall (W : Type) (write : string -> comp W bool) (now : comp W Z) (fmt : formatter f32)
    (np32 : nan_policy 24 128) (np64 : nan_policy 53 1024) (LM : Libm f32) (dbg : bool) fuel r (w : W),
    accepts write -> ticks now ->
    cos_bounded (@fsin f32 LM) -> 3000 < fuel ->
    exists x v s' u' t,
      pso_main np32 (@particleswarm_schwefel W write now fmt np32 np64 LM dbg) fuel r w = (Ret (Some (x, v), s'), u', t) /\
      solves (schwef np32 np64 LM) (int_cube 3 (-500) 500) x v /\ sw_iteration s' <= 3000 /\
      stopped_by [Below (decimal64 1 6); Quiet 150; After 3000] (sw_iteration s') v.
Proof.
  exact (fun W write now fmt np32 np64 LM dbg fuel r w Hw Hn => @particleswarm_schwefel_ends W write now fmt np32 np64 LM dbg Hw Hn fuel r w).
Qed.
Print Assumptions C87_particleswarm_schwefel.
Theorem C87_particleswarm_schwefel_iterative :
  forall (W : Type) (write : string -> comp W bool) (now : comp W Z) (fmt : formatter f32)
    (np32 : nan_policy 24 128) (np64 : nan_policy 53 1024) (LM : Libm f32) fuel r (w : W),
    accepts write -> ticks now ->
    cos_bounded (@fsin f32 LM) -> 150 < fuel ->
    exists x1 v1 s1 x2 v2 s2 u' t,
      pso_main_iterative np32 (@particleswarm_schwefel_iterative W write now fmt np32 np64 LM) (max_iterations 150) fuel r w
        = (Ret (Some (x1, v1), s1, (Some (x2, v2), s2)), u', t) /\
      solves (schwef np32 np64 LM) (int_cube 3 (-500) 500) x1 v1 /\ sw_iteration s1 = 50 /\
      solves (schwef np32 np64 LM) (int_cube 3 (-500) 500) x2 v2 /\ sw_iteration s2 = 150 /\ leb v2 v1 = true.
Proof.
  exact (fun W write now fmt np32 np64 LM fuel r w Hw Hn => @particleswarm_schwefel_iterative_ends W write now fmt np32 np64 LM true Hw Hn fuel r w).
Qed.
Print Assumptions C87_particleswarm_schwefel_iterative.

(** ** C87: the tests on the paraboloid pass unless the run ends without reaching the threshold *)
Theorem C87_test_genetic_paraboloid :
  forall (W : Type) (np32 : nan_policy 24 128) (np64 : nan_policy 53 1024) (LM : Libm f32) (dbg : bool) fuel r (w : W), 5000 < fuel ->
  exists x v p' u' t,
    ga_main (@test_genetic_paraboloid W np32 np64 LM dbg) fuel r w = (Ret (Some (x, v), p'), u', t) /\
    solves (parab np32 np64) (int_cube 5 (-100) 100) x v /\
    (genetic_paraboloid_asserts np32 (Some (x, v)) = Ret tt \/
     ltb (decimal64 1 6) v = true /\ 150 < iteration p' <= 5000).
Proof. exact test_genetic_paraboloid_passes. Qed.
Print Assumptions C87_test_genetic_paraboloid.
Theorem C87_test_particleswarm_paraboloid :
  forall (W : Type) (np32 : nan_policy 24 128) (np64 : nan_policy 53 1024) (dbg : bool) fuel r (w : W), 3000 < fuel ->
  exists x v s' u' t,
    pso_main np32 (test_particleswarm_paraboloid np32 np64 dbg) fuel r w = (Ret (Some (x, v), s'), u', t) /\
    solves (parab np32 np64) (int_cube 5 (-100) 100) x v /\
    (particleswarm_paraboloid_asserts np32 (Some (x, v)) = Ret tt \/
     ltb (decimal64 1 6) v = true /\ 150 < sw_iteration s' <= 3000).
Proof. exact test_particleswarm_paraboloid_passes. Qed.
Print Assumptions C87_test_particleswarm_paraboloid.
(** With a cosine that is right to three decimals near 0, the threshold is enough for this test, too. *)
Theorem C87_test_genetic_rastrigin_passes :
  forall (W : Type) (np32 : nan_policy 24 128) (np64 : nan_policy 53 1024) (LM : Libm f32) (dbg : bool) fuel r (w : W),
  cos_bounded (@fcos f32 LM) -> cos_near (@fcos f32 LM) -> 3000 < fuel ->
  exists x v p' u' t,
    ga_main (@test_genetic_rastrigin W np32 np64 LM dbg) fuel r w = (Ret (Some (x, v), p'), u', t) /\
    (genetic_rastrigin_asserts np32 (Some (x, v)) = Ret tt \/
     ltb (decimal64 1 4) v = true /\ 200 < iteration p' <= 3000).
Proof. exact test_genetic_rastrigin_passes. Qed.
Print Assumptions C87_test_genetic_rastrigin_passes.

(** ** C87: what the assertions say: a solution whose first five coordinates are near 1, 2, 3, 4, 5 *)
Theorem C87_genetic_asserts :
  forall (np32 : nan_policy 24 128) (r : option (list f32 * f64)),
    genetic_paraboloid_asserts np32 r = Ret tt <->
    exists x v, r = Some (x, v) /\
      (forall i, i < 5 -> exists xi, nth_error x i = Some xi /\ ltb (b_abs (b_sub np32 xi (float_count (S i)))) (decimal32 1 1) = true) /\
      ltb (b_abs v) (decimal64 1 3) = true.
Proof. exact genetic_asserts_iff. Qed.
Print Assumptions C87_genetic_asserts.
Theorem C87_particleswarm_asserts :
  forall (np32 : nan_policy 24 128) (r : option (list f32 * f64)),
    particleswarm_paraboloid_asserts np32 r = Ret tt <->
    exists x v, r = Some (x, v) /\
      (forall i, i < 5 -> exists xi, nth_error x i = Some xi /\ ltb (b_abs (b_sub np32 xi (float_count (S i)))) (decimal32 3 1) = true) /\
      ltb (b_abs v) (decimal64 1 1) = true.
Proof. exact swarm_asserts_iff. Qed.
Print Assumptions C87_particleswarm_asserts.
(** Thirty coordinates near 0; five coordinates near 421. *)
Theorem C87_rastrigin_asserts :
  forall (np32 : nan_policy 24 128) (r : option (list f32 * f64)),
    genetic_rastrigin_asserts np32 r = Ret tt <->
    exists x v, r = Some (x, v) /\
      (forall i, i < 30 -> exists xi, nth_error x i = Some xi /\ ltb (b_abs (b_sub np32 xi (b_of_Z 0))) (decimal32 1 2) = true) /\
      ltb (b_abs v) (decimal64 1 3) = true.
Proof. exact rastrigin_asserts_iff. Qed.
Print Assumptions C87_rastrigin_asserts.
Theorem C87_schwefel_asserts :
  forall (np32 : nan_policy 24 128) (r : option (list f32 * f64)),
    genetic_schwefel_asserts np32 r = Ret tt <->
    exists x v, r = Some (x, v) /\
      (forall i, i < 5 -> exists xi, nth_error x i = Some xi /\ ltb (b_abs (b_sub np32 xi (b_of_Z 421))) (decimal32 1 1) = true) /\
      ltb (b_abs v) (decimal64 1 3) = true.
Proof. exact schwefel_asserts_iff. Qed.
Print Assumptions C87_schwefel_asserts.

(** ** The hypotheses are met *)
Example C87_terminal :
  accepts record_lines /\ ticks (W := list string) clock_at_7 /\ cos_bounded (@fcos f32 demo_libm32) /\ cos_bounded (@fsin f32 demo_libm32) /\
  record_lines "a" ["b"%string] = (Ret true, ["a"; "b"]%string).
Proof. exact demo_terminal. Qed.
(** Values around the threshold: 2^-20 below the minimum point's first coordinate and at distance 1/8. *)
Example C87_near :
  leb (@paraboloid f32 (FloatIEEE np32_default) (ToF64_32 np64_default) near) (decimal64 1 6) = true /\
  ltb (b_of_Z 0) (@paraboloid f32 (FloatIEEE np32_default) (ToF64_32 np64_default) near) = true /\
  genetic_paraboloid_asserts np32_default (Some (near, b_of_Z 0)) = Ret tt /\
  genetic_paraboloid_asserts np32_default (Some (off, b_of_Z 0)) = Panic /\
  particleswarm_paraboloid_asserts np32_default (Some (off, b_of_Z 0)) = Ret tt.
Proof. exact demo_near. Qed.
(** The minimum of the Schwefel function passes its test, a point that is 1/8 away from 421 does not; 1/128 from the
    minimum of the Rastrigin function passes, 1/64 does not. *)
Example C87_other_asserts :
  genetic_schwefel_asserts np32_default (Some (repeat (decimal32 4209687 4) 5, b_of_Z 0)) = Ret tt /\
  genetic_schwefel_asserts np32_default (Some (repeat (decimal32 421125 3) 5, b_of_Z 0)) = Panic /\
  genetic_rastrigin_asserts np32_default (Some (repeat (decimal32 78125 7) 30, b_of_Z 0)) = Ret tt /\
  genetic_rastrigin_asserts np32_default (Some (repeat (decimal32 15625 6) 30, b_of_Z 0)) = Panic.
Proof. exact demo_other_asserts. Qed.
