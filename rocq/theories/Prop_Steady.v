(** * C109: the genetic programs can return every point of their box *)

From Coq Require Import List Arith ZArith Bool Lia String.
From Verif Require Import Base FloatModel Rng GaModel StopModel LogModel ExampleModel
  SpecGa SpecBits SpecBox SpecPossible SpecTest SpecExample SpecClosed SpecSteady
  ExampleFacts ExampleAsserts SteadyFacts SteadyRuns FlatRuns DemoFloats DemoTrig DemoSteady.
Import ListNotations.
Local Open Scope nat_scope.

(** ** Runs while a condition on the world holds *)
Theorem C109_find_min :
  forall (U T : Type) (cfg : ga_config U T) (K : U -> Prop) (S : T -> Prop), all_steady K cfg -> closed_while K S cfg ->
  forall fuel p u o u' t xs u1, ga_creator cfg u = (Ret xs, u1) -> Forall S xs -> K u1 ->
    ga_find_min cfg fuel p u = (o, u', t) ->
    lived_in S t /\ K u' /\ forall r p', o = Ret (r, p') -> inside S p' /\ forall x v, r = Some (x, v) -> S x.
Proof. exact @while_find. Qed.
Print Assumptions C109_find_min.
Theorem C109_next_iterations :
  forall (U T : Type) (cfg : ga_config U T) (K : U -> Prop) (S : T -> Prop), all_steady K cfg -> closed_while K S cfg ->
  forall fuel p u o u' t, K u -> inside S p -> ga_next_iterations cfg fuel p u = (o, u', t) ->
    lived_in S t /\ K u' /\ forall r p', o = Ret (r, p') -> inside S p' /\ forall x v, r = Some (x, v) -> S x.
Proof. exact @while_next. Qed.
Print Assumptions C109_next_iterations.
Example C109_runs_met : exists cfg,
  @test_genetic_paraboloid unit np32_default np64_default (full_libm np32_default) true = Ret cfg /\
  all_steady (fun u => unlucky (b_of_Z 15) (w_rng u)) cfg /\
  closed_while (fun u => unlucky (b_of_Z 15) (w_rng u)) (eq (repeat (b_of_Z 0) 5)) cfg.
Proof. exact (demo_steady unit np32_default np64_default true). Qed.

(** ** The programs: there are first draws after which, as long as no later draw is below the mutation probability, the
    goal function is asked about the one point [q] only *)
Theorem C109_genetic_paraboloid :
  forall (W : Type) np32 np64 (LM : Libm f32) dbg, exact_exp2 LM -> forall (write : string -> comp W bool) (now : comp W Z) fmt, accepts write -> ticks now -> forall q,
    in_box (int_cube 5 (-100) 100) q -> ordinary q ->
    can_return (ga_main (@genetic_paraboloid W write now fmt np32 np64 LM dbg)) (b_of_Z 15) 3000 q.
Proof. exact @paraboloid_can_return. Qed.
Print Assumptions C109_genetic_paraboloid.
Theorem C109_genetic_rastrigin :
  forall (W : Type) np32 np64 (LM : Libm f32) dbg, exact_exp2 LM -> forall (write : string -> comp W bool) (now : comp W Z) fmt, accepts write -> ticks now -> forall q,
    cos_bounded (@fcos f32 LM) -> in_box (cube 30 (decimal32 (-512) 2) (decimal32 512 2)) q -> ordinary q ->
    can_return (ga_main (@genetic_rastrigin W write now fmt np32 np64 LM dbg)) (b_of_Z 15) 3000 q.
Proof. exact @rastrigin_can_return. Qed.
Print Assumptions C109_genetic_rastrigin.
Theorem C109_genetic_rosenbrock :
  forall (W : Type) np32 np64 (LM : Libm f32) dbg, exact_exp2 LM -> forall (write : string -> comp W bool) (now : comp W Z) fmt q,
    in_box (int_cube 3 (-2) 2) q -> ordinary q -> can_stay (ga_main (@genetic_rosenbrock W write now fmt np32 np64 LM dbg)) (b_of_Z 85) q.
Proof. exact @rosenbrock_can_stay. Qed.
Print Assumptions C109_genetic_rosenbrock.
Theorem C109_genetic_rosenbrock_returns :
  forall (W : Type) np32 np64 (LM : Libm f32) dbg, exact_exp2 LM -> forall (write : string -> comp W bool) (now : comp W Z) fmt, accepts write -> ticks now -> forall q,
    in_box (int_cube 3 (-2) 2) q -> ordinary q ->
    can_return (ga_main (@genetic_rosenbrock W write now fmt np32 np64 LM dbg)) (b_of_Z 85) (2 * (3000 + 1) + 2) q.
Proof. exact (fun W np32 np64 LM dbg HE write now fmt Hw Hn q => @rosenbrock_can_return W write now fmt np32 np64 LM dbg HE Hw Hn q). Qed.
Print Assumptions C109_genetic_rosenbrock_returns.
Theorem C109_genetic_schwefel :
  forall (W : Type) np32 np64 (LM : Libm f32) dbg, exact_exp2 LM -> forall (write : string -> comp W bool) (now : comp W Z) fmt, accepts write -> ticks now -> forall q,
    cos_bounded (@fsin f32 LM) -> in_box (int_cube 15 (-500) 500) q -> ordinary q ->
    can_return (ga_main (@genetic_schwefel W write now fmt np32 np64 LM dbg)) (b_of_Z 15) 3000 q.
Proof. exact @schwefel_can_return. Qed.
Print Assumptions C109_genetic_schwefel.
Theorem C109_test_genetic_paraboloid :
  forall (W : Type) np32 np64 (LM : Libm f32) dbg, exact_exp2 LM -> forall q,
    in_box (int_cube 5 (-100) 100) q -> ordinary q ->
    can_return (ga_main (@test_genetic_paraboloid W np32 np64 LM dbg)) (b_of_Z 15) 5000 q.
Proof. exact @test_paraboloid_can_return. Qed.
Print Assumptions C109_test_genetic_paraboloid.
Theorem C109_test_genetic_rastrigin :
  forall (W : Type) np32 np64 (LM : Libm f32) dbg, exact_exp2 LM -> forall q,
    cos_bounded (@fcos f32 LM) -> in_box (cube 30 (decimal32 (-512) 2) (decimal32 512 2)) q -> ordinary q ->
    can_return (ga_main (@test_genetic_rastrigin W np32 np64 LM dbg)) (b_of_Z 15) 3000 q.
Proof. exact @test_rastrigin_can_return. Qed.
Print Assumptions C109_test_genetic_rastrigin.
Theorem C109_test_genetic_schwefel :
  forall (W : Type) np32 np64 (LM : Libm f32) dbg, exact_exp2 LM -> forall q,
    cos_bounded (@fsin f32 LM) -> in_box (int_cube 5 (-500) 500) q -> ordinary q ->
    can_return (ga_main (@test_genetic_schwefel W np32 np64 LM dbg)) (b_of_Z 15) 3000 q.
Proof. exact @test_schwefel_can_return. Qed.
Print Assumptions C109_test_genetic_schwefel.

(** ** The tests can fail *)
Theorem C109_test_genetic_paraboloid_can_fail :
  forall (W : Type) np32 np64 (LM : Libm f32) dbg, exact_exp2 LM -> 
    exists zs, forall fuel rest (w : W), 5000 < fuel -> unlucky (b_of_Z 15) rest -> exists x v p' u' t,
    ga_main (@test_genetic_paraboloid W np32 np64 LM dbg) fuel (prepend zs rest) w = (Ret (Some (x, v), p'), u', t) /\
    genetic_paraboloid_asserts np32 (Some (x, v)) = Panic.
Proof. exact @paraboloid_test_can_fail. Qed.
Print Assumptions C109_test_genetic_paraboloid_can_fail.
Theorem C109_test_genetic_rastrigin_can_fail :
  forall (W : Type) np32 np64 (LM : Libm f32) dbg, exact_exp2 LM -> cos_bounded (@fcos f32 LM) -> 
    exists zs, forall fuel rest (w : W), 3000 < fuel -> unlucky (b_of_Z 15) rest -> exists x v p' u' t,
    ga_main (@test_genetic_rastrigin W np32 np64 LM dbg) fuel (prepend zs rest) w = (Ret (Some (x, v), p'), u', t) /\
    genetic_rastrigin_asserts np32 (Some (x, v)) = Panic.
Proof. exact @rastrigin_test_can_fail. Qed.
Print Assumptions C109_test_genetic_rastrigin_can_fail.
Theorem C109_test_genetic_schwefel_can_fail :
  forall (W : Type) np32 np64 (LM : Libm f32) dbg, exact_exp2 LM -> cos_bounded (@fsin f32 LM) -> 
    exists zs, forall fuel rest (w : W), 3000 < fuel -> unlucky (b_of_Z 15) rest -> exists x v p' u' t,
    ga_main (@test_genetic_schwefel W np32 np64 LM dbg) fuel (prepend zs rest) w = (Ret (Some (x, v), p'), u', t) /\
    genetic_schwefel_asserts np32 (Some (x, v)) = Panic.
Proof. exact @schwefel_test_can_fail. Qed.
Print Assumptions C109_test_genetic_schwefel_can_fail.

(** ** The hypotheses are met *)
Example C109_libm_met : exact_exp2 (full_libm np32_default) /\ cos_bounded (@fcos f32 (full_libm np32_default)) /\
  cos_bounded (@fsin f32 (full_libm np32_default)).
Proof. exact (conj (full_exact_exp2 _) (full_bounded _)). Qed.
Example C109_unlucky_met : unlucky (b_of_Z 15) ninety_nines /\ unlucky (b_of_Z 85) ninety_nines.
Proof. exact ninety_nines_unlucky. Qed.
Example C109_points_met : in_box (int_cube 5 (-100) 100) (repeat (b_of_Z 5) 5) /\ ordinary (repeat (b_of_Z 5) 5) /\
  in_box (cube 30 (decimal32 (-512) 2) (decimal32 512 2)) (repeat (b_of_Z 5) 30) /\ ordinary (repeat (b_of_Z 5) 30) /\
  in_box (int_cube 3 (-2) 2) (repeat (b_of_Z 0) 3) /\ ordinary (repeat (b_of_Z 0) 3) /\
  in_box (int_cube 15 (-500) 500) (repeat (b_of_Z 5) 15) /\ ordinary (repeat (b_of_Z 5) 15).
Proof.
  assert (F : forall d z, (z = 0 \/ z = 5)%Z -> ordinary (repeat (b_of_Z z) d)) by exact far_ok.
  split; [|split; [apply F; auto|split; [|split; [apply F; auto|split; [|split; [apply F; auto|split; [|apply F; auto]]]]]]];
    repeat constructor; vm_compute; reflexivity.
Qed.
(** Such a run: it fails if 99 is drawn for ever. *)
Example C109_failing_run : exists zs, forall fuel, 5000 < fuel -> exists x v p' u' t,
  ga_main (@test_genetic_paraboloid unit np32_default np64_default (full_libm np32_default) true) fuel (prepend zs ninety_nines) tt
    = (Ret (Some (x, v), p'), u', t) /\ genetic_paraboloid_asserts np32_default (Some (x, v)) = Panic.
Proof.
  destruct (C109_test_genetic_paraboloid_can_fail unit np32_default np64_default (full_libm np32_default) true (full_exact_exp2 _)) as [zs H].
  exists zs. intros fuel Hf. exact (H fuel ninety_nines tt Hf (proj1 ninety_nines_unlucky)).
Qed.
