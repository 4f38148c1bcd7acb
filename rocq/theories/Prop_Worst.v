(** * C108: the worst of a full population never gets worse *)

From Coq Require Import List Arith ZArith Bool Lia Reals Lra String.
From Flocq Require Import Core IEEE754.BinarySingleNaN IEEE754.Binary.
From Verif Require Import Base FloatModel Rng GaModel GaComponents StopModel LogModel TestFuncModel ExampleModel
  SpecGa SpecSel SpecBox SpecPossible SpecTest SpecExample SpecWorst
  WorstFacts WorstRuns ExampleAsserts DemoFloats DemoGa DemoTrig DemoExample DemoWorst.
Import ListNotations.
Local Open Scope nat_scope.

Notation parab np32 np64 := (fun x => Ret (@paraboloid f32 (FloatIEEE np32) (ToF64_32 np64) x)).
Notation schwef np32 np64 LM := (fun x => Ret (@schwefel f32 (FloatIEEE np32) LM (ToF64_32 np64) x)).
Notation rastr np32 np64 LM := (fun x => Ret (@rastrigin f32 (FloatIEEE np32) LM (ToF64_32 np64) x)).
Notation rosen np32 np64 := (@rosenbrock f32 (FloatIEEE np32) (ToF64_32 np64)).

(** ** LimitPopulation: if [n] live individuals up to [c] are joined by any number of others, [n] live individuals
    up to [c] remain *)
Theorem C108_limit_population :
  forall (T : Type) n c (old kids : list (individual T)) b w it,
    0 < n -> List.length old = n -> Forall (fun i => alive i = true /\ up_to c i) old ->
    Forall (fun i => alive i = true -> is_finite (fitness i) = true) kids ->
    exists l', limit_population n (Population (old ++ kids) b w it) = Ret l' /\
      List.length (filter alive l') = n /\ Forall (up_to c) (filter alive l').
Proof. exact @limit_keeps. Qed.
Print Assumptions C108_limit_population.

(** ** Runs: any goal, any breeding *)
Theorem C108_next_iterations :
  forall (U T : Type) (cfg : ga_config U T) n c, 0 < n ->
    ga_selections cfg = [fun p => cret (kill_fitness_nan p); fun p => cpure (limit_population n p)] ->
  forall fuel p u o u' t, full n c p -> ga_next_iterations cfg fuel p u = (o, u', t) ->
    (forall q, reported t q -> full n c q) /\
    forall r p', o = Ret (r, p') -> full n c p' /\ forall x v, r = Some (x, v) -> is_finite v = true /\ leb v c = true.
Proof. exact @worst_next. Qed.
Print Assumptions C108_next_iterations.
Theorem C108_find_min :
  forall (U T : Type) (cfg : ga_config U T) n c, 0 < n ->
    ga_selections cfg = [fun p => cret (kill_fitness_nan p); fun p => cpure (limit_population n p)] ->
  forall fuel p u o u' t,
    (forall xs u1, ga_creator cfg u = (Ret xs, u1) -> List.length xs = n /\
       Forall (fun x => forall u v u', ga_goal cfg x u = (Ret v, u') -> is_finite v = true /\ leb v c = true) xs) ->
    ga_find_min cfg fuel p u = (o, u', t) ->
    (forall q, reported t q -> full n c q) /\
    forall r p', o = Ret (r, p') -> full n c p' /\ forall x v, r = Some (x, v) -> is_finite v = true /\ leb v c = true.
Proof. exact @worst_find. Qed.
Print Assumptions C108_find_min.
(** With a function as the goal: the result is no worse than the worst of the first points. *)
Theorem C108_result :
  forall (U T : Type) (cfg : ga_config U T) (f : T -> outcome f64) n, 0 < n ->
    ga_selections cfg = [fun p => cret (kill_fitness_nan p); fun p => cpure (limit_population n p)] ->
    ga_goal cfg = (fun x => cpure (f x)) ->
  forall fuel p u x v p' u' t xs u1, ga_creator cfg u = (Ret xs, u1) -> List.length xs = n ->
    Forall (fun x => exists v, f x = Ret v /\ is_finite v = true) xs ->
    ga_find_min cfg fuel p u = (Ret (Some (x, v), p'), u', t) -> no_worse_than_worst f xs v.
Proof. exact @find_no_worse. Qed.
Print Assumptions C108_result.
Example C108_runs_met :
  (ga_creator pair_run 0 = (Ret [5; 3]%Z, 0) /\
   Forall (fun x => forall u v u', ga_goal pair_run x u = (Ret v, u') -> is_finite v = true /\ leb v (fl 10) = true) [5; 3]%Z) /\
  full 2 (fl 10) (Population [Individual 5%Z (fl 10) true; Individual 3%Z (fl 6) true] None None 0) /\
  found_at pair_run = Some 1%Z.
Proof. exact (conj pair_first (conj pair_full pair_found)). Qed.
(** The best can still be lost (C09): the point 1 was evaluated, the result is 4, which is better than the first point 5. *)
Example C108_best_lost : found_at lose_more = Some 4%Z.
Proof. exact lose_more_found. Qed.

(** ** The genetic programs: the result is no worse than the worst of the first points, and for every point of the box
    there are first draws after which the result is no worse than this point *)
Theorem C108_genetic_paraboloid :
  forall (W : Type) np32 np64 (LM : Libm f32) dbg (write : string -> comp W bool) (now : comp W Z) fmt, 
    improves (ga_main (@genetic_paraboloid W write now fmt np32 np64 LM dbg)) (parab np32 np64) 200 (int_cube 5 (-100) 100).
Proof. exact @genetic_paraboloid_improves. Qed.
Print Assumptions C108_genetic_paraboloid.
Theorem C108_genetic_rastrigin :
  forall (W : Type) np32 np64 (LM : Libm f32) dbg (write : string -> comp W bool) (now : comp W Z) fmt, cos_bounded (@fcos f32 LM) -> 
    improves (ga_main (@genetic_rastrigin W write now fmt np32 np64 LM dbg)) (rastr np32 np64 LM) 20 (cube 30 (decimal32 (-512) 2) (decimal32 512 2)).
Proof. exact @genetic_rastrigin_improves. Qed.
Print Assumptions C108_genetic_rastrigin.
Theorem C108_genetic_rosenbrock :
  forall (W : Type) np32 np64 (LM : Libm f32) dbg (write : string -> comp W bool) (now : comp W Z) fmt, 
    improves (ga_main (@genetic_rosenbrock W write now fmt np32 np64 LM dbg)) (rosen np32 np64) 600 (int_cube 3 (-2) 2).
Proof. exact @genetic_rosenbrock_improves. Qed.
Print Assumptions C108_genetic_rosenbrock.
Theorem C108_genetic_schwefel :
  forall (W : Type) np32 np64 (LM : Libm f32) dbg (write : string -> comp W bool) (now : comp W Z) fmt, cos_bounded (@fsin f32 LM) -> 
    improves (ga_main (@genetic_schwefel W write now fmt np32 np64 LM dbg)) (schwef np32 np64 LM) 500 (int_cube 15 (-500) 500).
Proof. exact @genetic_schwefel_improves. Qed.
Print Assumptions C108_genetic_schwefel.
Theorem C108_test_genetic_paraboloid :
  forall (W : Type) np32 np64 (LM : Libm f32) dbg, 
    improves (ga_main (@test_genetic_paraboloid W np32 np64 LM dbg)) (parab np32 np64) 800 (int_cube 5 (-100) 100).
Proof. exact @test_genetic_paraboloid_improves. Qed.
Print Assumptions C108_test_genetic_paraboloid.
Theorem C108_test_genetic_rastrigin :
  forall (W : Type) np32 np64 (LM : Libm f32) dbg, cos_bounded (@fcos f32 LM) -> 
    improves (ga_main (@test_genetic_rastrigin W np32 np64 LM dbg)) (rastr np32 np64 LM) 20 (cube 30 (decimal32 (-512) 2) (decimal32 512 2)).
Proof. exact @test_genetic_rastrigin_improves. Qed.
Print Assumptions C108_test_genetic_rastrigin.
Theorem C108_test_genetic_schwefel :
  forall (W : Type) np32 np64 (LM : Libm f32) dbg, cos_bounded (@fsin f32 LM) -> 
    improves (ga_main (@test_genetic_schwefel W np32 np64 LM dbg)) (schwef np32 np64 LM) 800 (int_cube 5 (-500) 500).
Proof. exact @test_genetic_schwefel_improves. Qed.
Print Assumptions C108_test_genetic_schwefel.

(** ** Two tests pass for some first draws, whatever is drawn later *)
Theorem C108_test_genetic_paraboloid_can_pass :
  forall (W : Type) np32 np64 (LM : Libm f32) dbg, exists zs, forall fuel rest (w : W), 5000 < fuel -> exists x v p' u' t,
    ga_main (@test_genetic_paraboloid W np32 np64 LM dbg) fuel (prepend zs rest) w = (Ret (Some (x, v), p'), u', t) /\
    genetic_paraboloid_asserts np32 (Some (x, v)) = Ret tt.
Proof. exact @genetic_test_can_pass. Qed.
Print Assumptions C108_test_genetic_paraboloid_can_pass.
Theorem C108_test_genetic_rastrigin_can_pass :
  forall (W : Type) np32 np64 (LM : Libm f32) dbg,
    cos_bounded (@fcos f32 LM) -> cos_near (@fcos f32 LM) -> cos_zero (@fcos f32 LM) ->
    exists zs, forall fuel rest (w : W), 3000 < fuel -> exists x v p' u' t,
    ga_main (@test_genetic_rastrigin W np32 np64 LM dbg) fuel (prepend zs rest) w = (Ret (Some (x, v), p'), u', t) /\
    genetic_rastrigin_asserts np32 (Some (x, v)) = Ret tt.
Proof. exact @rastrigin_test_can_pass. Qed.
Print Assumptions C108_test_genetic_rastrigin_can_pass.

(** ** The hypotheses are met *)
Example C108_trig_met : cos_bounded (@fcos f32 (fine_libm np32_default)) /\ cos_near (@fcos f32 (fine_libm np32_default)) /\
  cos_zero (@fcos f32 (fine_libm np32_default)) /\ cos_bounded (@fsin f32 (fine_libm np32_default)).
Proof.
  destruct (fine_bounded np32_default) as (A & B & C). exact (conj A (conj B (conj (fine_zero np32_default) C))).
Qed.
Example C108_points_met :
  in_box (int_cube 5 (-100) 100) (map b_of_Z [1; 2; 3; 4; 5]%Z) /\
  in_box (cube 30 (decimal32 (-512) 2) (decimal32 512 2)) (repeat (b_of_Z 0) 30) /\
  in_box (int_cube 3 (-2) 2) (map b_of_Z [1; 1; 1]%Z) /\
  in_box (int_cube 5 (-500) 500) (repeat (b_of_Z 421) 5).
Proof. repeat split; repeat constructor; vm_compute; reflexivity. Qed.
(** Such a run. *)
Example C108_program_met : exists zs, forall fuel rest, 5000 < fuel -> exists x v p' u' t,
  ga_main (@test_genetic_paraboloid unit np32_default np64_default (fine_libm np32_default) true) fuel (prepend zs rest) tt = (Ret (Some (x, v), p'), u', t) /\
  exists xs, started_from t xs /\ List.length xs = 800 /\ no_worse_than_worst (parab np32_default np64_default) xs v.
Proof.
  destruct (C108_test_genetic_paraboloid_can_pass unit np32_default np64_default (fine_libm np32_default) true) as [zs H].
  exists zs. intros fuel rest Hf. destruct (H fuel rest tt Hf) as (x & v & p' & u' & t & E & _). exists x, v, p', u', t. split; [exact E|].
  destruct (proj1 (C108_test_genetic_paraboloid unit np32_default np64_default (fine_libm np32_default) true) _ _ _ _ _ _ _ _ E) as (xs & A & B & _ & D).
  exists xs. auto.
Qed.
