(** * The unit tests inside the modules of optlib

    Every test function of creation/vec_float.rs, tools/mod.rs, postmove/mod.rs,
    postvelocitycalc/mod.rs, particleswarm/mod.rs and statistics/mod.rs, statement by
    statement.  A test is a program that returns, or panics at a failed assertion.
    Simplification: several [assert!]s in a row are a list of conditions. *)

From Coq Require Import List Arith ZArith Bool String.
From Flocq Require IEEE754.Binary.
From Verif Require Import Base FloatModel Rng GaModel GaComponents PsoModel PsoComponents StatModel.
Import ListNotations.

(** [assert!(b1); assert!(b2); ...] *)
Definition asserts (conditions : list bool) : outcome unit := ofold (fun _ b => oassert b) conditions tt.

(** [==] of the standard library on floats, vectors, options and pairs. *)
Definition eq_float {prec emax} (x y : bfloat prec emax) : bool :=
  match partial_cmp x y with Some Eq => true | _ => false end.
Fixpoint eq_vec {A} (eq : A -> A -> bool) (v w : list A) : bool :=
  match v, w with
  | [], [] => true
  | x :: v, y :: w => eq x y && eq_vec eq v w
  | _, _ => false
  end.
Definition eq_opt {A} (eq : A -> A -> bool) (o p : option A) : bool :=
  match o, p with Some x, Some y => eq x y | None, None => true | _, _ => false end.
Definition eq_pair {A B} (eqa : A -> A -> bool) (eqb : B -> B -> bool) (p q : A * B) : bool :=
  eqa (fst p) (fst q) && eqb (snd p) (snd q).
Definition eq_ordering (c d : comparison) : bool :=
  match c, d with Lt, Lt | Eq, Eq | Gt, Gt => true | _, _ => false end.

Definition i32 (n : Z) : f32 := b_of_Z n.
Definition i64 (n : Z) : f64 := b_of_Z n.

Section UnitTests.
  Variables (np32 : nan_policy 24 128) (np64 : nan_policy 53 1024).
  #[local] Instance Float32 : FloatTrait f32 := FloatIEEE np32.
  (** The literal m * 10^-e: correctly rounded, both numbers being exact. *)
  Definition lit32 (m e : Z) : f32 := b_div np32 (b_of_Z m) (b_of_Z (10 ^ e)).
  Definition lit64 (m e : Z) : f64 := b_div np64 (b_of_Z m) (b_of_Z (10 ^ e)).
  (** [(x - y).abs() < d] *)
  Definition near32 (x y d : f32) : bool := ltb (b_abs (b_sub np32 x y)) d.
  Definition near64 (x y d : f64) : bool := ltb (b_abs (b_sub np64 x y)) d.

  (** ** particleswarm/mod.rs *)

  (** (particleswarm/mod.rs:448-460); [nan] stands for f64::NAN. *)
  Definition test_compare_floats : outcome unit :=
    let inf := Binary.B754_infinity false in
    let nan := proj1_sig (np_const np64) in
    asserts [eq_ordering (compare_floats inf inf) Eq;
             eq_ordering (compare_floats nan nan) Eq;
             eq_ordering (compare_floats (i64 1) nan) Lt;
             eq_ordering (compare_floats nan (i64 1)) Gt;
             eq_ordering (compare_floats (i64 2) (i64 1)) Gt;
             eq_ordering (compare_floats (i64 2) (i64 3)) Lt;
             eq_ordering (compare_floats (i64 3) (i64 3)) Eq].
  (** (particleswarm/mod.rs:462-475) *)
  Definition test_particle_new : outcome unit :=
    let coords := [i32 1; i32 2] in
    let vel := [i32 11; i32 12] in
    let v := i64 21 in
    let p := particle_new coords vel v in
    asserts [eq_vec eq_float (coordinates p) coords; eq_vec eq_float (velocity p) vel;
             eq_float (value p) v; eq_vec eq_float (best_personal_coordinates p) coords;
             eq_float (best_personal_value p) v].
  (** (particleswarm/mod.rs:477-492) *)
  Definition test_particle_move_to_better : outcome unit :=
    let p := particle_new [i32 1; i32 2] [i32 11; i32 12] (i64 21) in
    let new_coordinates := [i32 1; i32 2] in
    let new_value := i64 10 in
    let p := move_to p new_coordinates new_value in
    asserts [eq_vec eq_float (coordinates p) new_coordinates;
             eq_vec eq_float (best_personal_coordinates p) new_coordinates;
             eq_float (best_personal_value p) new_value].
  (** (particleswarm/mod.rs:494-509) *)
  Definition test_particle_move_to_worse : outcome unit :=
    let coords := [i32 1; i32 2] in
    let v := i64 20 in
    let p := particle_new coords [i32 11; i32 12] v in
    let new_coordinates := [i32 1; i32 2] in
    let p := move_to p new_coordinates (i64 40) in
    asserts [eq_vec eq_float (coordinates p) new_coordinates;
             eq_vec eq_float (best_personal_coordinates p) coords;
             eq_float (best_personal_value p) v].
  (** (particleswarm/mod.rs:511-515) *)
  Definition test_find_best_particle_empty : outcome unit :=
    let! best := @find_best_particle f32 [] in
    asserts [match best with None => true | Some _ => false end].
  (** (particleswarm/mod.rs:517-526) *)
  Definition test_find_best_particle_single : outcome unit :=
    let! best := find_best_particle [particle_new [i32 1; i32 2] [i32 10; i32 20] (i64 100)] in
    asserts [match best with None => false | Some _ => true end].
  (** (particleswarm/mod.rs:528-546) *)
  Definition test_find_best_particle_many_01 : outcome unit :=
    let! best := find_best_particle
      [particle_new [i32 1; i32 2] [i32 10; i32 20] (i64 100); particle_new [i32 3; i32 4] [i32 10; i32 20] (i64 50)] in
    let! p := unwrap best in
    asserts [eq_float (value p) (i64 50)].
  Definition test_find_best_particle_many_02 : outcome unit :=
    let! best := find_best_particle
      [particle_new [i32 3; i32 4] [i32 10; i32 20] (i64 50); particle_new [i32 1; i32 2] [i32 10; i32 20] (i64 100)] in
    let! p := unwrap best in
    asserts [eq_float (value p) (i64 50)].

  (** ** postmove/mod.rs (postmove/mod.rs:92-149) *)
  Definition test_postmove_empty : outcome unit :=
    let! _ := move_to_boundary [] ([] : list f32) in Ret tt.
  Definition test_postmove_inside_interval : outcome unit :=
    let! x := move_to_boundary [(i32 0, i32 1)] [lit32 6 1] in
    let! x0 := index x 0 in asserts [near32 x0 (lit32 6 1) (lit32 1 6)].
  Definition test_postmove_min : outcome unit :=
    let! x := move_to_boundary [(i32 0, i32 1)] [i32 (-1)] in
    let! x0 := index x 0 in asserts [ltb (b_abs x0) (lit32 1 6)].
  Definition test_postmove_max : outcome unit :=
    let! x := move_to_boundary [(i32 0, i32 1)] [i32 3] in
    let! x0 := index x 0 in asserts [near32 x0 (i32 1) (lit32 1 6)].
  Definition test_postmove_mix : outcome unit :=
    let! x := move_to_boundary [(i32 0, i32 1); (i32 1, i32 3); (i32 5, i32 10)] [i32 (-3); i32 4; i32 6] in
    let! x0 := index x 0 in
    let! x1 := index x 1 in
    let! x2 := index x 2 in
    asserts [near32 x0 (i32 0) (lit32 1 6); near32 x1 (i32 3) (lit32 1 6); near32 x2 (i32 6) (lit32 1 6)].

  (** ** postvelocitycalc/mod.rs (postvelocitycalc/mod.rs:71-147) *)
  Definition test_max_velocity_dimensions_empty : outcome unit :=
    let! v := max_velocity_dimensions [] ([] : list f32) in asserts [eq_vec eq_float v []].
  (** should panic (82-90) *)
  Definition test_max_velocity_invalid_size : outcome unit :=
    let! _ := max_velocity_dimensions [i32 2] [] in Ret tt.
  Definition test_max_velocity_dimensions_not_change : outcome unit :=
    let vel := [i32 5; i32 (-5)] in
    let! v := max_velocity_dimensions [i32 10; i32 10] vel in asserts [eq_vec eq_float v vel].
  Definition test_max_velocity_dimensions_fix : outcome unit :=
    let! v := max_velocity_dimensions [i32 10; i32 10; i32 10] [i32 15; i32 (-15); i32 5] in
    asserts [eq_vec eq_float v [i32 10; i32 (-10); i32 5]].
  Definition test_max_velocity_abs_empty : outcome unit :=
    asserts [eq_vec eq_float (max_velocity_abs (i32 10) []) []].
  Definition test_max_velocity_abs_not_change : outcome unit :=
    let vel := [i32 5; i32 (-5)] in
    asserts [eq_vec eq_float (max_velocity_abs (i32 10) vel) vel].
  Definition test_max_velocity_abs_change : outcome unit :=
    let v := max_velocity_abs (i32 10) [i32 15; i32 (-15)] in
    let! v0 := index v 0 in
    let! v1 := index v 1 in
    asserts [near32 (b_sqrt np32 (b_add np32 (b_mul np32 v0 v0) (b_mul np32 v1 v1))) (i32 10) (lit32 1 3)].

  (** ** creation/vec_float.rs (creation/vec_float.rs:72-141) *)
  Notation new64 := (@random_creator_new f64 NumGene64).
  Notation create64 := (@random_create f64 NumGene64 np64).
  Definition test_population_size : comp rng unit :=
    do creator <- cpure (new64 10 [(i64 0, i64 1)]) ;;
    do cs <- create64 creator ;;
    cpure (asserts [List.length cs =? 10]).
  (** The six assertions on a vector (creation/vec_float.rs:89-98, tools/mod.rs:61-68). *)
  Definition three_intervals : list (f64 * f64) := [(i64 0, i64 1); (i64 (-1), i64 1); (i64 100, i64 110)].
  Definition assert_three (x : list f64) : outcome unit :=
    let! x0 := index x 0 in
    let! x1 := index x 1 in
    let! x2 := index x 2 in
    asserts [leb (i64 0) x0; leb x0 (i64 1); leb (i64 (-1)) x1; leb x1 (i64 1);
             leb (i64 100) x2; leb x2 (i64 110)].
  Definition test_creator_intervals : comp rng unit :=
    do creator <- cpure (new64 1000 three_intervals) ;;
    do cs <- create64 creator ;;
    cpure (ofold (fun _ x => assert_three x) cs tt).
  (** should panic (creation/vec_float.rs:101-140) *)
  Definition creator_empty_population : outcome unit := let! _ := new64 0 [(i64 0, i64 1)] in Ret tt.
  Definition creator_empty_intervals : outcome unit := let! _ := new64 10 [] in Ret tt.
  Definition creator_invalid_intervals_01 : outcome unit := let! _ := new64 10 [(i64 1, i64 0)] in Ret tt.
  Definition creator_invalid_intervals_02 : outcome unit := let! _ := new64 10 [(i64 0, i64 0)] in Ret tt.
  Definition creator_invalid_intervals_03 : outcome unit :=
    let! _ := new64 10 [(i64 0, i64 1); (i64 10, i64 0)] in Ret tt.

  (** ** tools/mod.rs (tools/mod.rs:44-97) *)
  Notation vec64 := (@create_vec f64 NumGene64 np64).
  Definition test_vector_empty : comp rng unit :=
    do x <- vec64 [] ;; cpure (asserts [List.length x =? 0]).
  Definition test_vector_intervals : comp rng unit :=
    do _ <- creplicate 1000 (do x <- vec64 three_intervals ;; cpure (assert_three x)) ;; cret tt.
  (** should panic (tools/mod.rs:72-96) *)
  Definition vector_invalid_intervals_01 : comp rng unit := do _ <- vec64 [(i64 1, i64 0)] ;; cret tt.
  Definition vector_invalid_intervals_02 : comp rng unit := do _ <- vec64 [(i64 0, i64 0)] ;; cret tt.
  Definition vector_invalid_intervals_03 : comp rng unit :=
    do _ <- vec64 [(i64 0, i64 1); (i64 10, i64 0)] ;; cret tt.

  (** ** statistics/mod.rs *)
  Definition some32 (x v : Z) : option (f32 * f64) := Some (i32 x, i64 v).
  Definition somev (xs : list Z) (v : Z) : option (list f32 * f64) := Some (map i32 xs, i64 v).

  (** get_min_iterations_* (statistics/mod.rs:428-478) *)
  Definition min_iterations_is (c : list (list (option (f32 * f64)))) (n : nat) : outcome unit :=
    let! k := get_min_iterations c in asserts [k =? n].
  Definition get_min_iterations_empty := min_iterations_is [] 0.
  Definition get_min_iterations_single_01 := min_iterations_is [[some32 1 0]] 1.
  Definition get_min_iterations_single_02 := min_iterations_is [[some32 1 0; some32 1 0; some32 1 0]] 3.
  Definition get_min_iterations_several_01 :=
    min_iterations_is [[some32 1 0; some32 1 0; some32 1 0]; [some32 1 0]] 1.
  Definition get_min_iterations_several_02 := min_iterations_is [[some32 1 0; some32 1 0; some32 1 0]; []] 0.

  (** get_average_convergence_* (statistics/mod.rs:480-553) *)
  Definition average_convergence_is (c : list (list (option (f32 * f64)))) (r : list (option f64)) : outcome unit :=
    let! a := get_average_convergence np64 c in asserts [eq_vec (eq_opt eq_float) a r].
  Definition get_average_convergence_empty := average_convergence_is [] [].
  Definition get_average_convergence_single_01 :=
    average_convergence_is [[some32 3 30; some32 2 20; some32 1 10]] [Some (i64 30); Some (i64 20); Some (i64 10)].
  Definition get_average_convergence_single_02 :=
    average_convergence_is [[some32 3 30; None; some32 1 10]] [Some (i64 30); None; Some (i64 10)].
  Definition get_average_convergence_several_01 :=
    average_convergence_is [[some32 3 30; some32 2 20; some32 1 10]; [some32 3 50; some32 2 40; some32 1 30]]
      [Some (i64 40); Some (i64 30); Some (i64 20)].
  Definition get_average_convergence_several_02 :=
    average_convergence_is [[some32 3 30; None; some32 1 10]; [some32 3 50; some32 2 40; some32 1 30]]
      [Some (i64 40); Some (i64 40); Some (i64 20)].
  Definition get_average_convergence_several_03 :=
    average_convergence_is [[some32 3 30; None; some32 1 10]; [some32 3 50; None; some32 1 30]]
      [Some (i64 40); None; Some (i64 20)].

  (** get_average_goal_* (statistics/mod.rs:555-578) *)
  Definition average_goal_is (l : list (option (f32 * f64))) (r : option f64) : outcome unit :=
    asserts [eq_opt eq_float (get_average_goal np64 l) r].
  Definition get_average_goal_empty := average_goal_is [] None.
  Definition get_average_goal_none_only := average_goal_is [None] None.
  Definition get_average_goal_single := average_goal_is [some32 1 10] (Some (i64 10)).
  Definition get_average_goal_several := average_goal_is [some32 1 10; some32 2 30] (Some (i64 20)).

  (** get_standard_deviation_goal_* (statistics/mod.rs:580-612) *)
  Definition deviation_goal_is (l : list (option (f32 * f64))) (r : option f64) : outcome unit :=
    asserts [eq_opt eq_float (get_standard_deviation_goal np64 l) r].
  Definition get_standard_deviation_goal_empty := deviation_goal_is [] None.
  Definition get_standard_deviation_goal_single := deviation_goal_is [some32 1 10] None.
  Definition get_standard_deviation_goal_none_only := deviation_goal_is (repeat None 10) None.
  Definition get_standard_deviation_goal_equal : outcome unit :=
    let! d := unwrap (get_standard_deviation_goal np64 (repeat (some32 1 10) 2)) in
    asserts [ltb (b_abs d) (lit64 1 6)].
  Definition get_standard_deviation_goal_several : outcome unit :=
    let! d := unwrap (get_standard_deviation_goal np64 [some32 1 1; some32 2 2; some32 3 3]) in
    asserts [near64 d (i64 1) (lit64 1 6)].

  (** get_average_vec_float_* (statistics/mod.rs:614-672) *)
  Definition average_is (l : list (option (list f32 * f64))) (r : option (list f32 * f64)) : outcome unit :=
    let! a := get_average np64 l in asserts [eq_opt (eq_pair (eq_vec eq_float) eq_float) a r].
  Definition get_average_vec_float_empty := average_is [] None.
  Definition get_average_vec_float_none_only := average_is [None] None.
  Definition get_average_vec_float_single := average_is [somev [1%Z] 10] (somev [1%Z] 10).
  Definition get_average_vec_float_several_01 := average_is [somev [1%Z] 10; somev [3%Z] 30] (somev [2%Z] 20).
  Definition get_average_vec_float_several_02 := average_is [None; somev [1%Z] 10; somev [3%Z] 30] (somev [2%Z] 20).
  Definition get_average_vec_float_several_03 := average_is [somev [1%Z] 10; None; somev [3%Z] 30] (somev [2%Z] 20).
  Definition get_average_vec_float_several_04 :=
    average_is [somev [1%Z; 2%Z] 10; None; somev [3%Z; 4%Z] 30] (somev [2%Z; 3%Z] 20).

  (** get_standard_deviation_vec_float_*, get_standard_deviation_goal_several_0*
      (statistics/mod.rs:674-726) *)
  Definition deviation_is (l : list (option (list f32 * f64))) (r : option (list f32 * f64)) : outcome unit :=
    let! d := get_standard_deviation np64 l in asserts [eq_opt (eq_pair (eq_vec eq_float) eq_float) d r].
  Definition get_standard_deviation_vec_float_empty := deviation_is [] None.
  Definition get_standard_deviation_vec_float_single := deviation_is [somev [1%Z] 10] None.
  Definition get_standard_deviation_vec_float_none_only := deviation_is (repeat None 10) None.
  Definition get_standard_deviation_vec_float_equal : outcome unit :=
    let! o := get_standard_deviation np64 (repeat (somev [1%Z] 10) 2) in
    let! d := unwrap o in
    let! d0 := index (fst d) 0 in
    asserts [ltb (b_abs d0) (lit32 1 6); ltb (b_abs (snd d)) (lit64 1 6)].
  Definition get_standard_deviation_goal_several_01 : outcome unit :=
    let! o := get_standard_deviation np64 [somev [10%Z] 1; somev [11%Z] 2; somev [12%Z] 3] in
    let! d := unwrap o in
    let! d0 := index (fst d) 0 in
    asserts [near32 d0 (i32 1) (lit32 1 6); near64 (snd d) (i64 1) (lit64 1 6)].
  Definition get_standard_deviation_goal_several_02 : outcome unit :=
    let! o := get_standard_deviation np64 [somev [10%Z; 10%Z] 1; somev [11%Z; 20%Z] 2; somev [12%Z; 30%Z] 3] in
    let! d := unwrap o in
    let! d0 := index (fst d) 0 in
    let! d1 := index (fst d) 1 in
    asserts [near32 d0 (i32 1) (lit32 1 6); near32 d1 (i32 10) (lit32 1 6); near64 (snd d) (i64 1) (lit64 1 6)].

  (** get_success_rate_goal_* (statistics/mod.rs:728-809) *)
  Definition one_goal : list f32 * f64 -> bool := predicate_success_goal np64 (i64 1) (lit64 1 2).
  Definition rate_is (l : list (option (list f32 * f64))) (r : f64) : outcome unit :=
    let! rate := unwrap (get_success_rate np64 one_goal l) in
    asserts [near64 rate r (lit64 1 5)].
  Definition get_success_rate_goal_empty : outcome unit :=
    asserts [eq_opt eq_float (get_success_rate np64 one_goal []) None].
  Definition get_success_rate_goal_none := rate_is [None] (i64 0).
  Definition get_success_rate_goal_none_many := rate_is (repeat None 5) (i64 0).
  Definition get_success_rate_goal_full_success_fail := rate_is [somev [10%Z] 10] (i64 0).
  Definition get_success_rate_goal_full_success_01 := rate_is [somev [10%Z] 1] (i64 1).
  Definition get_success_rate_goal_full_success_02 := rate_is [Some ([i32 10], lit64 100999 5)] (i64 1).
  Definition get_success_rate_goal_full_success_half := rate_is [somev [10%Z] 1; somev [11%Z] 10] (lit64 5 1).
  Definition get_success_rate_goal_full_success_two_of_three_01 :=
    rate_is [somev [10%Z] 10; somev [11%Z] 1; Some ([i32 12], lit64 100001 5)] (lit64 66666 5).
  Definition get_success_rate_goal_full_success_two_of_three_02 :=
    rate_is [None; somev [11%Z] 1; Some ([i32 12], lit64 100001 5)] (lit64 66666 5).

  (** get_success_rate_vec_solution_* (statistics/mod.rs:811-852) *)
  Definition vec_rate_is (expected delta : list f32) (l : list (option (list f32 * f64))) (r : f64) : outcome unit :=
    let! ed := predicate_success_vec_new expected delta in
    let! rate := unwrap (get_success_rate np64 (predicate_success_vec ed) l) in
    asserts [near64 rate r (lit64 1 5)].
  Definition get_success_rate_vec_solution_success_single :=
    vec_rate_is [i32 1] [lit32 1 1] [Some ([lit32 105 2], i64 0)] (i64 1).
  Definition get_success_rate_vec_solution_fail_single :=
    vec_rate_is [i32 1] [lit32 1 1] [Some ([lit32 12 1], i64 0)] (i64 0).
  Definition get_success_rate_vec_solution_half_01 :=
    vec_rate_is [i32 1] [lit32 1 1] [Some ([lit32 101 2], i64 0); None] (lit64 5 1).
  Definition get_success_rate_vec_solution_half_02 :=
    vec_rate_is [i32 0; i32 1] [lit32 1 1; lit32 1 1]
      [Some ([lit32 1 2; lit32 101 2], i64 0); Some ([lit32 1 2; lit32 12 1], i64 0)] (lit64 5 1).

  (** call_count_data_average_* (statistics/mod.rs:854-900): the last assertion lacks [abs]. *)
  Definition call_counts_are (d : call_count_data) (counts : list nat) (average : Z) : outcome unit :=
    let! _ := asserts [eq_vec Nat.eqb d counts] in
    let! a := unwrap (get_average_call_count np64 d) in
    asserts [ltb (b_sub np64 a (i64 average)) (lit64 1 5)].
  Definition call_count_data_average_empty : outcome unit :=
    asserts [eq_vec Nat.eqb ccd_new []; eq_opt eq_float (get_average_call_count np64 ccd_new) None].
  Definition call_count_data_average_single_zero := call_counts_are (next_run ccd_new) [0] 0.
  Definition call_count_data_average_single_one : outcome unit :=
    let! d := increment (next_run ccd_new) in call_counts_are d [1] 1.
  Definition call_count_data_average_single_two : outcome unit :=
    let! d := ccd_add 5 (next_run ccd_new) in call_counts_are d [5] 5.
  Definition call_count_data_average_several : outcome unit :=
    let! d := ccd_add 5 (next_run ccd_new) in
    let! d := ccd_add 7 (next_run d) in
    call_counts_are d [5; 7] 6.

  (** *_unite_* (statistics/mod.rs:902-1059) *)
  Definition eq_solution : option (f32 * f64) -> option (f32 * f64) -> bool := eq_opt (eq_pair eq_float eq_float).
  Definition results_are (st : statistics f32) l := asserts [eq_vec eq_solution (results st) l].
  Definition convergence_is (st : statistics f32) c := asserts [eq_vec (eq_vec eq_solution) (convergence st) c].
  Definition push_result (o : option (f32 * f64)) (st : statistics f32) : statistics f32 :=
    Statistics (results st ++ [o]) (convergence st).
  Definition push_convergence (o : list (option (f32 * f64))) (st : statistics f32) : statistics f32 :=
    Statistics (results st) (convergence st ++ [o]).
  Definition statistics_convergence_unite_empty : outcome unit :=
    let st := unite statistics_new statistics_new in
    let! _ := results_are st [] in convergence_is st [].
  Definition statistics_unite_results_01 :=
    results_are (unite (push_result (some32 1 0) statistics_new) statistics_new) [some32 1 0].
  Definition statistics_unite_results_02 :=
    results_are (unite statistics_new (push_result (some32 1 0) statistics_new)) [some32 1 0].
  Definition statistics_unite_results_03 :=
    results_are (unite (push_result (some32 1 0) statistics_new) (push_result (some32 2 1) statistics_new))
      [some32 1 0; some32 2 1].
  Definition convergence_unite_01 :=
    convergence_is (unite (push_convergence [some32 1 0; some32 2 1] statistics_new) statistics_new)
      [[some32 1 0; some32 2 1]].
  Definition convergence_unite_02 :=
    convergence_is (unite statistics_new (push_convergence [some32 1 0; some32 2 1] statistics_new))
      [[some32 1 0; some32 2 1]].
  Definition convergence_unite_04 :=
    convergence_is (unite (push_convergence [some32 1 0; some32 2 1] statistics_new)
                          (push_convergence [some32 10 10; some32 20 2] statistics_new))
      [[some32 1 0; some32 2 1]; [some32 10 10; some32 20 2]].
  Definition counts_are (d : call_count_data) l := asserts [eq_vec Nat.eqb d l].
  Definition call_count_data_unite_empty := counts_are (ccd_unite ccd_new ccd_new) [].
  Definition call_count_data_unite_01 := counts_are (ccd_unite (ccd_new ++ [100]) ccd_new) [100].
  Definition call_count_data_unite_02 := counts_are (ccd_unite ccd_new (ccd_new ++ [100])) [100].
  Definition call_count_data_unite_03 := counts_are (ccd_unite (ccd_new ++ [100]) (ccd_new ++ [200])) [100; 200].

  (** ** The test suite: name, program, [should_panic] *)
  Definition plain_tests : list (string * bool * outcome unit) :=
    [("test_compare_floats", false, test_compare_floats);
     ("test_particle_new", false, test_particle_new);
     ("test_particle_move_to_better", false, test_particle_move_to_better);
     ("test_particle_move_to_worse", false, test_particle_move_to_worse);
     ("test_find_best_particle_empty", false, test_find_best_particle_empty);
     ("test_find_best_particle_single", false, test_find_best_particle_single);
     ("test_find_best_particle_many_01", false, test_find_best_particle_many_01);
     ("test_find_best_particle_many_02", false, test_find_best_particle_many_02);
     ("postmove::test_empty", false, test_postmove_empty);
     ("test_inside_interval", false, test_postmove_inside_interval);
     ("test_min", false, test_postmove_min);
     ("test_max", false, test_postmove_max);
     ("test_mix", false, test_postmove_mix);
     ("test_max_velocity_dimensions_empty", false, test_max_velocity_dimensions_empty);
     ("test_max_velocity_invalid_size", true, test_max_velocity_invalid_size);
     ("test_max_velocity_dimensions_not_change", false, test_max_velocity_dimensions_not_change);
     ("test_max_velocity_dimensions_fix", false, test_max_velocity_dimensions_fix);
     ("test_max_velocity_abs_empty", false, test_max_velocity_abs_empty);
     ("test_max_velocity_abs_not_change", false, test_max_velocity_abs_not_change);
     ("test_max_velocity_abs_change", false, test_max_velocity_abs_change);
     ("empty_population", true, creator_empty_population);
     ("empty_intervals", true, creator_empty_intervals);
     ("invalid_intervals_01", true, creator_invalid_intervals_01);
     ("invalid_intervals_02", true, creator_invalid_intervals_02);
     ("invalid_intervals_03", true, creator_invalid_intervals_03);
     ("get_min_iterations_empty", false, get_min_iterations_empty);
     ("get_min_iterations_single_01", false, get_min_iterations_single_01);
     ("get_min_iterations_single_02", false, get_min_iterations_single_02);
     ("get_min_iterations_several_01", false, get_min_iterations_several_01);
     ("get_min_iterations_several_02", false, get_min_iterations_several_02);
     ("get_average_convergence_empty", false, get_average_convergence_empty);
     ("get_average_convergence_single_01", false, get_average_convergence_single_01);
     ("get_average_convergence_single_02", false, get_average_convergence_single_02);
     ("get_average_convergence_several_01", false, get_average_convergence_several_01);
     ("get_average_convergence_several_02", false, get_average_convergence_several_02);
     ("get_average_convergence_several_03", false, get_average_convergence_several_03);
     ("get_average_goal_empty", false, get_average_goal_empty);
     ("get_average_goal_none_only", false, get_average_goal_none_only);
     ("get_average_goal_single", false, get_average_goal_single);
     ("get_average_goal_several", false, get_average_goal_several);
     ("get_standard_deviation_goal_empty", false, get_standard_deviation_goal_empty);
     ("get_standard_deviation_goal_single", false, get_standard_deviation_goal_single);
     ("get_standard_deviation_goal_none_only", false, get_standard_deviation_goal_none_only);
     ("get_standard_deviation_goal_equal", false, get_standard_deviation_goal_equal);
     ("get_standard_deviation_goal_several", false, get_standard_deviation_goal_several);
     ("get_average_vec_float_empty", false, get_average_vec_float_empty);
     ("get_average_vec_float_none_only", false, get_average_vec_float_none_only);
     ("get_average_vec_float_single", false, get_average_vec_float_single);
     ("get_average_vec_float_several_01", false, get_average_vec_float_several_01);
     ("get_average_vec_float_several_02", false, get_average_vec_float_several_02);
     ("get_average_vec_float_several_03", false, get_average_vec_float_several_03);
     ("get_average_vec_float_several_04", false, get_average_vec_float_several_04);
     ("get_standard_deviation_vec_float_empty", false, get_standard_deviation_vec_float_empty);
     ("get_standard_deviation_vec_float_single", false, get_standard_deviation_vec_float_single);
     ("get_standard_deviation_vec_float_none_only", false, get_standard_deviation_vec_float_none_only);
     ("get_standard_deviation_vec_float_equal", false, get_standard_deviation_vec_float_equal);
     ("get_standard_deviation_goal_several_01", false, get_standard_deviation_goal_several_01);
     ("get_standard_deviation_goal_several_02", false, get_standard_deviation_goal_several_02);
     ("get_success_rate_goal_empty", false, get_success_rate_goal_empty);
     ("get_success_rate_goal_none", false, get_success_rate_goal_none);
     ("get_success_rate_goal_none_many", false, get_success_rate_goal_none_many);
     ("get_success_rate_goal_full_success_fail", false, get_success_rate_goal_full_success_fail);
     ("get_success_rate_goal_full_success_01", false, get_success_rate_goal_full_success_01);
     ("get_success_rate_goal_full_success_02", false, get_success_rate_goal_full_success_02);
     ("get_success_rate_goal_full_success_half", false, get_success_rate_goal_full_success_half);
     ("get_success_rate_goal_full_success_two_of_three_01", false, get_success_rate_goal_full_success_two_of_three_01);
     ("get_success_rate_goal_full_success_two_of_three_02", false, get_success_rate_goal_full_success_two_of_three_02);
     ("get_success_rate_vec_solution_success_single", false, get_success_rate_vec_solution_success_single);
     ("get_success_rate_vec_solution_fail_single", false, get_success_rate_vec_solution_fail_single);
     ("get_success_rate_vec_solution_half_01", false, get_success_rate_vec_solution_half_01);
     ("get_success_rate_vec_solution_half_02", false, get_success_rate_vec_solution_half_02);
     ("call_count_data_average_empty", false, call_count_data_average_empty);
     ("call_count_data_average_single_zero", false, call_count_data_average_single_zero);
     ("call_count_data_average_single_one", false, call_count_data_average_single_one);
     ("call_count_data_average_single_two", false, call_count_data_average_single_two);
     ("call_count_data_average_several", false, call_count_data_average_several);
     ("statistics_convergence_unite_empty", false, statistics_convergence_unite_empty);
     ("statistics_unite_results_01", false, statistics_unite_results_01);
     ("statistics_unite_results_02", false, statistics_unite_results_02);
     ("statistics_unite_results_03", false, statistics_unite_results_03);
     ("convergence_unite_01", false, convergence_unite_01);
     ("convergence_unite_02", false, convergence_unite_02);
     ("convergence_unite_04", false, convergence_unite_04);
     ("call_count_data_unite_empty", false, call_count_data_unite_empty);
     ("call_count_data_unite_01", false, call_count_data_unite_01);
     ("call_count_data_unite_02", false, call_count_data_unite_02);
     ("call_count_data_unite_03", false, call_count_data_unite_03)]%string.
  Definition random_tests : list (string * bool * comp rng unit) :=
    [("test_population_size", false, test_population_size);
     ("test_intervals", false, test_creator_intervals);
     ("tools::test_empty", false, test_vector_empty);
     ("tools::test_intervals", false, test_vector_intervals);
     ("tools::invalid_intervals_01", true, vector_invalid_intervals_01);
     ("tools::invalid_intervals_02", true, vector_invalid_intervals_02);
     ("tools::invalid_intervals_03", true, vector_invalid_intervals_03)]%string.
End UnitTests.
