(** * C96: the unit tests of the modules *)

From Coq Require Import List Arith ZArith Bool String.
From Verif Require Import Base FloatModel Rng GaModel GaComponents PsoModel PsoComponents StatModel
  UnitTestModel SpecUnitTests UnitTestFacts.
Import ListNotations.

(** Every test without random numbers passes, whatever bits NaNs carry. *)
Theorem C96_plain_tests :
  forall np32 np64, Forall plain_passes (plain_tests np32 np64).
Proof. exact plain_pass. Qed.
Print Assumptions C96_plain_tests.

(** Every test of the random creators passes, whatever it draws. *)
Theorem C96_random_tests :
  forall np64, Forall random_passes (random_tests np64).
Proof. exact random_pass. Qed.
Print Assumptions C96_random_tests.

(** All 94 test functions are there; nine of them expect a panic. *)
Example C96_example_count :
  List.length (plain_tests np32_default np64_default) = 87 /\ List.length (random_tests np64_default) = 7 /\
  List.length (filter (fun t => snd (fst t)) (plain_tests np32_default np64_default)) = 6 /\
  List.length (filter (fun t => snd (fst t)) (random_tests np64_default)) = 3.
Proof. repeat split. Qed.

(** A test with a wrong expectation does not pass: the average of 10 and 30 is not 21, the worse of
    two particles is not the best, and an empty population is refused. *)
Example C96_example_wrong :
  ~ passes false (average_goal_is np64_default [some32 1 10; some32 2 30] (Some (i64 21))) /\
  ~ passes false (let! best := find_best_particle
      [particle_new [i32 1] [i32 1] (i64 100); particle_new [i32 3] [i32 1] (i64 50)] in
      let! p := unwrap best in asserts [eq_float (value p) (i64 100)]) /\
  ~ passes false creator_empty_population.
Proof. repeat split; intros H; vm_compute in H; discriminate H. Qed.

(** The assertions of the call counters take no absolute value: an expected average that is far too
    large (1000 instead of 6) would pass as well. *)
Example C96_example_one_sided : passes false (call_counts_are np64_default [5; 7] [5; 7] 1000).
Proof. vm_compute. reflexivity. Qed.
