(** * Specification vocabulary: the programs that collect statistics *)

From Coq Require Import List Arith ZArith Bool Permutation.
From Verif Require Import Base FloatModel Rng StatProgramModel SpecStat SpecExample.
Import ListNotations.

(** What is recorded of a run: the result, the best solution after each iteration and the
    number of calls of the goal function. *)
Record stat_run := StatRun {
  sr_point : list f32 * f64;
  sr_row : list (list f32 * f64);
  sr_calls : nat
}.
(** A run that found a solution, stopped for one of the reasons [rs]; [calls i c]: how
    many calls [c] a run of [i] iterations may need. *)
Definition good_run (f : list f32 -> outcome f64) (box : list (f32 * f32)) (rs : list reason)
  (calls : nat -> nat -> Prop) (r : stat_run) : Prop :=
  solves f box (fst (sr_point r)) (snd (sr_point r)) /\
  stopped_by rs (length (sr_row r)) (snd (sr_point r)) /\
  (forall k, In (After k) rs -> length (sr_row r) <= k) /\
  last (sr_row r) (sr_point r) = sr_point r /\
  calls (length (sr_row r)) (sr_calls r).

(** The solution is as close to the answer as the program wants it, in every coordinate. *)
Definition near (np32 : nan_policy 24 128) (answer delta : f32) (r : stat_run) : bool :=
  forallb (fun x => leb (b_abs (b_sub np32 x answer)) delta) (fst (sr_point r)).

(** What the report on these runs should say. *)
Definition reports (np32 : nan_policy 24 128) (np64 : nan_policy 53 1024) (answer delta : f32)
  (runs : list stat_run) (rp : report) : Prop :=
  let n := length runs in
  rp_run_count rp = n /\
  rp_solutions rp = combine (seq 0 n) (map (fun r => Some (sr_point r)) runs) /\
  (exists m, shortest (map sr_row runs) m /\
     rp_convergence rp = map (fun i => (i, mean64 np64 (map (fun r => snd (nth i (sr_row r) (sr_point r))) runs))) (seq 0 m)) /\
  rp_success_rate rp = b_div np64 (float_count (length (filter (near np32 answer delta) runs))) (float_count n) /\
  leb (b_of_Z 0) (rp_success_rate rp) = true /\ leb (rp_success_rate rp) (b_of_Z 1) = true /\
  rp_average_goal rp = mean64 np64 (map (fun r => snd (sr_point r)) runs) /\
  rp_standard_deviation rp = deviation64 np64 (map (fun r => snd (sr_point r)) runs) /\
  rp_average_calls rp = b_div np64 (float_count (list_sum (map sr_calls runs))) (float_count n).

(** Whatever the streams of random numbers of the threads and the order in which the threads end, the program
    reports on the runs it made: each thread makes its share of [total] runs. *)
Definition reports_all (np32 : nan_policy 24 128) (np64 : nan_policy 53 1024) (answer delta : f32) (total : nat)
  (good : stat_run -> Prop) (main : list rng -> list nat -> outcome report) : Prop :=
  forall streams, 0 < length streams <= total ->
  exists per, length per = length streams /\
    Forall (fun runs => length runs = total / length streams /\ Forall good runs) per /\
    forall arrivals, Permutation arrivals (seq 0 (length streams)) ->
      exists rp, main streams arrivals = Ret rp /\
        reports np32 np64 answer delta (concat (map (fun i => nth i per []) arrivals)) rp.

(** The same for programs whose runs need not end. *)
Definition reports_ended (np32 : nan_policy 24 128) (np64 : nan_policy 53 1024) (answer delta : f32) (total : nat)
  (good : stat_run -> Prop) (main : list rng -> list nat -> outcome report) : Prop :=
  forall streams, 0 < length streams <= total ->
  exists per, length per = length streams /\
    forall arrivals, Permutation arrivals (seq 0 (length streams)) ->
      main streams arrivals = NoFuel \/
      exists rp, main streams arrivals = Ret rp /\
        reports np32 np64 answer delta (concat (map (fun i => nth i per []) arrivals)) rp /\
        Forall (fun runs => length runs = total / length streams /\ Forall good runs) per.

(** A machine with more processors than runs to make. *)
Definition fails_beyond (total : nat) (main : list rng -> list nat -> outcome report) : Prop :=
  forall streams arrivals, total < length streams -> Permutation arrivals (seq 0 (length streams)) ->
    main streams arrivals = Panic.

(** The two reports agree except for the order of the runs and the rounding of sums of goals. *)
Definition same_summary (rp1 rp2 : report) : Prop :=
  rp_run_count rp1 = rp_run_count rp2 /\ rp_success_rate rp1 = rp_success_rate rp2 /\
  rp_average_calls rp1 = rp_average_calls rp2 /\ map fst (rp_convergence rp1) = map fst (rp_convergence rp2) /\
  map fst (rp_solutions rp1) = map fst (rp_solutions rp2) /\
  Permutation (map snd (rp_solutions rp1)) (map snd (rp_solutions rp2)).

(** Equal floats ([==]: not NaN, and the two zeros are equal) and points. *)
Definition equal_floats {prec emax : Z} (x y : bfloat prec emax) : Prop := partial_cmp x y = Some Eq.
Definition equal_points (p q : list f32 * f64) : Prop :=
  Forall2 equal_floats (fst p) (fst q) /\ equal_floats (snd p) (snd q).

(** A test that makes [total] runs and passes if at least [num/den] of them come near the answer;
    its runs need not end. *)
Definition tests_share (np32 : nan_policy 24 128) (answer delta : f32) (total num den : nat)
  (good : stat_run -> Prop) (test : list rng -> list nat -> outcome unit) : Prop :=
  forall streams, 0 < length streams <= total ->
  exists per, length per = length streams /\
    forall arrivals, Permutation arrivals (seq 0 (length streams)) ->
      test streams arrivals = NoFuel \/
      Forall (fun runs => length runs = total / length streams /\ Forall good runs) per /\
      test streams arrivals =
        if num * length (concat per) <=? den * length (filter (near np32 answer delta) (concat per)) then Ret tt else Panic.
