(** * Specification vocabulary: solutions near the documented minimum *)

From Coq Require Import List Arith ZArith Permutation Reals.
From Flocq Require Import Core IEEE754.BinarySingleNaN IEEE754.Binary.
From Verif Require Import Base FloatModel Rng StatProgramModel SpecStat SpecStatProgram.
Local Open Scope R_scope.

(** Each coordinate [i] (counted from 0) is within [k] of [p i]. *)
Definition all_near (k : R) (p : nat -> R) (x : list f32) : Prop :=
  forall i a, nth_error x i = Some a -> Rabs (Binary.B2R 24 128 a - p i) <= k.
(** 1, 2, 3, ... *)
Definition staircase (i : nat) : R := INR (i + 1).
Definition everywhere (a : R) (_ : nat) : R := a.
(** The point at which the Schwefel function has its documented minimum. *)
Definition schwefel_answer : R := 4209687 / 10 ^ 4.

(** Runs with a value of at most [k]. *)
Definition low (k : f64) (r : stat_run) : bool := leb (snd (sr_point r)) k.
(** The same for a solution as it is written in a report. *)
Definition solution_low (k : f64) (s : nat * option (list f32 * f64)) : bool :=
  match snd s with Some p => leb (snd p) k | None => false end.
(** The success rate of a report counts at least the solutions with a value of at most [k]. *)
Definition counts_low (np64 : nan_policy 53 1024) (k : f64) (rp : report) : Prop :=
  exists n, (length (filter (solution_low k) (rp_solutions rp)) <= n <= rp_run_count rp)%nat /\
    rp_success_rate rp = b_div np64 (float_count n) (float_count (rp_run_count rp)).
(** Whatever the threads draw and whichever is first. *)
Definition always_counts_low (np64 : nan_policy 53 1024) (k : f64) (total : nat)
  (main : list rng -> list nat -> outcome report) : Prop :=
  forall streams arrivals rp, (0 < length streams <= total)%nat -> Permutation arrivals (seq 0 (length streams)) ->
    main streams arrivals = Ret rp -> counts_low np64 k rp.
