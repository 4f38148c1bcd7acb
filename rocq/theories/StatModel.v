(** * Statistics: optlib/src/tools/statistics/mod.rs

    Simplification: counters are unbounded naturals; the overflow of a usize is not
    modelled. *)

From Coq Require Import List Arith ZArith Bool.
From Verif Require Import Base FloatModel GaModel.
Import ListNotations.

Section Statistics.
  Context {T : Type}.
  Notation solution := (T * f64)%type.

  (** [Statistics<T>] (statistics/mod.rs:13-19). *)
  Record statistics := Statistics {
    results : list (option solution);
    convergence : list (list (option solution))
  }.

  (** [Statistics::new] (statistics/mod.rs:155-160). *)
  Definition statistics_new : statistics := Statistics [] [].
  (** [get_run_count], [get_results], [get_convergence] (statistics/mod.rs:162-172). *)
  Definition get_run_count (st : statistics) : nat := length (results st).
  (** [add_result] (statistics/mod.rs:174-176). *)
  Definition add_result (s : alg_state T) (st : statistics) : statistics :=
    Statistics (results st ++ [as_best s]) (convergence st).
  (** [add_convergence] (statistics/mod.rs:178-181): with no run started,
      [len() - 1] underflows (panic in debug builds) or the index is out of
      bounds (panic in release builds): a panic either way. *)
  Definition add_convergence (s : alg_state T) (st : statistics) : outcome statistics :=
    match length (convergence st) with
    | O => Panic
    | S run_index =>
        let! run := index (convergence st) run_index in
        let! c := update (convergence st) run_index (run ++ [as_best s]) in
        Ret (Statistics (results st) c)
    end.
  (** [Statistics::unite] (statistics/mod.rs:183-186). *)
  Definition unite (st other : statistics) : statistics :=
    Statistics (results st ++ results other) (convergence st ++ convergence other).

  (** [StatisticsLogger] (statistics/mod.rs:381-409) as a logger owning the
      statistics it borrows mutably. *)
  Definition statistics_logger : logger statistics T := {|
    lg_start := fun _ st => (Ret tt, Statistics (results st) (convergence st ++ [[]]));
    lg_resume := fun _ st => (Ret tt, st);
    lg_next := fun s st => match add_convergence s st with
                           | Ret st' => (Ret tt, st')
                           | Panic => (Panic, st)
                           | NoFuel => (NoFuel, st)
                           end;
    lg_finish := fun s st => (Ret tt, add_result s st)
  |}.

  (** [get_min_iterations] (statistics/mod.rs:222-234). *)
  Definition get_min_iterations (c : list (list (option solution))) : outcome nat :=
    match c with
    | [] => Ret 0
    | first :: _ =>
        Ret (fold_left (fun min_len x => if length x <? min_len then length x else min_len)
                       c (length first))
    end.

  Variable np64 : nan_policy 53 1024.

  (** [get_average_convergence] (statistics/mod.rs:197-220). *)
  Definition get_average_convergence (c : list (list (option solution)))
    : outcome (list (option f64)) :=
    let! min_iterations := get_min_iterations c in
    omap (fun i =>
            let! r := ofold (fun '(sum, sum_count) run =>
                               let! row := index c run in
                               let! cell := index row i in
                               Ret (match cell with
                                    | Some (_, g) => (b_add np64 sum g, sum_count + 1)
                                    | None => (sum, sum_count)
                                    end)) (seq 0 (length c)) (b_of_Z 0, 0) in
            let '(sum, sum_count) := r in
            Ret (if negb (sum_count =? 0) then Some (b_div np64 sum (b_of_Z (Z.of_nat sum_count)))
                 else None))
         (seq 0 min_iterations).

  (** [filter_map(|x| x.as_ref())] *)
  Fixpoint somes {A} (l : list (option A)) : list A :=
    match l with
    | [] => []
    | Some x :: t => x :: somes t
    | None :: t => somes t
    end.

  (** [get_average_goal] (statistics/mod.rs:240-250). *)
  Definition get_average_goal (l : list (option solution)) : option f64 :=
    let success_solutions := somes l in
    let count := length success_solutions in
    let sum := fold_left (fun acc s => b_add np64 acc (snd s)) success_solutions (b_of_Z 0) in
    if count =? 0 then None else Some (b_div np64 sum (b_of_Z (Z.of_nat count))).

  (** [get_standard_deviation_goal] (statistics/mod.rs:252-271). *)
  Definition get_standard_deviation_goal (l : list (option solution)) : option f64 :=
    match get_average_goal l with
    | None => None
    | Some average_value =>
        if length l <? 2 then None
        else
          let success_solutions := somes l in
          let count := length success_solutions in
          let sum := fold_left (fun acc s =>
                       let d := b_sub np64 (snd s) average_value in
                       b_add np64 acc (b_mul np64 d d)) success_solutions (b_of_Z 0) in
          if count <? 2 then None
          else Some (b_sqrt np64 (b_div np64 sum (b_of_Z (Z.of_nat (count - 1)))))
    end.
End Statistics.
Arguments statistics T : clear implicits.
Arguments Statistics {T}.

Section VecStatistics.
  Context {T : Type} {FT : FloatTrait T} (np64 : nan_policy 53 1024).
  Notation vsolution := (list T * f64)%type.

  (** [vectorize] (statistics/mod.rs:376-379). *)
  Definition vectorize (v1 v2 : list T) (func : T -> T -> T) : outcome (list T) :=
    let! _ := oassert (length v1 =? length v2) in
    Ret (map (fun xy => func (fst xy) (snd xy)) (combine v1 v2)).

  (** [get_average] (statistics/mod.rs:275-306). *)
  Definition get_average (l : list (option vsolution)) : outcome (option vsolution) :=
    match get_average_goal np64 l with
    | None => Ret None
    | Some goal =>
        let success_solutions := somes l in
        let count := length success_solutions in
        let! solution :=
          ofold (fun solution (cur : vsolution) =>
                   match solution with
                   | None => Ret (Some (fst cur))
                   | Some vector =>
                       let! _ := oassert (length (fst cur) =? length vector) in
                       let! v := vectorize vector (fst cur) fadd in
                       Ret (Some v)
                   end) success_solutions None in
        Ret (match solution with
             | None => None
             | Some vector => Some (map (fun x => fdiv x (fof_nat count)) vector, goal)
             end)
    end.

  (** [get_standard_deviation] (statistics/mod.rs:308-352). *)
  Definition get_standard_deviation (l : list (option vsolution)) : outcome (option vsolution) :=
    let! average := get_average l in
    match get_standard_deviation_goal np64 l, average with
    | Some goal_deviation, Some (solution_average, _) =>
        let success_solutions := somes l in
        let count := length success_solutions in
        if count <? 2 then Ret None
        else
          let diff_2 := fun x y => fmul (fsub x y) (fsub x y) in
          let! sum :=
            ofold (fun sum (cur : vsolution) =>
                     match sum with
                     | None =>
                         let! d := vectorize (fst cur) solution_average diff_2 in
                         Ret (Some d)
                     | Some vector =>
                         let! _ := oassert (length (fst cur) =? length vector) in
                         let! d := vectorize (fst cur) solution_average diff_2 in
                         let! v := vectorize vector d fadd in
                         Ret (Some v)
                     end) success_solutions None in
          Ret (match sum with
               | None => None
               | Some vector =>
                   Some (map (fun x => fsqrt (fdiv x (fof_nat (count - 1)))) vector,
                         goal_deviation)
               end)
    | _, _ => Ret None
    end.

  (** [get_success_rate] (statistics/mod.rs:358-373). *)
  Definition get_success_rate (predicate : vsolution -> bool) (l : list (option vsolution))
    : option f64 :=
    match length l with
    | O => None
    | count => Some (b_div np64 (b_of_Z (Z.of_nat (length (filter predicate (somes l)))))
                                (b_of_Z (Z.of_nat count)))
    end.

  (** [get_predicate_success_goal] (statistics/mod.rs:80-85). *)
  Definition predicate_success_goal {X} (expected_goal delta : f64) (s : X * f64) : bool :=
    ltb (b_abs (b_sub np64 (snd s) expected_goal)) delta.

  (** [get_predicate_success_vec_solution] (statistics/mod.rs:89-103): the
      constructor's assertion, then the closure. *)
  Definition predicate_success_vec_new (expected delta : list T) : outcome (list T * list T) :=
    let! _ := oassert (length expected =? length delta) in Ret (expected, delta).
  Definition predicate_success_vec (ed : list T * list T) (s : vsolution) : bool :=
    forallb (fun xed => let '(x, (e, d)) := xed in negb (flt d (fabs (fsub x e))))
            (combine (fst s) (combine (fst ed) (snd ed))).
End VecStatistics.

(** ** Goal call counters *)

(** [CallCountData(Vec<usize>)] (statistics/mod.rs:23). *)
Definition call_count_data : Type := list nat.
(** [CallCountData::new] (statistics/mod.rs:106-108). *)
Definition ccd_new : call_count_data := [].
(** [next_run] (statistics/mod.rs:111-113). *)
Definition next_run (c : call_count_data) : call_count_data := c ++ [0].
(** [add] (statistics/mod.rs:124-131). *)
Definition ccd_add (n : nat) (c : call_count_data) : outcome call_count_data :=
  let c := if length c =? 0 then c ++ [0] else c in
  let i := length c - 1 in
  let! k := index c i in
  update c i (k + n).
(** [increment] (statistics/mod.rs:115-122). *)
Definition increment (c : call_count_data) : outcome call_count_data :=
  let c := if length c =? 0 then c ++ [0] else c in
  let i := length c - 1 in
  let! k := index c i in
  update c i (k + 1).
(** [get_average_call_count] (statistics/mod.rs:139-147). *)
Definition get_average_call_count (np64 : nan_policy 53 1024) (c : call_count_data) : option f64 :=
  let sum := fold_left Nat.add c 0 in
  let count := length c in
  if count =? 0 then None
  else Some (b_div np64 (b_of_Z (Z.of_nat sum)) (b_of_Z (Z.of_nat count))).
(** [CallCountData::unite] (statistics/mod.rs:149-151). *)
Definition ccd_unite (c other : call_count_data) : call_count_data := c ++ other.

(** [GoalCalcStatistics::get] (statistics/mod.rs:417-422): [L] selects the
    counter it borrows mutably, [goal] is the wrapped goal. *)
Definition goal_calc_statistics {U T} (L : lens U call_count_data) (goal : T -> comp U f64)
  : T -> comp U f64 :=
  fun x =>
    do _ <- zoom L (fun c => match increment c with
                             | Ret c' => (Ret tt, c')
                             | Panic => (Panic, c)
                             | NoFuel => (NoFuel, c)
                             end) ;;
    goal x.
