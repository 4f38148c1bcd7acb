(** * The output of the programs that collect statistics: optlib/examples/*-statistics*.rs

    The programs of StatProgramModel.v with what they print and write.

    Simplifications: the text of a float with a given precision is a parameter (any function);
    alignment, fill and decimal integers are modelled.  Standard output and the files are a
    device with any behaviour: each line is handed over in one piece, and a failure makes the
    program panic ([println!] panics, the others are unwrapped).  A file is known by its name. *)

From Coq Require Import List Arith ZArith Bool String DecimalString.
From Verif Require Import Base FloatModel Rng GaModel StatModel LogModel TestFuncModel ExampleModel StatProgramModel.
Import ListNotations.
Local Open Scope string_scope.
Local Open Scope nat_scope.

(** [{:.10}] of an f32, [{:.p}] and [{:.10e}] of an f64. *)
Record number_format := NumberFormat {
  nf_item : f32 -> string;
  nf_fixed : nat -> f64 -> string;
  nf_exp : f64 -> string
}.
(** Standard output ([println!], [print!]), [File::create] and [write_all] to a file. *)
Record device (O : Type) := Device {
  dv_print : string -> comp O bool;
  dv_create : string -> comp O bool;
  dv_write : string -> string -> comp O bool
}.
Arguments dv_print {O}.
Arguments dv_create {O}.
Arguments dv_write {O}.

(** [Formatter::pad] (Rust standard library): the fill character, as often as the text is short. *)
Fixpoint fill (n : nat) : string := match n with O => "" | S n' => String (Ascii.ascii_of_nat 32) (fill n') end.
(** [{:<w}] *)
Definition pad_left_aligned (w : nat) (s : string) : string := s ++ fill (w - String.length s).
(** [{:w}] of a number *)
Definition pad_right_aligned (w : nat) (s : string) : string := fill (w - String.length s) ++ s.
(** [{}] of a usize *)
Definition show_nat (n : nat) : string := NilEmpty.string_of_uint (Nat.to_uint n).

Section Output.
  Variables (np32 : nan_policy 24 128) (np64 : nan_policy 53 1024).
  #[local] Hint Extern 0 (FloatTrait (bfloat 24 128)) => exact (FloatIEEE np32) : typeclass_instances.
  #[local] Hint Extern 0 (FloatTrait f32) => exact (FloatIEEE np32) : typeclass_instances.
  #[local] Hint Extern 0 (ToF64 f32) => exact (ToF64_32 np64) : typeclass_instances.
  Notation vec := (list f32).
  Context {O : Type}.
  Variables (dev : device O) (nf : number_format).

  Definition succeed (c : comp O bool) : comp O unit := do ok <- c ;; cpure (oassert ok).
  Definition println (s : string) : comp O unit := succeed (dv_print dev (s ++ nl)).
  Definition file_writeln (name s : string) : comp O unit := succeed (dv_write dev name (s ++ nl)).

  (** [print_convergence_statistics] (examples/genetic-schwefel-statistics.rs:120-136). *)
  Definition write_convergence (name : string) (st : statistics vec) : comp O unit :=
    do average_convergence <- cpure (get_average_convergence np64 (convergence st)) ;;
    cfold (fun _ n =>
             do cell <- cpure (index average_convergence n) ;;
             match cell with
             | Some goal_value =>
                 file_writeln name (pad_left_aligned 8 (show_nat n) ++ pad_right_aligned 15 (nf_exp nf goal_value))
             | None => cret tt
             end) (seq 0 (List.length average_convergence)) tt.

  (** [print_solution] (examples/genetic-schwefel-statistics.rs:138-158). *)
  Definition write_solution (name : string) (st : statistics vec) : comp O unit :=
    let run_count := get_run_count st in
    cfold (fun _ n =>
             do result <- cpure (index (results st) n) ;;
             match result with
             | Some (solution, goal) =>
                 let result_str := pad_left_aligned 8 (show_nat n) in
                 let result_str :=
                   fold_left (fun result_str x => result_str ++ ("  " ++ pad_left_aligned 20 (nf_item nf x))) solution result_str in
                 let result_str := result_str ++ ("  " ++ pad_right_aligned 20 (nf_fixed nf 10 goal)) in
                 file_writeln name result_str
             | None => file_writeln name (pad_left_aligned 8 (show_nat n) ++ "  Failed")
             end) (seq 0 run_count) tt.

  (** [print_statistics] (examples/genetic-schwefel-statistics.rs:160-186). *)
  Definition write_statistics (valid_answer delta : f32) (dimension : nat) (stat : statistics vec)
    (call_count : call_count_data) : comp O unit :=
    do predicate <- cpure (predicate_success_vec_new (repeat valid_answer dimension) (repeat delta dimension)) ;;
    do success_rate_answer <- cpure (unwrap (get_success_rate np64 (predicate_success_vec predicate) (results stat))) ;;
    do average_goal <- cpure (unwrap (get_average_goal np64 (results stat))) ;;
    do standard_deviation_goal <- cpure (unwrap (get_standard_deviation_goal np64 (results stat))) ;;
    do _ <- println ("Run count" ++ pad_right_aligned 15 (show_nat (get_run_count stat))) ;;
    do _ <- println ("Success rate:" ++ pad_right_aligned 15 (nf_fixed nf 5 success_rate_answer)) ;;
    do _ <- println ("Average goal:" ++ pad_right_aligned 15 (nf_fixed nf 5 average_goal)) ;;
    do _ <- println ("Standard deviation for goal:" ++ pad_right_aligned 15 (nf_fixed nf 5 standard_deviation_goal)) ;;
    do average_call_count <- cpure (unwrap (get_average_call_count np64 call_count)) ;;
    println ("Average goal function call count:" ++ pad_right_aligned 15 (nf_fixed nf 5 average_call_count)).

  (** [main] (examples/genetic-schwefel-statistics.rs:188-261); the seven programs differ in
      [total], in the answer and in how a run is made. *)
  Definition stat_program (single : comp rng run_data) (total : nat) (valid_answer delta : f32)
    (streams : list rng) (arrivals : list nat) : comp O unit :=
    let cpu := List.length streams in
    do run_count <- cpure (if cpu =? 0 then Panic else Ret (total / cpu)) ;;
    do _ <- println ("CPUs:" ++ pad_right_aligned 15 (show_nat cpu)) ;;
    do _ <- println ("Run count per CPU:" ++ pad_right_aligned 8 (show_nat run_count)) ;;
    do _ <- succeed (dv_print dev "Run optimizations... ") ;;
    do full <- cpure (collect (map (fun r => fst (thread single run_count r)) streams) arrivals) ;;
    let '(full_stat, full_call_count) := full in
    do _ <- println "OK" ;;
    let result_stat_fname := "result_stat.txt" in
    do _ <- succeed (dv_create dev result_stat_fname) ;;
    let convergence_stat_fname := "convergence_stat.txt" in
    do _ <- succeed (dv_create dev convergence_stat_fname) ;;
    do _ <- write_solution result_stat_fname full_stat ;;
    do _ <- write_convergence convergence_stat_fname full_stat ;;
    write_statistics valid_answer delta 3 full_stat full_call_count.

  Context {LM : Libm f32}.
  Variable dbg : bool.

  (** examples/genetic-schwefel-statistics.rs *)
  Definition genetic_schwefel_program (fuel : nat) : list rng -> list nat -> comp O unit :=
    stat_program (ga_single (create_genetic_schwefel np32 np64 dbg) (goal_from_function schwefel) fuel)
      1000 f32_420_9687 (b_of_Z 1).
  (** examples/genetic-rosenbrock-statistics.rs *)
  Definition genetic_rosenbrock_program (fuel : nat) : list rng -> list nat -> comp O unit :=
    stat_program (ga_single (create_genetic_rosenbrock np32 np64 dbg) (fun x => cpure (rosenbrock x)) fuel)
      100 (b_of_Z 1) f32_1em2.
  (** examples/particleswarm-schwefel-statistics.rs *)
  Definition particleswarm_schwefel_program (fuel : nat) : list rng -> list nat -> comp O unit :=
    stat_program (pso_single np32 (create_particleswarm_schwefel np32 np64) (goal_from_function schwefel) fuel)
      1000 f32_420_9687 (b_of_Z 1).
  (** examples/particleswarm-rosenbrock-statistics.rs *)
  Definition particleswarm_rosenbrock_program (fuel : nat) : list rng -> list nat -> comp O unit :=
    stat_program (pso_single np32 (create_particleswarm_rosenbrock np32 np64 dbg) (fun x => cpure (rosenbrock x)) fuel)
      1000 (b_of_Z 1) f32_1em2.
  (** examples/particleswarm-schwefel-statistics-full.rs *)
  Definition particleswarm_schwefel_full_program (fuel : nat) : list rng -> list nat -> comp O unit :=
    stat_program (pso_single np32 (create_particleswarm_schwefel_full np32 np64 dbg) (goal_from_function schwefel) fuel)
      1000 f32_420_9687 (b_of_Z 1).
  (** examples/particleswarm-schwefel-statistics-inertia.rs *)
  Definition particleswarm_schwefel_inertia_program (fuel : nat) : list rng -> list nat -> comp O unit :=
    stat_program (pso_single np32 (create_particleswarm_schwefel_inertia np32 np64 dbg) (goal_from_function schwefel) fuel)
      1000 f32_420_9687 (b_of_Z 1).
  (** examples/particleswarm-rastrigin-statistics-inertia.rs *)
  Definition particleswarm_rastrigin_inertia_program (fuel : nat) : list rng -> list nat -> comp O unit :=
    stat_program (pso_single np32 (create_particleswarm_rastrigin_inertia np32 np64 dbg) (goal_from_function rastrigin) fuel)
      1000 (b_of_Z 0) f32_0_1.
End Output.
