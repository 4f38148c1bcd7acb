(** * Property C104: what the programs that collect statistics print and write *)

From Coq Require Import List Arith ZArith Bool String DecimalString Permutation.
From Verif Require Import Base FloatModel Rng StatModel TestFuncModel StatProgramModel StatOutputModel
  SpecStat SpecExample SpecStatProgram SpecOutput OutputFacts DemoFloats DemoGa DemoExample ExampleAsserts DemoOutput.
Import ListNotations.
Local Open Scope string_scope.
Local Open Scope nat_scope.

(** ** C104: each program writes the report of C89, and nothing with more processors than runs *)
Theorem C104_genetic_schwefel :
  forall (np32 : nan_policy 24 128) (np64 : nan_policy 53 1024) (LM : Libm f32) (dbg : bool) fuel,
    writes_report 1000 (@genetic_schwefel_statistics np32 np64 LM dbg fuel)
      (fun O dev nf => @genetic_schwefel_program np32 np64 O dev nf LM dbg fuel) /\
    writes_nothing 1000 (fun O dev nf => @genetic_schwefel_program np32 np64 O dev nf LM dbg fuel).
Proof. exact (fun np32 np64 LM dbg fuel => conj (program_writes np32 np64 _ _ _ _) (program_writes_nothing np32 np64 _ _ _ _)). Qed.
Print Assumptions C104_genetic_schwefel.
Theorem C104_genetic_rosenbrock :
  forall (np32 : nan_policy 24 128) (np64 : nan_policy 53 1024) (LM : Libm f32) (dbg : bool) fuel,
    writes_report 100 (@genetic_rosenbrock_statistics np32 np64 LM dbg fuel)
      (fun O dev nf => @genetic_rosenbrock_program np32 np64 O dev nf LM dbg fuel) /\
    writes_nothing 100 (fun O dev nf => @genetic_rosenbrock_program np32 np64 O dev nf LM dbg fuel).
Proof. exact (fun np32 np64 LM dbg fuel => conj (program_writes np32 np64 _ _ _ _) (program_writes_nothing np32 np64 _ _ _ _)). Qed.
Print Assumptions C104_genetic_rosenbrock.
Theorem C104_particleswarm_schwefel :
  forall (np32 : nan_policy 24 128) (np64 : nan_policy 53 1024) (LM : Libm f32) fuel,
    writes_report 1000 (@particleswarm_schwefel_statistics np32 np64 LM fuel)
      (fun O dev nf => @particleswarm_schwefel_program np32 np64 O dev nf LM fuel) /\
    writes_nothing 1000 (fun O dev nf => @particleswarm_schwefel_program np32 np64 O dev nf LM fuel).
Proof. exact (fun np32 np64 LM fuel => conj (program_writes np32 np64 _ _ _ _) (program_writes_nothing np32 np64 _ _ _ _)). Qed.
Print Assumptions C104_particleswarm_schwefel.
Theorem C104_particleswarm_rosenbrock :
  forall (np32 : nan_policy 24 128) (np64 : nan_policy 53 1024) (dbg : bool) fuel,
    writes_report 1000 (@particleswarm_rosenbrock_statistics np32 np64 dbg fuel)
      (fun O dev nf => @particleswarm_rosenbrock_program np32 np64 O dev nf dbg fuel) /\
    writes_nothing 1000 (fun O dev nf => @particleswarm_rosenbrock_program np32 np64 O dev nf dbg fuel).
Proof. exact (fun np32 np64 dbg fuel => conj (program_writes np32 np64 _ _ _ _) (program_writes_nothing np32 np64 _ _ _ _)). Qed.
Print Assumptions C104_particleswarm_rosenbrock.
Theorem C104_particleswarm_full :
  forall (np32 : nan_policy 24 128) (np64 : nan_policy 53 1024) (LM : Libm f32) (dbg : bool) fuel,
    writes_report 1000 (@particleswarm_schwefel_statistics_full np32 np64 LM dbg fuel)
      (fun O dev nf => @particleswarm_schwefel_full_program np32 np64 O dev nf LM dbg fuel) /\
    writes_nothing 1000 (fun O dev nf => @particleswarm_schwefel_full_program np32 np64 O dev nf LM dbg fuel).
Proof. exact (fun np32 np64 LM dbg fuel => conj (program_writes np32 np64 _ _ _ _) (program_writes_nothing np32 np64 _ _ _ _)). Qed.
Print Assumptions C104_particleswarm_full.
Theorem C104_schwefel_inertia :
  forall (np32 : nan_policy 24 128) (np64 : nan_policy 53 1024) (LM : Libm f32) (dbg : bool) fuel,
    writes_report 1000 (@particleswarm_schwefel_statistics_inertia np32 np64 LM dbg fuel)
      (fun O dev nf => @particleswarm_schwefel_inertia_program np32 np64 O dev nf LM dbg fuel) /\
    writes_nothing 1000 (fun O dev nf => @particleswarm_schwefel_inertia_program np32 np64 O dev nf LM dbg fuel).
Proof. exact (fun np32 np64 LM dbg fuel => conj (program_writes np32 np64 _ _ _ _) (program_writes_nothing np32 np64 _ _ _ _)). Qed.
Print Assumptions C104_schwefel_inertia.
Theorem C104_rastrigin_inertia :
  forall (np32 : nan_policy 24 128) (np64 : nan_policy 53 1024) (LM : Libm f32) (dbg : bool) fuel,
    writes_report 1000 (@particleswarm_rastrigin_statistics_inertia np32 np64 LM dbg fuel)
      (fun O dev nf => @particleswarm_rastrigin_inertia_program np32 np64 O dev nf LM dbg fuel) /\
    writes_nothing 1000 (fun O dev nf => @particleswarm_rastrigin_inertia_program np32 np64 O dev nf LM dbg fuel).
Proof. exact (fun np32 np64 LM dbg fuel => conj (program_writes np32 np64 _ _ _ _) (program_writes_nothing np32 np64 _ _ _ _)). Qed.
Print Assumptions C104_rastrigin_inertia.

(** ** C104: with a console and a disk that work, the report is on the console and in the two
    files, whatever they contained; the other files are as before *)
Theorem C104_stores :
  forall total main program, writes_report total main program ->
  forall nf streams arrivals rp d, main streams arrivals = Ret rp ->
  exists d', program disk working nf streams arrivals d = (Ret tt, d') /\ stores nf total (List.length streams) rp d d'.
Proof. exact program_stores. Qed.
Print Assumptions C104_stores.
(** ** C104: one line for each run, in the order in which the threads ended, and one for each
    iteration that all runs made *)
Theorem C104_lists :
  forall (np32 : nan_policy 24 128) (np64 : nan_policy 53 1024) answer delta total good main program,
  reports_all np32 np64 answer delta total good main -> writes_report total main program ->
  forall nf streams arrivals d, 0 < List.length streams <= total -> Permutation arrivals (seq 0 (List.length streams)) ->
  exists runs d', program disk working nf streams arrivals d = (Ret tt, d') /\
    Forall good runs /\ List.length runs = List.length streams * (total / List.length streams) /\
    find_file "result_stat.txt" (files d') =
      Some (lines (map (fun ir => solution_line nf (fst ir, Some (sr_point (snd ir)))) (combine (seq 0 (List.length runs)) runs))) /\
    exists m, shortest (map sr_row runs) m /\
    find_file "convergence_stat.txt" (files d') =
      Some (lines (map (fun i => convergence_line nf (i, mean64 np64 (map (fun r => snd (nth i (sr_row r) (sr_point r))) runs))) (seq 0 m))).
Proof. exact program_lists. Qed.
Print Assumptions C104_lists.

(** ** C104: the columns of the files *)
Theorem C104_solution_columns :
  forall nf n x g,
  String.length (numeral n) <= 8 -> Forall (fun xi => String.length (nf_item nf xi) <= 20) x -> String.length (nf_fixed nf 10 g) <= 20 ->
  let line := solution_line nf (n, Some (x, g)) in
  substring 0 8 line = at_left 8 (numeral n) /\
  (forall i xi, nth_error x i = Some xi -> substring (10 + 22 * i) 20 line = at_left 20 (nf_item nf xi)) /\
  substring (10 + 22 * List.length x) 20 line = at_right 20 (nf_fixed nf 10 g).
Proof. exact solution_columns. Qed.
Print Assumptions C104_solution_columns.
Theorem C104_convergence_columns :
  forall nf n g,
  String.length (numeral n) <= 8 -> String.length (nf_exp nf g) <= 15 ->
  let line := convergence_line nf (n, g) in
  String.length line = 23 /\ substring 0 8 line = at_left 8 (numeral n) /\ substring 8 15 line = at_right 15 (nf_exp nf g).
Proof. exact convergence_columns. Qed.
Print Assumptions C104_convergence_columns.
(** The numbers of the runs and iterations can be read back. *)
Theorem C104_numerals :
  forall n, option_map Nat.of_uint (NilEmpty.uint_of_string (numeral n)) = Some n.
Proof. exact numeral_read. Qed.
Print Assumptions C104_numerals.

(** ** The hypotheses are met *)
(** A report on two runs, one of them without a result, after the old files are overwritten. *)
Example C104_small : stores zero_one 1000 3 small_report empty_disk small_disk /\
  files small_disk =
    [("notes.txt", "keep");
     ("result_stat.txt",
       "0         1.0000000000          0.0000000000                          1.10" ++ newline ++
       "1         Failed" ++ newline);
     ("convergence_stat.txt",
       "0                   1e0" ++ newline ++
       "1                   0e0" ++ newline)] /\
  console small_disk =
    "CPUs:              3" ++ newline ++ "Run count per CPU:     333" ++ newline ++ "Run optimizations... OK" ++ newline ++
    "Run count              2" ++ newline ++ "Success rate:            0.5" ++ newline ++ "Average goal:            1.5" ++ newline ++
    "Standard deviation for goal:            0.5" ++ newline ++ "Average goal function call count:            1.5" ++ newline.
Proof. exact demo_small. Qed.
(** Two processors make 500 runs each. *)
Example C104_thousand : exists d' l,
  @particleswarm_schwefel_program np32_default np64_default disk working zero_one demo_libm32 3001 [counter; one_two] [1; 0] empty_disk = (Ret tt, d') /\
  find_file "result_stat.txt" (files d') = Some (lines l) /\ List.length l = 1000.
Proof. exact demo_lists. Qed.
(** The second file cannot be created: the program panics and leaves the first one empty. *)
Example C104_full : exists d',
  acts full_disk (heading 1000 3 ++ both_files ++ body zero_one small_report ++ summary zero_one small_report) (Ret tt) empty_disk = (Panic, d') /\
  files d' = [("notes.txt", "keep"); ("result_stat.txt", "")].
Proof. exact demo_full. Qed.
Example C104_line :
  solution_line zero_one (999, Some ([b_of_Z 0; b_of_Z 1], b_of_Z 0)) =
    "999       0.0000000000          1.0000000000                          0.10".
Proof. exact demo_columns. Qed.
