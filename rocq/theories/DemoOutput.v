(** * Reports and computers for the examples of C104 *)

From Coq Require Import List Arith ZArith Bool Lia String Permutation.
From Verif Require Import Base FloatModel Rng GaModel StatModel TestFuncModel ExampleModel StatProgramModel StatOutputModel
  SpecBox SpecTest SpecExample SpecStat SpecStatProgram SpecOutput StatProgramRuns OutputFacts DemoFloats DemoGa DemoExample ExampleAsserts.
Import ListNotations.
Local Open Scope string_scope.
Local Open Scope nat_scope.

(** A format that knows two numbers. *)
Definition zero_one : number_format := {|
  nf_item := fun x => if leb (b_of_Z 1) x then "1.0000000000" else "0.0000000000";
  nf_fixed := fun p x => if leb (b_of_Z 1) x then "1." ++ numeral p else "0." ++ numeral p;
  nf_exp := fun x => if leb (b_of_Z 1) x then "1e0" else "0e0"
|}.
(** A report on two runs, one of which has no result. *)
Definition small_report : report := {|
  rp_convergence := [(0, b_of_Z 1); (1, b_of_Z 0)];
  rp_solutions := [(0, Some ([b_of_Z 1; b_of_Z 0], b_of_Z 1)); (1, None)];
  rp_run_count := 2;
  rp_success_rate := b_of_Z 0;
  rp_average_goal := b_of_Z 1;
  rp_standard_deviation := b_of_Z 0;
  rp_average_calls := b_of_Z 1
|}.
Definition empty_disk : disk := Disk "" [("notes.txt", "keep"); ("result_stat.txt", "old")].
Definition small_disk : disk :=
  snd (acts working (heading 1000 3 ++ both_files ++ body zero_one small_report ++ summary zero_one small_report) (Ret tt) empty_disk).
Lemma demo_small : stores zero_one 1000 3 small_report empty_disk small_disk /\
  files small_disk =
    [("notes.txt", "keep");
     ("result_stat.txt",
       "0         1.0000000000          0.0000000000                          1.10" ++ newline ++
       "1         Failed" ++ newline);
     ("convergence_stat.txt",
       "0                   1e0" ++ newline ++
       "1                   0e0" ++ newline)] /\
  console small_disk =
    "CPUs:              3" ++ newline ++ "Run count per CPU:     333" ++ newline ++ "Run optimizations... OK" ++ newline ++
    "Run count              2" ++ newline ++ "Success rate:            0.5" ++ newline ++ "Average goal:            1.5" ++ newline ++
    "Standard deviation for goal:            0.5" ++ newline ++ "Average goal function call count:            1.5" ++ newline.
Proof.
  split; [|split; vm_compute; reflexivity].
  destruct (report_on_disk zero_one 1000 3 small_report empty_disk) as [d' [E S]].
  unfold small_disk. rewrite E. exact S.
Qed.

(** Two processors make 500 runs each; the 1000 lines are in the file. *)
Lemma demo_lists : exists d' l,
  @particleswarm_schwefel_program np32_default np64_default disk working zero_one demo_libm32 3001 [counter; one_two] [1; 0] empty_disk = (Ret tt, d') /\
  find_file "result_stat.txt" (files d') = Some (lines l) /\ List.length l = 1000.
Proof.
  destruct demo_terminal as (_ & _ & _ & Hs & _).
  pose proof (@particleswarm_schwefel_reports np32_default np64_default demo_libm32 true 3001 Hs ltac:(lia)) as H.
  destruct (program_lists _ _ _ _ _ _ _
    (fun O dev nf => @particleswarm_schwefel_program np32_default np64_default O dev nf demo_libm32 3001) H
    (program_writes _ _ _ _ _ _) zero_one [counter; one_two] [1; 0] empty_disk ltac:(simpl; lia)
    ltac:(apply perm_swap)) as [runs [d' [E [_ [L [F _]]]]]].
  exists d'. eexists. split; [exact E|]. split; [exact F|].
  rewrite map_length, combine_length, seq_length, L. reflexivity.
Qed.

(** A disk that is full: the second file cannot be created. *)
Definition full_disk : device disk := {|
  dv_print := dv_print working;
  dv_create := fun f d => if String.eqb f "convergence_stat.txt" then (Ret false, d) else dv_create working f d;
  dv_write := dv_write working
|}.
Lemma demo_full : exists d',
  acts full_disk (heading 1000 3 ++ both_files ++ body zero_one small_report ++ summary zero_one small_report) (Ret tt) empty_disk = (Panic, d') /\
  files d' = [("notes.txt", "keep"); ("result_stat.txt", "")].
Proof. eexists. split; vm_compute; reflexivity. Qed.

Lemma demo_columns :
  solution_line zero_one (999, Some ([b_of_Z 0; b_of_Z 1], b_of_Z 0)) =
    "999       0.0000000000          1.0000000000                          0.10".
Proof. vm_compute. reflexivity. Qed.
