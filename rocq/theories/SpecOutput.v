(** * Specification vocabulary: what the programs that collect statistics print and write *)

From Coq Require Import List Arith ZArith Bool String DecimalString Permutation.
From Verif Require Import Base FloatModel StatModel StatProgramModel StatOutputModel.
Import ListNotations.
Local Open Scope string_scope.
Local Open Scope nat_scope.

(** ** Text *)

Definition newline : string := String (Ascii.ascii_of_nat 10) "".
Definition blanks (n : nat) : string := String.concat "" (List.repeat " " n).
(** Texts in a column of width [w]; longer ones are not cut. *)
Definition at_left (w : nat) (s : string) : string := s ++ blanks (w - String.length s).
Definition at_right (w : nat) (s : string) : string := blanks (w - String.length s) ++ s.
(** The decimal numeral without leading zeros. *)
Definition numeral (n : nat) : string := NilEmpty.string_of_uint (Nat.to_uint n).

(** A line of [result_stat.txt]: number of the run, coordinates, goal. *)
Definition solution_line (nf : number_format) (entry : nat * option (list f32 * f64)) : string :=
  String.concat "  "
    (at_left 8 (numeral (fst entry)) ::
     match snd entry with
     | Some (x, g) => map (fun xi => at_left 20 (nf_item nf xi)) x ++ [at_right 20 (nf_fixed nf 10 g)]
     | None => ["Failed"]
     end)%list.
(** A line of [convergence_stat.txt]: number of the iteration, average of the best goals. *)
Definition convergence_line (nf : number_format) (entry : nat * f64) : string :=
  at_left 8 (numeral (fst entry)) ++ at_right 15 (nf_exp nf (snd entry)).

(** ** Actions on the output *)

Inductive action := Print (text : string) | Create (file : string) | Append (file text : string).
Definition act {O} (dev : device O) (a : action) : comp O bool :=
  match a with
  | Print s => dv_print dev s
  | Create f => dv_create dev f
  | Append f s => dv_write dev f s
  end.
(** The actions in order, then the end; the first one that fails is the last, and a panic. *)
Fixpoint acts {O A} (dev : device O) (l : list action) (ending : outcome A) (o : O) : outcome A * O :=
  match l with
  | [] => (ending, o)
  | a :: l' => match act dev a o with
               | (Ret true, o') => acts dev l' ending o'
               | (Ret false, o') => (Panic, o')
               | (Panic, o') => (Panic, o')
               | (NoFuel, o') => (NoFuel, o')
               end
  end.

Definition heading (total cpus : nat) : list action :=
  [Print ("CPUs:" ++ at_right 15 (numeral cpus) ++ newline);
   Print ("Run count per CPU:" ++ at_right 8 (numeral (total / cpus)) ++ newline);
   Print "Run optimizations... "].
Definition both_files : list action :=
  [Print ("OK" ++ newline); Create "result_stat.txt"; Create "convergence_stat.txt"].
Definition body (nf : number_format) (rp : report) : list action :=
  map (fun e => Append "result_stat.txt" (solution_line nf e ++ newline)) (rp_solutions rp) ++
  map (fun e => Append "convergence_stat.txt" (convergence_line nf e ++ newline)) (rp_convergence rp).
Definition summary (nf : number_format) (rp : report) : list action :=
  [Print ("Run count" ++ at_right 15 (numeral (rp_run_count rp)) ++ newline);
   Print ("Success rate:" ++ at_right 15 (nf_fixed nf 5 (rp_success_rate rp)) ++ newline);
   Print ("Average goal:" ++ at_right 15 (nf_fixed nf 5 (rp_average_goal rp)) ++ newline);
   Print ("Standard deviation for goal:" ++ at_right 15 (nf_fixed nf 5 (rp_standard_deviation rp)) ++ newline);
   Print ("Average goal function call count:" ++ at_right 15 (nf_fixed nf 5 (rp_average_calls rp)) ++ newline)].

(** The program writes the report [main]; it writes the heading and waits if the runs do not
    end; without processors it panics at once. *)
Definition writes_report (total : nat) (main : list Rng.rng -> list nat -> outcome report)
  (program : forall O, device O -> number_format -> list Rng.rng -> list nat -> comp O unit) : Prop :=
  forall O (dev : device O) nf streams arrivals o,
    (streams = [] -> program O dev nf streams arrivals o = (Panic, o)) /\
    (forall rp, main streams arrivals = Ret rp ->
       program O dev nf streams arrivals o =
       acts dev (heading total (List.length streams) ++ both_files ++ body nf rp ++ summary nf rp) (Ret tt) o) /\
    (main streams arrivals = NoFuel ->
       program O dev nf streams arrivals o = acts dev (heading total (List.length streams)) NoFuel o).
(** With more processors than runs to make it panics after creating two empty files. *)
Definition writes_nothing (total : nat)
  (program : forall O, device O -> number_format -> list Rng.rng -> list nat -> comp O unit) : Prop :=
  forall O (dev : device O) nf streams arrivals o,
    total < List.length streams -> Permutation arrivals (seq 0 (List.length streams)) ->
    program O dev nf streams arrivals o = acts dev (heading total (List.length streams) ++ both_files) Panic o.

(** ** A computer whose output works: the console and the files *)

Record disk := Disk { console : string; files : list (string * string) }.
Fixpoint put (name text : string) (l : list (string * string)) : list (string * string) :=
  match l with
  | [] => [(name, text)]
  | (n, t) :: l' => if String.eqb n name then (name, text) :: l' else (n, t) :: put name text l'
  end.
Fixpoint find_file (name : string) (l : list (string * string)) : option string :=
  match l with
  | [] => None
  | (n, t) :: l' => if String.eqb n name then Some t else find_file name l'
  end.
Definition working : device disk := {|
  dv_print := fun s d => (Ret true, Disk (console d ++ s) (files d));
  dv_create := fun f d => (Ret true, Disk (console d) (put f "" (files d)));
  dv_write := fun f s d =>
    match find_file f (files d) with
    | Some t => (Ret true, Disk (console d) (put f (t ++ s) (files d)))
    | None => (Ret false, d)
    end
|}.
(** A file of lines. *)
Definition lines (l : list string) : string := String.concat "" (map (fun s => s ++ newline) l).

(** The text the actions print. *)
Definition printed (l : list action) : string :=
  String.concat "" (flat_map (fun a => match a with Print s => [s] | _ => [] end) l).
(** What is on the console and in the files after a report, [d] before and [d'] after. *)
Definition stores (nf : number_format) (total cpus : nat) (rp : report) (d d' : disk) : Prop :=
  console d' = console d ++ printed (heading total cpus) ++ "OK" ++ newline ++ printed (summary nf rp) /\
  find_file "result_stat.txt" (files d') = Some (lines (map (solution_line nf) (rp_solutions rp))) /\
  find_file "convergence_stat.txt" (files d') = Some (lines (map (convergence_line nf) (rp_convergence rp))) /\
  forall f, f <> "result_stat.txt" -> f <> "convergence_stat.txt" -> find_file f (files d') = find_file f (files d).
