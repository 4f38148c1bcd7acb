(** * Specification vocabulary for the statistics *)

From Coq Require Import List Arith ZArith Bool Reals.
From Flocq Require Import Core IEEE754.BinarySingleNaN IEEE754.Binary.
From Verif Require Import Base FloatModel StatModel.
Import ListNotations.

(** ** Data with gaps *)

(** The solutions among the results, in order. *)
Definition present {A} (l : list (option A)) : list A :=
  flat_map (fun o => match o with Some x => [x] | None => [] end) l.
(** Their goals. *)
Definition goals {A} (l : list (option (A * f64))) : list f64 := map snd (present l).
(** The goals of iteration [i] of the runs (rows) that have a solution then. *)
Definition column {A} (c : list (list (option (A * f64)))) (i : nat) : list f64 :=
  flat_map (fun row => match nth_error row i with Some (Some (_, g)) => [g] | _ => [] end) c.
(** [n] is the length of a shortest row; 0 if there is none. *)
Definition shortest {A} (c : list (list A)) (n : nat) : Prop :=
  (c = [] /\ n = 0) \/
  ((exists row, In row c /\ length row = n) /\ forall row, In row c -> n <= length row).

(** A [usize] of a 64-bit machine. *)
Definition usize (n : nat) : Prop := (Z.of_nat n < 2 ^ 64)%Z.

(** ** Sums *)
Section Sums.
  Context {prec emax : Z} {Hp : Prec_gt_0 prec} {He : Prec_lt_emax prec emax}.
  Variable np : nan_policy prec emax.
  Notation F := (bfloat prec emax).
  Notation B2R := (Binary.B2R prec emax).
  (** Sum of floats from the left, starting at 0. *)
  Definition float_sum (xs : list F) : F := fold_left (b_add np) xs (Binary.B754_zero false).
  (** A count as a float. *)
  Definition float_count (n : nat) : F := b_of_Z (Z.of_nat n).
  (** Rounding to nearest even. *)
  Definition rounded (r : R) : R :=
    round radix2 (SpecFloat.fexp prec emax) (round_mode mode_NE) r.
  (** A finite float has this value. *)
  Definition representable (r : R) : Prop := exists x : F, is_finite x = true /\ B2R x = r.
  (** Not a NaN and not negative. *)
  Definition non_negative (x : F) : Prop := leb (Binary.B754_zero false) x = true.
End Sums.
(** Exact sum. *)
Definition real_sum (xs : list R) : R := fold_right Rplus 0%R xs.
Notation value64 := (Binary.B2R 53 1024).
Notation values64 := (map value64).
(** All partial sums are representable, so none of the additions rounds. *)
Definition exact_sums (prec emax : Z) (rs : list R) : Prop :=
  forall k, @representable prec emax (real_sum (firstn k rs)).

(** Mean and sample standard deviation of goals, in the order of operations of
    the textbook formulas. *)
Definition mean64 (np64 : nan_policy 53 1024) (gs : list f64) : f64 :=
  b_div np64 (float_sum np64 gs) (float_count (length gs)).
Definition deviation64 (np64 : nan_policy 53 1024) (gs : list f64) : f64 :=
  let m := mean64 np64 gs in
  b_sqrt np64 (b_div np64 (float_sum np64 (map (fun g => b_mul np64 (b_sub np64 g m) (b_sub np64 g m)) gs))
                          (float_count (length gs - 1))).

(** ** Success *)

(** A run is successful: it has a solution and it satisfies the predicate. *)
Definition succeeds {A} (p : A -> bool) (o : option A) : bool :=
  match o with Some s => p s | None => false end.

(** ** Vectors *)

(** The [j]-th components. *)
Definition components {T A} (j : nat) (l : list (option (list T * A))) : list T :=
  flat_map (fun xg => match nth_error (fst xg) j with Some x => [x] | None => [] end) (present l).
(** Two of the solutions have different dimensions. *)
Definition mixed {T A} (l : list (option (list T * A))) : Prop :=
  exists p q, In p (present l) /\ In q (present l) /\ length (fst p) <> length (fst q).
Section Vec.
  Context {T : Type} {FT : FloatTrait T}.
  (** Sum from the left, starting with the first element. *)
  Definition sum1 (xs : list T) : T :=
    match xs with [] => fzero | x :: t => fold_left fadd t x end.
  Definition mean_of (xs : list T) : T := fdiv (sum1 xs) (fof_nat (length xs)).
  Definition squared_deviation (m x : T) : T := fmul (fsub x m) (fsub x m).
  Definition deviation_of (xs : list T) : T :=
    fsqrt (fdiv (sum1 (map (squared_deviation (mean_of xs)) xs)) (fof_nat (length xs - 1))).
End Vec.

(** ** Call counters *)

(** The operations on the counter of goal calls. *)
Inductive count_op :=
| NextRun
| Increment
| Add (n : nat)
| Unite (runs : list nat).

(** Applying an operation. *)
Definition count_step (c : call_count_data) (op : count_op) : outcome call_count_data :=
  match op with
  | NextRun => Ret (next_run c)
  | Increment => increment c
  | Add n => ccd_add n c
  | Unite runs => Ret (ccd_unite c runs)
  end.
(** The calls as recorded by elementary operations: [None] opens a run, [Some n]
    records [n] calls. *)
Definition elementary (op : count_op) : list (option nat) :=
  match op with
  | NextRun => [None]
  | Increment => [Some 1]
  | Add n => [Some n]
  | Unite runs => flat_map (fun n => [None; Some n]) runs
  end.
(** The calls before the first opening of a run, and those of every run opened. *)
Fixpoint by_run (ops : list (option nat)) : list nat * list (list nat) :=
  match ops with
  | [] => ([], [])
  | Some n :: t => let (h, r) := by_run t in (n :: h, r)
  | None :: t => let (h, r) := by_run t in ([], h :: r)
  end.
(** The calls of each run; calls before the first opening are a run of their own. *)
Definition calls_by_run (ops : list count_op) : list nat :=
  match by_run (flat_map elementary ops) with
  | ([], runs) => map list_sum runs
  | (before, runs) => list_sum before :: map list_sum runs
  end.

(** Both success predicates compare distances: rounded, and infinite (not below
    any finite bound) when beyond the largest float. *)
Definition distance {prec emax : Z} (x y : bfloat prec emax) : R :=
  Rabs (Binary.B2R prec emax x - Binary.B2R prec emax y)%R.
