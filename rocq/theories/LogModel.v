(** * Printing loggers: optlib/src/tools/logging/mod.rs

    Formatting of numbers ([format!] with width and precision) is a parameter:
    any functions to strings.  The writer ([&mut dyn io::Write]) is a parameter
    too: it may change its state [W] arbitrarily and fail ([false]), which makes
    [writeln!(..).unwrap()] panic.

    Simplifications: [writeln!] may hand the line to the writer in several pieces;
    here it is handed over in one.  The overflow of [as_secs() * 1000] as u64 (half a
    billion years) is not modelled. *)

From Coq Require Import List Arith ZArith Bool String.
From Verif Require Import Base FloatModel GaModel.
Import ListNotations.

Record formatter (T : Type) := Formatter {
  fmt_iteration : nat -> string;            (* {:<8} *)
  fmt_item : nat -> T -> string;            (* {:<20.*} *)
  fmt_goal : nat -> f64 -> string;          (* {:20.*} *)
  fmt_item_prec : nat -> T -> string;       (* {:.*} *)
  fmt_goal_prec : nat -> f64 -> string;     (* {:.*} *)
  fmt_count : nat -> string;                (* {} of a usize *)
  fmt_ms : Z -> string                      (* {} of a u64 *)
}.
Arguments fmt_iteration {T}.
Arguments fmt_item {T}.
Arguments fmt_goal {T}.
Arguments fmt_item_prec {T}.
Arguments fmt_goal_prec {T}.
Arguments fmt_count {T}.
Arguments fmt_ms {T}.

Definition nl : string := String (Ascii.ascii_of_nat 10) EmptyString.

Section Printing.
  Context {T U : Type}.
  Variable fmt : formatter T.
  (** [write_all] of the writer *)
  Variable write : string -> comp U bool.

  (** [writeln!(&mut self.writer, "{}", s).unwrap()] *)
  Definition writeln (s : string) : comp U unit :=
    do ok <- write (s ++ nl)%string ;;
    cpure (oassert ok).

  Definition silent : alg_state (list T) -> comp U unit := fun _ => cret tt.

  (** The line built by [VerboseLogger::next_iteration] (logging/mod.rs:47-53). *)
  Definition verbose_line (precision : nat) (iter : nat) (x : list T) (g : f64) : string :=
    (fold_left (fun r xi => r ++ "  " ++ fmt_item fmt precision xi) x
               (fmt_iteration fmt iter)
     ++ "  " ++ fmt_goal fmt precision g)%string.

  (** [VerboseLogger] (logging/mod.rs:29-58). *)
  Definition verbose_logger (precision : nat) : logger U (list T) := {|
    lg_start := silent;
    lg_resume := silent;
    lg_next := fun s => match as_best s with
                        | Some (x, g) => writeln (verbose_line precision (as_iter s) x g)
                        | None => cret tt
                        end;
    lg_finish := silent
  |}.

  (** [ResultOnlyLogger::finish] (logging/mod.rs:79-101). *)
  Definition result_only_finish (precision : nat) (s : alg_state (list T)) : comp U unit :=
    do _ <- match as_best s with
            | None => writeln "Solution not found"
            | Some (x, g) =>
                let result :=
                  (fold_left (fun r xi => r ++ "  " ++ fmt_item_prec fmt precision xi ++ nl) x
                             ("Solution:" ++ nl) ++ nl)%string in
                do _ <- writeln result ;;
                writeln ("Goal: " ++ fmt_goal_prec fmt precision g)%string
            end ;;
    writeln ("Iterations count: " ++ fmt_count fmt (as_iter s))%string.

  (** [ResultOnlyLogger] (logging/mod.rs:61-102). *)
  Definition result_only_logger (precision : nat) : logger U (list T) := {|
    lg_start := silent;
    lg_resume := silent;
    lg_next := silent;
    lg_finish := result_only_finish precision
  |}.

  (** [TimeLogger] (logging/mod.rs:105-131).  [L] selects its [start_time],
      [now] reads the monotonic clock in nanoseconds; [elapsed] is the difference
      (saturating at zero). *)
  Variable L : lens U (option Z).
  Variable now : comp U Z.
  Definition time_ms (ns : Z) : Z :=
    (ns / 10 ^ 9 * 1000 + (ns mod 10 ^ 9) / 10 ^ 6)%Z.
  Definition time_logger : logger U (list T) := {|
    lg_start := silent;
    lg_resume := fun _ =>
      do t <- now ;;
      zoom L (fun _ => (Ret tt, Some t));
    lg_next := silent;
    lg_finish := fun _ =>
      do start <- zoom L (fun o => (unwrap o, o)) ;;
      do t <- now ;;
      writeln ("Time elapsed: " ++ fmt_ms fmt (time_ms (Z.max 0 (t - start))) ++ " ms")%string
  |}.
End Printing.
