(** * Stop checkers: optlib/src/tools/stopchecker/mod.rs *)

From Coq Require Import List Arith ZArith Bool.
From Verif Require Import Base FloatModel GaModel.
Import ListNotations.

(** [StopChecker<T>] (stopchecker/mod.rs:8-11). *)
Definition stop_checker (U T : Type) : Type := alg_state T -> comp U bool.

(** [CompositeAny::new], [CompositeAll::new] (stopchecker/mod.rs:20-23, 45-48):
    the list must not be empty. *)
Definition composite_new {U T} (stop_checkers : list (stop_checker U T))
  : outcome (list (stop_checker U T)) :=
  let! _ := oassert (negb (length stop_checkers =? 0)) in Ret stop_checkers.

(** [CompositeAny::can_stop] (stopchecker/mod.rs:27-35): stops asking at the
    first [true]. *)
Fixpoint composite_any {U T} (stop_checkers : list (stop_checker U T)) : stop_checker U T :=
  fun s => match stop_checkers with
           | [] => cret false
           | checker :: rest =>
               do b <- checker s ;;
               if (b : bool) then cret true else composite_any rest s
           end.

(** [CompositeAll::can_stop] (stopchecker/mod.rs:52-60): stops asking at the
    first [false]. *)
Fixpoint composite_all {U T} (stop_checkers : list (stop_checker U T)) : stop_checker U T :=
  fun s => match stop_checkers with
           | [] => cret true
           | checker :: rest =>
               do b <- checker s ;;
               if negb b then cret false else composite_all rest s
           end.

(** [MaxIterations::can_stop] (stopchecker/mod.rs:78-82). *)
Definition max_iterations {U T} (max_iter : nat) : stop_checker U T :=
  fun s => cret (max_iter <=? as_iter s).

(** [Threshold::can_stop] (stopchecker/mod.rs:143-150). *)
Definition threshold {U T} (t : f64) : stop_checker U T :=
  fun s => cret (match as_best s with
                 | None => false
                 | Some (_, goal) => leb goal t
                 end).

(** [GoalNotChange] (stopchecker/mod.rs:85-109): the mutable part of its state. *)
Record gnc := Gnc { old_goal : f64; change_iter : nat }.
Definition gnc_new : gnc := Gnc f64_MAX 0.

(** [GoalNotChange::can_stop] (stopchecker/mod.rs:111-126).  [dbg]: overflow
    checks on. *)
Definition goal_not_change {T} (np64 : nan_policy 53 1024) (dbg : bool) (max_iter : nat)
  (delta : f64) : stop_checker gnc T :=
  fun s g =>
    match as_best s with
    | None => (Ret false, g)
    | Some (_, best_goal) =>
        let d := b_abs (b_sub np64 best_goal (old_goal g)) in
        let g' := if ltb delta d then Gnc best_goal (as_iter s) else g in
        (let! k := usize_sub dbg (Z.of_nat (as_iter s)) (Z.of_nat (change_iter g')) in
         Ret (Z.of_nat max_iter <? k)%Z, g')
    end.
