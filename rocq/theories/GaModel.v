(** * The genetic optimizer: optlib/src/genetic/mod.rs and optlib/src/lib.rs *)

From Coq Require Import List Arith ZArith Bool.
From Verif Require Import Base FloatModel.
Import ListNotations.

(** [AlgorithmState<T>] (optlib/src/lib.rs:41-44): all that a stop checker or a
    logger can see of an optimizer. *)
Record alg_state (T : Type) := AlgState {
  as_best : option (T * f64);       (* get_best_solution() *)
  as_iter : nat                     (* get_iteration() *)
}.
Arguments AlgState {T} as_best as_iter.
Arguments as_best {T} a.
Arguments as_iter {T} a.

(** [Logger<T>] (optlib/src/tools/logging/mod.rs:12-26). *)
Record logger (U T : Type) := Logger {
  lg_start : alg_state T -> comp U unit;
  lg_resume : alg_state T -> comp U unit;
  lg_next : alg_state T -> comp U unit;
  lg_finish : alg_state T -> comp U unit
}.
Arguments Logger {U T} lg_start lg_resume lg_next lg_finish.
Arguments lg_start {U T} l.
Arguments lg_resume {U T} l.
Arguments lg_next {U T} l.
Arguments lg_finish {U T} l.

(** ** Observable events of a run

    Everything that crosses the boundary between the optimizer and the trait
    objects is recorded.  [S] is a snapshot of the optimizer state, [X] the record
    of the calls that are specific to one optimizer. *)
Inductive log_kind := LStart | LResume | LNext | LFinish.
Inductive event (T S X : Type) : Type :=
| EEval (x : T)                        (* the goal is called on x *)
| EValue (x : T) (v : f64)             (* ... and returned v *)
| EStop (s : S) (b : bool)             (* the stop checker saw s and answered b *)
| ELog (k : log_kind) (i : nat) (s : S)  (* logger number i is called with s *)
| ESee (s : S)                         (* another component is called and sees s *)
| ECall (x : X).                       (* ... and returned *)
Arguments EEval {T S X} x.
Arguments EValue {T S X} x v.
Arguments EStop {T S X} s b.
Arguments ELog {T S X} k i s.
Arguments ESee {T S X} s.
Arguments ECall {T S X} x.

(** [self.goal.get(x)], recorded. *)
Definition call_goal {U T S X} (goal : T -> comp U f64) (x : T) : M U (event T S X) f64 :=
  emit (EEval x) ;;;
  v <- call (goal x) ;;
  emit (EValue x v) ;;;
  mret v.

(** [self.stop_checker.can_stop(state)], recorded. *)
Definition call_stop {U T S X} (view : S -> alg_state T) (stop : alg_state T -> comp U bool) (s : S)
  : M U (event T S X) bool :=
  b <- call (stop (view s)) ;;
  emit (EStop s b) ;;;
  mret b.

(** [for logger in &mut self.loggers { logger.xxx(state) }], recorded. *)
Definition lg_method {U T} (k : log_kind) (l : logger U T) : alg_state T -> comp U unit :=
  match k with
  | LStart => lg_start l | LResume => lg_resume l
  | LNext => lg_next l | LFinish => lg_finish l
  end.
Definition call_loggers {U T S X} (view : S -> alg_state T) (k : log_kind)
  (ls : list (logger U T)) (s : S) : M U (event T S X) unit :=
  mfor (fun il => emit (ELog k (fst il) s) ;;; call (lg_method k (snd il) (view s)))
       (enumerate ls).

(** A call of another component, recorded by [rec] when it returns. *)
Definition call_comp {U T S X A} (rec : A -> X) (c : comp U A) : M U (event T S X) A :=
  r <- call c ;;
  emit (ECall (rec r)) ;;;
  mret r.

(** ** Individuals and populations *)

(** [Individual<T>] (genetic/mod.rs:31-40). [T::clone] is taken to return an
    equal value, so [Clone for Individual] (42-50) is the identity. *)
Record individual (T : Type) := Individual {
  chromosomes : T;
  fitness : f64;
  alive : bool
}.
Arguments Individual {T} chromosomes fitness alive.
Arguments chromosomes {T} i.
Arguments fitness {T} i.
Arguments alive {T} i.

(** [Individual::kill] (genetic/mod.rs:79-81). *)
Definition kill {T} (i : individual T) : individual T :=
  Individual (chromosomes i) (fitness i) false.

(** [Population<T>] without the goal object (genetic/mod.rs:87-101). *)
Record population (T : Type) := Population {
  individuals : list (individual T);
  best_individual : option (individual T);
  worst_individual : option (individual T);
  iteration : nat
}.
Arguments Population {T} individuals best_individual worst_individual iteration.
Arguments individuals {T} p.
Arguments best_individual {T} p.
Arguments worst_individual {T} p.
Arguments iteration {T} p.

(** [Population::new] and [Population::reset] (genetic/mod.rs:146-162). *)
Definition pop_new {T} : population T := Population [] None None 0.
Definition pop_reset {T} (p : population T) : population T := Population [] None None 0.

Definition set_individuals {T} (p : population T) (l : list (individual T)) : population T :=
  Population l (best_individual p) (worst_individual p) (iteration p).

(** [impl AlgorithmState for Population] (genetic/mod.rs:292-303). *)
Definition pop_view {T} (p : population T) : alg_state T :=
  AlgState (match best_individual p with
            | None => None
            | Some i => Some (chromosomes i, fitness i)
            end)
           (iteration p).

(** [Population::len_alive] (genetic/mod.rs:200-205) and [len] (218-220). *)
Definition len_alive {T} (l : list (individual T)) : nat := length (filter alive l).

(** [individuals_min_cmp] (genetic/mod.rs:225-242): NaN greater than others. *)
Definition individuals_min_cmp {T} (i1 i2 : individual T) : outcome comparison :=
  let goal_1 := fitness i1 in
  let goal_2 := fitness i2 in
  if is_nan goal_1 && is_nan goal_2 then Ret Gt
  else if is_nan goal_1 then Ret Gt
  else if is_nan goal_2 then Ret Lt
  else unwrap (partial_cmp goal_1 goal_2).

(** [individuals_max_cmp] (genetic/mod.rs:247-264): NaN less than others. *)
Definition individuals_max_cmp {T} (i1 i2 : individual T) : outcome comparison :=
  let goal_1 := fitness i1 in
  let goal_2 := fitness i2 in
  if is_nan goal_1 && is_nan goal_2 then Ret Lt
  else if is_nan goal_1 then Ret Lt
  else if is_nan goal_2 then Ret Gt
  else unwrap (partial_cmp goal_1 goal_2).

(** [update_best_worst_individuals] (genetic/mod.rs:105-125): on an empty
    population both stay what they were. *)
Definition update_best_worst {T} (p : population T) : outcome (population T) :=
  let! best := min_by individuals_min_cmp (individuals p) in
  let p1 := match best with
            | Some i => Population (individuals p) (Some i) (worst_individual p) (iteration p)
            | None => p
            end in
  let! worst := max_by individuals_max_cmp (individuals p1) in
  Ret (match worst with
       | Some i => Population (individuals p1) (best_individual p1) (Some i) (iteration p1)
       | None => p1
       end).

(** [Population::next_iteration] (genetic/mod.rs:267-269); the counter is not
    bounded by 2^64 in the model. *)
Definition pop_next_iteration {T} (p : population T) : population T :=
  Population (individuals p) (best_individual p) (worst_individual p) (iteration p + 1).

(** [Population::remove_dead] (genetic/mod.rs:271-273). *)
Definition remove_dead {T} (p : population T) : population T :=
  set_individuals p (filter alive (individuals p)).

(** ** The optimizer *)

(** The boxed trait objects of [GeneticOptimizer] (genetic/mod.rs:365-375) plus
    the goal of its population.  A [Selection] gets [&mut Population]; the fields
    of [Population] are private, so through the public API it can only replace
    the individuals in place: it is modelled as returning the new list. *)
Record ga_config (U T : Type) := GaConfig {
  ga_goal : T -> comp U f64;
  ga_stop : alg_state T -> comp U bool;
  ga_creator : comp U (list T);
  ga_pairing : population T -> comp U (list (list nat));
  ga_cross : list T -> comp U (list T);
  ga_mutation : T -> comp U T;
  ga_selections : list (population T -> comp U (list (individual T)));
  ga_pre_births : list (population T -> list T -> comp U (list T));
  ga_loggers : list (logger U T)
}.
Arguments ga_goal {U T} g.
Arguments ga_stop {U T} g.
Arguments ga_creator {U T} g.
Arguments ga_pairing {U T} g.
Arguments ga_cross {U T} g.
Arguments ga_mutation {U T} g.
Arguments ga_selections {U T} g.
Arguments ga_pre_births {U T} g.
Arguments ga_loggers {U T} g.
Arguments GaConfig {U T}.

(** [GeneticOptimizer::new] (genetic/mod.rs:379-400): no loggers. *)
Definition ga_new {U T} goal stop creator pairing cross mutation selections pre_births
  : ga_config U T :=
  GaConfig goal stop creator pairing cross mutation selections pre_births [].

(** What the components of the GA return (with what they were given). *)
Inductive ga_call (T : Type) : Type :=
| CCreate (xs : list T)                                (* creator.create() *)
| CPairs (p : population T) (pairs : list (list nat))  (* pairing.get_pairs(p) *)
| CCross (parents children : list T)                   (* cross.cross(parents) *)
| CMutate (c c' : T)                                   (* mutation.mutation(c) *)
| CPreBirth (p : population T) (before after : list T) (* pre_birth(p, &mut children) *)
| CSelect (p : population T) (after : list (individual T)). (* selection.kill(&mut p) *)
Arguments CCreate {T} xs.
Arguments CPairs {T} p pairs.
Arguments CCross {T} parents children.
Arguments CMutate {T} c c'.
Arguments CPreBirth {T} p before after.
Arguments CSelect {T} p after.

Notation ga_event T := (event T (population T) (ga_call T)).

Section Genetic.
  Context {U T : Type}.
  Variable cfg : ga_config U T.
  Notation GA A := (M U (ga_event T) A).

  (** [Population::push] (genetic/mod.rs:165-174). *)
  Definition pop_push (p : population T) (x : T) : GA (population T) :=
    v <- call_goal (ga_goal cfg) x ;;
    mret (set_individuals p (individuals p ++ [Individual x v true])).

  (** [Population::append] (genetic/mod.rs:178-182). *)
  Definition pop_append (p : population T) (xs : list T) : GA (population T) :=
    mfold pop_push xs p.

  (** The chromosomes of one family: [self.population[i].get_chromosomes()] for
      [i] in the pair (genetic/mod.rs:441-444). *)
  Definition family (p : population T) (pair : list nat) : outcome (list T) :=
    omap (fun i => let! ind := index (individuals p) i in Ret (chromosomes ind)) pair.

  (** [run_pairing] (genetic/mod.rs:436-451). *)
  Definition run_pairing (p : population T) : GA (list T) :=
    emit (ESee p) ;;;
    pairs <- call_comp (CPairs p) (ga_pairing cfg p) ;;
    mfold (fun new_chromosomes pair =>
             cross_chromosomes <- pure (family p pair) ;;
             children <- call_comp (CCross cross_chromosomes) (ga_cross cfg cross_chromosomes) ;;
             mret (new_chromosomes ++ children)) pairs [].

  (** One pass of the [while] body (genetic/mod.rs:462-492). *)
  Definition ga_iteration (p : population T) : GA (population T) :=
    children_chromo_list <- run_pairing p ;;
    children_mutants <- mmapM (fun c => call_comp (CMutate c) (ga_mutation cfg c))
                              children_chromo_list ;;
    newborn <- mfold (fun cs pre_birth =>
                        emit (ESee p) ;;;
                        call_comp (CPreBirth p cs) (pre_birth p cs))
                     (ga_pre_births cfg) children_mutants ;;
    p1 <- pop_append p newborn ;;
    p2 <- mfold (fun q selection =>
                   emit (ESee q) ;;;
                   l <- call_comp (CSelect q) (selection q) ;;
                   mret (set_individuals q l)) (ga_selections cfg) p1 ;;
    p3 <- pure (update_best_worst (remove_dead p2)) ;;
    let p4 := pop_next_iteration p3 in
    call_loggers pop_view LNext (ga_loggers cfg) p4 ;;;
    mret p4.

  (** [while !self.stop_checker.can_stop(&self.population) { ... }]
      (genetic/mod.rs:461-493). *)
  Fixpoint ga_loop (fuel : nat) (p : population T) : GA (population T) :=
    match fuel with
    | O => nofuel
    | S fuel' =>
        stop <- call_stop pop_view (ga_stop cfg) p ;;
        if (stop : bool) then mret p
        else p' <- ga_iteration p ;; ga_loop fuel' p'
    end.

  (** [IterativeOptimizer::next_iterations] (genetic/mod.rs:456-503): returns the
      solution and the new state of [self.population]. *)
  Definition ga_next_iterations (fuel : nat) (p : population T)
    : GA (option (T * f64) * population T) :=
    call_loggers pop_view LResume (ga_loggers cfg) p ;;;
    p' <- ga_loop fuel p ;;
    call_loggers pop_view LFinish (ga_loggers cfg) p' ;;;
    mret (match best_individual p' with
          | None => None
          | Some i => Some (chromosomes i, fitness i)
          end, p').

  (** [Optimizer::find_min] (genetic/mod.rs:508-520). *)
  Definition ga_find_min (fuel : nat) (p : population T)
    : GA (option (T * f64) * population T) :=
    let p0 := pop_reset p in
    start_chromo_list <- call_comp CCreate (ga_creator cfg) ;;
    p1 <- pop_append p0 start_chromo_list ;;
    call_loggers pop_view LStart (ga_loggers cfg) p1 ;;;
    ga_next_iterations fuel p1.
End Genetic.

(** [GoalFromFunction] (optlib/src/lib.rs:74-89). *)
Definition goal_from_function {U T} (f : T -> f64) : T -> comp U f64 := fun x => cret (f x).

(** ** The setters (genetic/mod.rs:402-434) *)
Section Setters.
  Context {U T : Type}.
  Definition ga_set_loggers (c : ga_config U T) v := GaConfig (ga_goal c) (ga_stop c) (ga_creator c)
    (ga_pairing c) (ga_cross c) (ga_mutation c) (ga_selections c) (ga_pre_births c) v.
  Definition ga_set_pairing (c : ga_config U T) v := GaConfig (ga_goal c) (ga_stop c) (ga_creator c)
    v (ga_cross c) (ga_mutation c) (ga_selections c) (ga_pre_births c) (ga_loggers c).
  Definition ga_set_cross (c : ga_config U T) v := GaConfig (ga_goal c) (ga_stop c) (ga_creator c)
    (ga_pairing c) v (ga_mutation c) (ga_selections c) (ga_pre_births c) (ga_loggers c).
  Definition ga_set_mutation (c : ga_config U T) v := GaConfig (ga_goal c) (ga_stop c) (ga_creator c)
    (ga_pairing c) (ga_cross c) v (ga_selections c) (ga_pre_births c) (ga_loggers c).
  Definition ga_set_selection (c : ga_config U T) v := GaConfig (ga_goal c) (ga_stop c) (ga_creator c)
    (ga_pairing c) (ga_cross c) (ga_mutation c) v (ga_pre_births c) (ga_loggers c).
  Definition ga_set_pre_birth (c : ga_config U T) v := GaConfig (ga_goal c) (ga_stop c) (ga_creator c)
    (ga_pairing c) (ga_cross c) (ga_mutation c) (ga_selections c) v (ga_loggers c).
  Definition ga_set_stop_checker (c : ga_config U T) v := GaConfig (ga_goal c) v (ga_creator c)
    (ga_pairing c) (ga_cross c) (ga_mutation c) (ga_selections c) (ga_pre_births c) (ga_loggers c).
End Setters.
