(** * Specification vocabulary for the genetic optimizer

    Stated on populations, individuals and recorded events only; none of the
    functions of the model (except the data types) is used. *)

From Coq Require Import List Arith ZArith Bool.
From Verif Require Import Base FloatModel GaModel.
Import ListNotations.

(** ** Numeric order of goal values *)

(** [a] is at most [b] when NaN counts as larger than everything. *)
Definition le_nan_last (a b : f64) : Prop :=
  is_nan b = true \/ (is_nan a = false /\ leb a b = true).
(** [a] is strictly smaller than [b] when NaN counts as larger than everything. *)
Definition lt_nan_last (a b : f64) : Prop :=
  is_nan a = false /\ (is_nan b = true \/ ltb a b = true).
(** [a] is at least [b] when NaN counts as smaller than everything. *)
Definition ge_nan_first (a b : f64) : Prop :=
  is_nan b = true \/ (is_nan a = false /\ leb b a = true).
(** [a] is strictly greater than [b] when NaN counts as smaller than everything. *)
Definition gt_nan_first (a b : f64) : Prop :=
  is_nan a = false /\ (is_nan b = true \/ ltb b a = true).

Section Spec.
  Context {T : Type}.
  Notation ev := (ga_event T).

  (** ** Reading a trace *)
  Fixpoint evals {S X} (t : list (event T S X)) : list T :=
    match t with
    | [] => []
    | EEval x :: t' => x :: evals t'
    | _ :: t' => evals t'
    end.

  (** The goal was called on [x] and returned [v]. *)
  Definition evaluated {S X} (t : list (event T S X)) (x : T) (v : f64) : Prop :=
    In (EValue x v) t.

  (** The state of the optimizer that an event exposes to a component. *)
  Definition shows {S X} (e : event T S X) : option S :=
    match e with
    | EStop s _ => Some s
    | ELog _ _ s => Some s
    | ESee s => Some s
    | _ => None
    end.

  (** Seen by a stop checker or a logger. *)
  Definition reported {S X} (t : list (event T S X)) (s : S) : Prop :=
    (exists b, In (EStop s b) t) \/ (exists k i, In (ELog k i s) t).

  (** ** Populations *)

  (** Every individual of the population, and its best and worst individuals,
      carry a value the goal returned for exactly their chromosomes. *)
  Definition own_value (t : list ev) (i : individual T) : Prop :=
    evaluated t (chromosomes i) (fitness i).
  Definition population_valued (t : list ev) (p : population T) : Prop :=
    (forall i, In i (individuals p) -> own_value t i) /\
    (forall i, best_individual p = Some i -> own_value t i) /\
    (forall i, worst_individual p = Some i -> own_value t i).

  (** At every observation the population is valued by the events before it. *)
  Definition observations_valued (t : list ev) : Prop :=
    forall t1 e t2 p, t = t1 ++ e :: t2 -> shows e = Some p -> population_valued t1 p.

  (** [b] is the earliest member of least fitness (the last one if all are NaN). *)
  Definition is_best (l : list (individual T)) (b : individual T) : Prop :=
    exists k, nth_error l k = Some b /\
      (forall i, In i l -> le_nan_last (fitness b) (fitness i)) /\
      (is_nan (fitness b) = false ->
       forall j i, j < k -> nth_error l j = Some i -> lt_nan_last (fitness b) (fitness i)) /\
      (is_nan (fitness b) = true -> k = length l - 1).
  (** [w] is the latest member of greatest fitness. *)
  Definition is_worst (l : list (individual T)) (w : individual T) : Prop :=
    exists k, nth_error l k = Some w /\
      (forall i, In i l -> ge_nan_first (fitness w) (fitness i)) /\
      (forall j i, k < j -> nth_error l j = Some i -> gt_nan_first (fitness w) (fitness i)).

  (** Best and worst of [p'], where [p] is the population of the generation
      before: the extremes, or what they were if nobody is left. *)
  Definition extremes (p p' : population T) : Prop :=
    match individuals p' with
    | [] => best_individual p' = best_individual p /\ worst_individual p' = worst_individual p
    | l => (exists b, best_individual p' = Some b /\ is_best l b) /\
           (exists w, worst_individual p' = Some w /\ is_worst l w)
    end.

  (** ** Legal components *)

  (** The individuals that a component can get hold of through the public methods
      of a population: [iter], [Index], [get_agents], [get_best], [get_worst]. *)
  Definition known (p : population T) (j : individual T) : Prop :=
    In j (individuals p) \/ best_individual p = Some j \/ worst_individual p = Some j.
  (** A selection only leaves individuals that were there (possibly reordered,
      copied or killed): it cannot invent chromosomes or fitness values. *)
  Definition selection_copies {U} (s : population T -> comp U (list (individual T))) : Prop :=
    forall p u l u', s p u = (Ret l, u') ->
      forall i, In i l ->
        exists j, known p j /\ chromosomes i = chromosomes j /\ fitness i = fitness j.
  (** A selection that only kills ("must call kill() for such individuals",
      genetic/mod.rs:340-348). *)
  Definition killed_from (i j : individual T) : Prop :=
    chromosomes j = chromosomes i /\ fitness j = fitness i /\ (alive j = true -> alive i = true).
  Definition selection_kills {U} (s : population T -> comp U (list (individual T))) : Prop :=
    forall p u l u', s p u = (Ret l, u') -> Forall2 killed_from (individuals p) l.

  (** ** One generation, as a sequence of events *)

  (** The goal is called once on each of [xs], in order, returning [vs]. *)
  Definition eval_events {S X} (xs : list T) (vs : list f64) : list (event T S X) :=
    flat_map (fun xv => [EEval (fst xv); EValue (fst xv) (snd xv)]) (combine xs vs).
  (** Newborns: alive, with the value just computed. *)
  Definition newborns (xs : list T) (vs : list f64) : list (individual T) :=
    map (fun xv => Individual (fst xv) (snd xv) true) (combine xs vs).
  (** Every one of [n] loggers is called once, in order. *)
  Definition log_events {S X} (k : log_kind) (n : nat) (s : S) : list (event T S X) :=
    map (fun i => ELog k i s) (seq 0 n).

  Definition is_family (p : population T) (pair : list nat) (parents : list T) : Prop :=
    Forall2 (fun i x => exists ind, nth_error (individuals p) i = Some ind /\ chromosomes ind = x)
            pair parents.

  (** [n] pre-births in sequence turn the children [xs] into [ys]. *)
  Inductive prebirths (p : population T) : nat -> list T -> list ev -> list T -> Prop :=
  | prebirths_nil xs : prebirths p 0 xs [] xs
  | prebirths_cons n xs ys zs t :
      prebirths p n ys t zs ->
      prebirths p (S n) xs (ESee p :: ECall (CPreBirth p xs ys) :: t) zs.

  (** [n] selections in sequence turn the individuals [l] into [l']; the rest of
      the population they see is that of [p]. *)
  Inductive selections (p : population T)
    : nat -> list (individual T) -> list ev -> list (individual T) -> Prop :=
  | selections_nil l : selections p 0 l [] l
  | selections_cons n l l1 l2 t q :
      individuals q = l -> best_individual q = best_individual p ->
      worst_individual q = worst_individual p -> iteration q = iteration p ->
      selections p n l1 t l2 ->
      selections p (S n) l (ESee q :: ECall (CSelect q l1) :: t) l2.

  (** A generation with [npre] pre-births, [nsel] selections and [nlog] loggers
      leads from [p] to [p'] through the events [g]; the chromosomes [born] are
      born in it with values [vals], and [after] is what the selections leave. *)
  Inductive generation (npre nsel nlog : nat) (p : population T) (g : list ev)
    (p' : population T) (born : list T) (vals : list f64) (after : list (individual T)) : Prop :=
  | Generation
      (pairs : list (list nat)) (families children : list (list T)) (mutants : list T)
      (pre_events sel_events : list ev)
      (* each family is read from the population, in the order of the pairs *)
      (gen_families : Forall2 (is_family p) pairs families)
      (gen_children : length children = length families)
      (gen_mutants : length mutants = length (concat children))
      (gen_pre : prebirths p npre mutants pre_events born)
      (gen_values : length vals = length born)
      (gen_sel : selections p nsel (individuals p ++ newborns born vals) sel_events after)
      (gen_survivors : individuals p' = filter (fun i => alive i) after)
      (gen_iteration : iteration p' = iteration p + 1)
      (gen_extremes : extremes p p')
      (gen_events :
         g = [ESee p; ECall (CPairs p pairs)]
             ++ map (fun fc => ECall (CCross (fst fc) (snd fc))) (combine families children)
             ++ map (fun cm => ECall (CMutate (fst cm) (snd cm)))
                    (combine (concat children) mutants)
             ++ pre_events
             ++ eval_events born vals
             ++ sel_events
             ++ log_events LNext nlog p').

  (** The main loop: generations until the stop checker says stop; [gens] lists
      what was born in each generation. *)
  Inductive generations (npre nsel nlog : nat)
    : population T -> list ev -> population T -> list (list (T * f64)) -> Prop :=
  | generations_stop p : generations npre nsel nlog p [EStop p true] p []
  | generations_next p g p1 t p2 born vals after gens :
      generation npre nsel nlog p g p1 born vals after ->
      generations npre nsel nlog p1 t p2 gens ->
      generations npre nsel nlog p (EStop p false :: g ++ t) p2 (combine born vals :: gens).

  (** What was born, read off the trace: what the creator returned, then for each
      generation the mutants as the last pre-birth left them ([pending] holds them
      until the next consultation of the stop checker). *)
  Fixpoint births (pending : list T) (t : list ev) : list T :=
    match t with
    | [] => []
    | ECall (CCreate xs) :: t' => xs ++ births pending t'
    | ECall (CMutate _ c) :: t' => births (pending ++ [c]) t'
    | ECall (CPreBirth _ _ ys) :: t' => births ys t'
    | EStop _ _ :: t' => pending ++ births [] t'
    | _ :: t' => births pending t'
    end.

  (** What logger number [i] and the stop checker go through. *)
  Inductive protocol_event := PLog (k : log_kind) (iteration : nat) | PStop (iteration : nat) (b : bool).
  Fixpoint protocol {S X} (iter : S -> nat) (i : nat) (t : list (event T S X))
    : list protocol_event :=
    match t with
    | [] => []
    | EStop s b :: t' => PStop (iter s) b :: protocol iter i t'
    | ELog k j s :: t' =>
        if j =? i then PLog k (iter s) :: protocol iter i t' else protocol iter i t'
    | _ :: t' => protocol iter i t'
    end.
  (** [k] iterations starting from number [n]. *)
  Fixpoint rounds (n k : nat) : list protocol_event :=
    match k with
    | O => [PStop n true]
    | S k' => PStop n false :: PLog LNext (n + 1) :: rounds (n + 1) k'
    end.
End Spec.

(** ** What stop checkers and loggers are shown *)

(** The best solution (if any) and the iteration number. *)
Definition ga_view {T} (p : population T) : alg_state T :=
  AlgState (option_map (fun i => (chromosomes i, fitness i)) (best_individual p)) (iteration p).
(** The method of a logger that an event of kind [k] calls. *)
Definition told_by {U T} (k : log_kind) (l : logger U T) : alg_state T -> comp U unit :=
  match k with
  | LStart => lg_start l | LResume => lg_resume l | LNext => lg_next l | LFinish => lg_finish l
  end.

(** ** Recorded calls are real *)

(** The event reports something a component of the configuration really answered
    (in some state of the trait objects). *)
Definition genuine {U T} (cfg : ga_config U T) (e : ga_event T) : Prop :=
  match e with
  | EValue x v => exists u u', ga_goal cfg x u = (Ret v, u')
  | EStop p b =>
      exists u u', ga_stop cfg (ga_view p) u = (Ret b, u')
  | ECall (CCreate xs) => exists u u', ga_creator cfg u = (Ret xs, u')
  | ECall (CPairs p pairs) => exists u u', ga_pairing cfg p u = (Ret pairs, u')
  | ECall (CCross parents children) => exists u u', ga_cross cfg parents u = (Ret children, u')
  | ECall (CMutate c c') => exists u u', ga_mutation cfg c u = (Ret c', u')
  | ECall (CPreBirth p xs ys) =>
      exists pb u u', In pb (ga_pre_births cfg) /\ pb p xs u = (Ret ys, u')
  | ECall (CSelect p l) =>
      exists s u u', In s (ga_selections cfg) /\ s p u = (Ret l, u')
  | EEval _ | ELog _ _ _ | ESee _ => True
  end.

(** ** Selections that do not lose the best *)

(** Whatever finite value was alive before, a finite one at most as large is alive
    after. *)
Definition keeps_best {U T} (s : population T -> comp U (list (individual T))) : Prop :=
  forall p u l u', s p u = (Ret l, u') ->
    forall i, In i (individuals p) -> alive i = true -> is_finite (fitness i) = true ->
      exists j, In j l /\ alive j = true /\ is_finite (fitness j) = true /\
                leb (fitness j) (fitness i) = true.
(** At every report after the first iteration the best individual is at least as
    good as every finite value returned before. *)
Definition best_so_far {T} (t : list (ga_event T)) : Prop :=
  forall t1 e t2 p, t = t1 ++ e :: t2 -> reported [e] p -> iteration p > 0 ->
    forall x v, evaluated t1 x v -> is_finite v = true ->
      exists b, best_individual p = Some b /\ leb (fitness b) v = true.

(** ** Search space *)
(** Everything the population holds lies in the set [S]. *)
Definition inside {T} (S : T -> Prop) (p : population T) : Prop :=
  forall i, In i (individuals p) \/ best_individual p = Some i \/ worst_individual p = Some i ->
    S (chromosomes i).
(** The creator only creates points of [S] and the last pre-birth only keeps
    points of [S]. *)
Definition stays_in {U T} (S : T -> Prop) (cfg : ga_config U T) : Prop :=
  (forall u xs u', ga_creator cfg u = (Ret xs, u') -> Forall S xs) /\
  (exists earlier last, ga_pre_births cfg = earlier ++ [last] /\
     forall p xs u ys u', last p xs u = (Ret ys, u') -> Forall S ys).

(** ** Whole runs and histories of API calls *)
Section Histories.
  Context {T : Type}.
  Notation ev := (ga_event T).

  (** Best and worst are the extremes of the population (C02). *)
  Definition settled (p : population T) : Prop :=
    individuals p <> [] ->
    (exists b, best_individual p = Some b /\ is_best (individuals p) b) /\
    (exists w, worst_individual p = Some w /\ is_worst (individuals p) w).

  (** Number of iterations begun in a trace: refusals of the stop checker. *)
  Fixpoint iterations_of {S X} (t : list (event T S X)) : nat :=
    match t with
    | [] => 0
    | EStop _ false :: t' => iterations_of t' + 1
    | _ :: t' => iterations_of t'
    end.

  (** [ga_reach ok p h]: a [GeneticOptimizer] holding the population [p] after
      some sequence of API calls all of which returned; [h] are the events since
      the beginning of the last [find_min] (or since the optimizer was made).
      Every call may use another configuration satisfying [ok] (the setters
      replace any component) and finds the trait objects in any state. *)
  Inductive ga_reach {U} (ok : ga_config U T -> Prop) : population T -> list ev -> Prop :=
  | ga_reach_new : ga_reach ok (Population [] None None 0) []
  | ga_reach_find cfg fuel u p h r p' u' t :
      ok cfg -> ga_reach ok p h ->
      ga_find_min cfg fuel p u = (Ret (r, p'), u', t) -> ga_reach ok p' t
  | ga_reach_next cfg fuel u p h r p' u' t :
      ok cfg -> ga_reach ok p h ->
      ga_next_iterations cfg fuel p u = (Ret (r, p'), u', t) -> ga_reach ok p' (h ++ t).
End Histories.
