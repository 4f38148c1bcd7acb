(** * Specification vocabulary for the particle swarm optimizer

    Stated on swarms, particles and recorded events only; of the model only the
    data types (and, for histories, the entry points) are used. *)

From Coq Require Import List Arith ZArith Bool.
From Verif Require Import Base FloatModel GaModel PsoModel SpecGa.
Import ListNotations.

(** ** Numeric order with every non-finite value last *)
Definition le_fin (a b : f64) : Prop :=
  is_finite b = false \/ (is_finite a = true /\ leb a b = true).
Definition lt_fin (a b : f64) : Prop :=
  is_finite a = true /\ (is_finite b = false \/ ltb a b = true).

Section Extremes.
  Context {A : Type}.
  (** [a] is the earliest member of [l] of least [f]. *)
  Definition first_least (f : A -> f64) (l : list A) (a : A) : Prop :=
    exists k, nth_error l k = Some a /\
      (forall b, In b l -> le_fin (f a) (f b)) /\
      (forall j b, j < k -> nth_error l j = Some b -> lt_fin (f a) (f b)).
  (** ... the earliest, the latest, some member of greatest [f]. *)
  Definition first_greatest (f : A -> f64) (l : list A) (a : A) : Prop :=
    exists k, nth_error l k = Some a /\
      (forall b, In b l -> le_fin (f b) (f a)) /\
      (forall j b, j < k -> nth_error l j = Some b -> lt_fin (f b) (f a)).
  Definition last_greatest (f : A -> f64) (l : list A) (a : A) : Prop :=
    exists k, nth_error l k = Some a /\
      (forall b, In b l -> le_fin (f b) (f a)) /\
      (forall j b, k < j -> nth_error l j = Some b -> lt_fin (f b) (f a)).
  Definition greatest (f : A -> f64) (l : list A) (a : A) : Prop :=
    In a l /\ forall b, In b l -> le_fin (f b) (f a).
End Extremes.

(** ** Reading a trace *)
Section Reading.
  Context {T S X : Type}.
  (** The answers of the goal, in order. *)
  Fixpoint answers (t : list (event T S X)) : list (T * f64) :=
    match t with
    | [] => []
    | EValue x v :: t' => (x, v) :: answers t'
    | _ :: t' => answers t'
    end.
  (** The states the stop checker was asked about. *)
  Fixpoint consulted (t : list (event T S X)) : list S :=
    match t with
    | [] => []
    | EStop s _ :: t' => s :: consulted t'
    | _ :: t' => consulted t'
    end.
End Reading.

Section Spec.
  Context {T : Type}.
  Notation ev := (pso_event T).

  (** Where a particle is and what the goal is there. *)
  Definition place (p : particle T) : list T * f64 := (coordinates p, value p).

  (** ** Moves of one particle *)
  Definition best_memory (p : particle T) := (best_personal_coordinates p, best_personal_value p).
  Definition worst_memory (p : particle T) := (worst_personal_coordinates p, worst_personal_value p).
  (** [p'] is [p] after moving with velocity [v] to [x] where the goal is [y]. *)
  Definition moved (p p' : particle T) (v x : list T) (y : f64) : Prop :=
    velocity p' = v /\ coordinates p' = x /\ value p' = y /\
    first_least snd [best_memory p; (x, y)] (best_memory p') /\
    first_greatest snd [worst_memory p; (x, y)] (worst_memory p').

  (** Its memories are the extremes of the places it has been to (the earliest
      ones among equals). *)
  Definition remembers (places : list (list T * f64)) (p : particle T) : Prop :=
    first_least snd places (best_memory p) /\ first_greatest snd places (worst_memory p).

  (** ** Swarms *)

  (** Everything the swarm holds carries a value the goal returned for it. *)
  Definition particle_valued (t : list ev) (p : particle T) : Prop :=
    evaluated t (coordinates p) (value p) /\
    evaluated t (best_personal_coordinates p) (best_personal_value p) /\
    evaluated t (worst_personal_coordinates p) (worst_personal_value p).
  Definition holds (s : swarm T) (p : particle T) : Prop :=
    In p (particles s) \/ best_particle s = Some p \/ worst_particle s = Some p.
  Definition swarm_valued (t : list ev) (s : swarm T) : Prop :=
    forall p, holds s p -> particle_valued t p.

  (** The best particle of [s] stands where the least value of [t] was first
      found, the worst one where a greatest value of [t] was found. *)
  Definition extremes_of (t : list ev) (s : swarm T) : Prop :=
    match answers t with
    | [] => best_particle s = None /\ worst_particle s = None
    | l => (exists b, best_particle s = Some b /\ first_least snd l (place b)) /\
           (exists w, worst_particle s = Some w /\ greatest snd l (place w))
    end.

  (** [s2] has a best at least as good and a worst at least as bad as [s1]. *)
  Definition no_worse (s1 s2 : swarm T) : Prop :=
    (forall b1, best_particle s1 = Some b1 ->
       exists b2, best_particle s2 = Some b2 /\ le_fin (value b2) (value b1)) /\
    (forall w1, worst_particle s1 = Some w1 ->
       exists w2, worst_particle s2 = Some w2 /\ le_fin (value w1) (value w2)).

  (** What the components see during a run: every swarm is valued by the events
      before, stop checkers and loggers see the extremes of all answers so far, and
      from one observation to a later one nothing gets lost. *)
  Definition swarms_valued (t : list ev) : Prop :=
    forall t1 e t2 s, t = t1 ++ e :: t2 -> shows e = Some s -> swarm_valued t1 s.
  Definition reports_extremes (t : list ev) : Prop :=
    forall t1 e t2 s, t = t1 ++ e :: t2 -> reported [e] s -> extremes_of t1 s.
  Definition never_worse (t : list ev) : Prop :=
    forall t1 e1 t2 e2 t3 s1 s2, t = t1 ++ e1 :: t2 ++ e2 :: t3 ->
      shows e1 = Some s1 -> shows e2 = Some s2 -> no_worse s1 s2.

  (** ** One iteration as a sequence of events *)

  (** [n] post-processors of the kind recorded by [mk] turn [x] into [y]. *)
  Inductive chain (mk : list T -> list T -> pso_call T)
    : nat -> list T -> list ev -> list T -> Prop :=
  | chain_nil x : chain mk 0 x [] x
  | chain_cons n x y z t : chain mk n y t z -> chain mk (S n) x (ECall (mk x y) :: t) z.

  Definition pointwise_sum {FT : FloatTrait T} (x v : list T) : list T :=
    map (fun xv => fadd (fst xv) (snd xv)) (combine x v).

  (** Particle number [n] of [s] moves, through the events [g]; nothing else of
      the swarm changes. *)
  Inductive particle_step {FT : FloatTrait T} (nvel nmove n : nat) (s : swarm T) (g : list ev)
    (s' : swarm T) : Prop :=
  | ParticleStep p p' v0 v x y gv gm
      (step_particle : nth_error (particles s) n = Some p)
      (step_velocity : chain PPostVelocity nvel v0 gv v)
      (step_move : chain PPostMove nmove (pointwise_sum (coordinates p) v) gm x)
      (step_moved : moved p p' v x y)
      (step_particles : particles s' = firstn n (particles s) ++ p' :: skipn (S n) (particles s))
      (step_best : best_particle s' = best_particle s)
      (step_worst : worst_particle s' = worst_particle s)
      (step_iteration : sw_iteration s' = sw_iteration s)
      (step_events : g = [ESee s; ECall (PCalc s p v0)] ++ gv ++ gm ++ [EEval x; EValue x y]).
  Inductive particle_steps {FT : FloatTrait T} (nvel nmove : nat)
    : list nat -> swarm T -> list ev -> swarm T -> Prop :=
  | particle_steps_nil s : particle_steps nvel nmove [] s [] s
  | particle_steps_cons n ns s g s1 t s2 :
      particle_step nvel nmove n s g s1 -> particle_steps nvel nmove ns s1 t s2 ->
      particle_steps nvel nmove (n :: ns) s (g ++ t) s2.

  Definition option_list {A} (o : option A) : list A :=
    match o with Some a => [a] | None => [] end.

  (** Where all particles of the swarms [l] are; where particle [n] is in each of them. *)
  Definition all_places (l : list (swarm T)) : list (list T * f64) :=
    flat_map (fun s => map place (particles s)) l.
  Definition all_points (l : list (swarm T)) : list (list T) :=
    flat_map (fun s => map coordinates (particles s)) l.
  Definition trail (n : nat) (l : list (swarm T)) : list (list T * f64) :=
    flat_map (fun s => map place (option_list (nth_error (particles s) n))) l.

  (** All particles move in order, then best and worst are renewed: the best is
      the old one unless a particle is strictly better, the worst likewise. *)
  Inductive pso_round {FT : FloatTrait T} (nvel nmove nlog : nat) (s : swarm T) (g : list ev)
    (s' : swarm T) : Prop :=
  | PsoRound s1 g1
      (round_steps : particle_steps nvel nmove (seq 0 (length (particles s))) s g1 s1)
      (round_particles : particles s' = particles s1)
      (round_best : forall b, best_particle s' = Some b <->
         first_least value (option_list (best_particle s) ++ particles s') b)
      (round_worst : forall w, worst_particle s' = Some w <->
         (worst_particle s = Some w /\ (forall p, In p (particles s') -> le_fin (value p) (value w))) \/
         (last_greatest value (particles s') w /\
          forall w0, worst_particle s = Some w0 -> lt_fin (value w0) (value w)))
      (round_iteration : sw_iteration s' = sw_iteration s + 1)
      (round_events : g = g1 ++ log_events LNext nlog s').

  (** The swarm is made: every starting point goes through the post-moves, then
      the goal is called on each. *)
  Inductive chains (nmove : nat) : list (list T) -> list ev -> list (list T) -> Prop :=
  | chains_nil : chains nmove [] [] []
  | chains_cons x y xs ys t1 t2 :
      chain PPostMove nmove x t1 y -> chains nmove xs t2 ys ->
      chains nmove (x :: xs) (t1 ++ t2) (y :: ys).
  Inductive pso_start (nmove : nat) (g : list ev) (s : swarm T) : Prop :=
  | PsoStart coords vels g1 coords' ys
      (start_vels : length vels = length coords)
      (start_moves : chains nmove coords g1 coords')
      (start_values : length ys = length coords)
      (start_particles : particles s =
         map (fun xvy => let '(x, v, y) := xvy in Particle x v y x y x y)
             (combine (combine coords' vels) ys))
      (start_best : forall b, best_particle s = Some b <-> first_least value (particles s) b)
      (start_worst : forall w, worst_particle s = Some w <-> last_greatest value (particles s) w)
      (start_iteration : sw_iteration s = 0)
      (start_events : g = [ECall (PCoordinates coords); ECall (PVelocities vels)] ++ g1
                          ++ eval_events coords' ys).

  Inductive pso_rounds {FT : FloatTrait T} (nvel nmove nlog : nat)
    : swarm T -> list ev -> swarm T -> nat -> Prop :=
  | pso_rounds_stop s : pso_rounds nvel nmove nlog s [EStop s true] s 0
  | pso_rounds_next s g s1 t s2 k :
      pso_round nvel nmove nlog s g s1 ->
      pso_rounds nvel nmove nlog s1 t s2 k ->
      pso_rounds nvel nmove nlog s (EStop s false :: g ++ t) s2 (S k).
End Spec.

(** What stop checkers and loggers are shown. *)
Definition pso_view {T} (s : swarm T) : alg_state (list T) :=
  AlgState (option_map place (best_particle s)) (sw_iteration s).

(** ** Recorded calls are real *)
Definition pso_genuine {U T} (cfg : pso_config U T) (e : pso_event T) : Prop :=
  match e with
  | EValue x v => exists u u', pso_goal cfg x u = (Ret v, u')
  | EStop s b =>
      exists u u', pso_stop cfg (pso_view s) u = (Ret b, u')
  | ECall (PCoordinates xs) => exists u u', pso_coordinates cfg u = (Ret xs, u')
  | ECall (PVelocities vs) => exists u u', pso_velocities cfg u = (Ret vs, u')
  | ECall (PCalc s p v) => exists u u', pso_calc cfg s p u = (Ret v, u')
  | ECall (PPostVelocity v w) =>
      exists f u u', In f (pso_post_velocity cfg) /\ f v u = (Ret w, u')
  | ECall (PPostMove x y) =>
      exists f u u', In f (pso_post_move cfg) /\ f x u = (Ret y, u')
  | EEval _ | ELog _ _ _ | ESee _ => True
  end.

(** ** Search space *)
(** The last post-move only returns points of [S]. *)
Definition pso_stays_in {U T} (S : list T -> Prop) (cfg : pso_config U T) : Prop :=
  exists earlier last, pso_post_move cfg = earlier ++ [last] /\
    forall x u y u', last x u = (Ret y, u') -> S y.
(** Everything the swarm holds lies in [S]. *)
Definition swarm_inside {T} (S : list T -> Prop) (s : swarm T) : Prop :=
  forall p, holds s p ->
    S (coordinates p) /\ S (best_personal_coordinates p) /\ S (worst_personal_coordinates p).

(** Every starting point has dimension [d]; velocities have a component for each
    coordinate; post-processing keeps lengths. *)
Definition keeps_dimension {U T} (d : nat) (cfg : pso_config U T) : Prop :=
  (forall u xs u', pso_coordinates cfg u = (Ret xs, u') -> Forall (fun x => length x = d) xs) /\
  (forall s p u v u', length (coordinates p) = d -> pso_calc cfg s p u = (Ret v, u') -> d <= length v) /\
  (forall f v u w u', In f (pso_post_velocity cfg) -> f v u = (Ret w, u') -> length w = length v) /\
  (forall f x u y u', In f (pso_post_move cfg) -> f x u = (Ret y, u') -> length y = length x).

(** What may be done to a single particle, and where it has been after that. *)
Inductive particle_op (T : Type) : Type :=
| OpVelocity (v : list T)
| OpMove (x : list T) (y : f64).
Arguments OpVelocity {T} v.
Arguments OpMove {T} x y.
Fixpoint visited {T} (ops : list (particle_op T)) : list (list T * f64) :=
  match ops with
  | [] => []
  | OpVelocity _ :: ops' => visited ops'
  | OpMove x y :: ops' => (x, y) :: visited ops'
  end.

(** ** Histories of API calls (see [ga_reach]) *)
Inductive pso_reach {U T} {FT : FloatTrait T} (ok : pso_config U T -> Prop)
  : swarm T -> list (pso_event T) -> Prop :=
| pso_reach_new : pso_reach ok (Swarm [] None None 0) []
| pso_reach_find cfg fuel u s h r s' u' t :
    ok cfg -> pso_reach ok s h ->
    pso_find_min cfg fuel s u = (Ret (r, s'), u', t) -> pso_reach ok s' t
| pso_reach_next cfg fuel u s h r s' u' t :
    ok cfg -> pso_reach ok s h ->
    pso_next_iterations cfg fuel s u = (Ret (r, s'), u', t) -> pso_reach ok s' (h ++ t).
