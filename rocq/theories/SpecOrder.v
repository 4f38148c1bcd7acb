(** * Two programs that differ only in the scale of their goal values

    [R v w]: the goal value [v] of the first program corresponds to [w] of the second.
    [W u1 u2]: the states of the other objects of the two programs correspond. *)

From Coq Require Import List.
From Verif Require Import Base FloatModel GaModel PsoModel SpecGa.
Import ListNotations.

(** Corresponding values compare in the same way, and are finite or NaN together. *)
Definition same_order (R : f64 -> f64 -> Prop) : Prop :=
  forall a a', R a a' ->
    is_finite a' = is_finite a /\ is_nan a' = is_nan a /\
    forall b b', R b b' -> partial_cmp a' b' = partial_cmp a b.

(** Two goal functions that rank all points in the same way. *)
Definition by_rank {T} (f g : T -> f64) : f64 -> f64 -> Prop := fun v w => exists x, v = f x /\ w = g x.
Definition same_ranking {T} (f g : T -> f64) : Prop := same_order (by_rank f g).

Definition alike_option {A B} (R : A -> B -> Prop) (o : option A) (o' : option B) : Prop :=
  match o, o' with
  | Some a, Some b => R a b
  | None, None => True
  | _, _ => False
  end.
Definition alike_outcome {A B} (R : A -> B -> Prop) (o : outcome A) (o' : outcome B) : Prop :=
  match o, o' with
  | Ret a, Ret b => R a b
  | Panic, Panic => True
  | NoFuel, NoFuel => True
  | _, _ => False
  end.
(** Two method calls that end alike and leave corresponding states. *)
Definition alike_comp {U1 U2 A B} (W : U1 -> U2 -> Prop) (R : A -> B -> Prop)
  (c : comp U1 A) (c' : comp U2 B) : Prop :=
  forall u1 u2, W u1 u2 ->
    alike_outcome R (fst (c u1)) (fst (c' u2)) /\ W (snd (c u1)) (snd (c' u2)).

Section Alike.
  Variable R : f64 -> f64 -> Prop.

  Definition alike_solution {T} (a b : T * f64) : Prop := fst a = fst b /\ R (snd a) (snd b).
  Definition alike_view {T} (a b : alg_state T) : Prop :=
    alike_option alike_solution (as_best a) (as_best b) /\ as_iter a = as_iter b.

  (** The same individuals, the same particles, with corresponding values. *)
  Definition alike_individual {T} (i j : individual T) : Prop :=
    chromosomes i = chromosomes j /\ R (fitness i) (fitness j) /\ alive i = alive j.
  Definition alike_population {T} (p q : population T) : Prop :=
    Forall2 alike_individual (individuals p) (individuals q) /\
    alike_option alike_individual (best_individual p) (best_individual q) /\
    alike_option alike_individual (worst_individual p) (worst_individual q) /\
    iteration p = iteration q.
  Definition alike_particle {T} (p q : particle T) : Prop :=
    coordinates p = coordinates q /\ velocity p = velocity q /\ R (value p) (value q) /\
    best_personal_coordinates p = best_personal_coordinates q /\
    R (best_personal_value p) (best_personal_value q) /\
    worst_personal_coordinates p = worst_personal_coordinates q /\
    R (worst_personal_value p) (worst_personal_value q).
  Definition alike_swarm {T} (s t : swarm T) : Prop :=
    Forall2 alike_particle (particles s) (particles t) /\
    alike_option alike_particle (best_particle s) (best_particle t) /\
    alike_option alike_particle (worst_particle s) (worst_particle t) /\
    sw_iteration s = sw_iteration t.

  Definition alike_event {T S X} (RS : S -> S -> Prop) (RX : X -> X -> Prop) (e e' : event T S X) : Prop :=
    match e, e' with
    | EEval x, EEval y => x = y
    | EValue x v, EValue y w => x = y /\ R v w
    | EStop s b, EStop s' b' => RS s s' /\ b = b'
    | ELog k i s, ELog k' i' s' => k = k' /\ i = i' /\ RS s s'
    | ESee s, ESee s' => RS s s'
    | ECall x, ECall y => RX x y
    | _, _ => False
    end.
  Definition alike_ga_call {T} (c d : ga_call T) : Prop :=
    match c, d with
    | CCreate xs, CCreate ys => xs = ys
    | CPairs p a, CPairs q b => alike_population p q /\ a = b
    | CCross a x, CCross b y => a = b /\ x = y
    | CMutate a x, CMutate b y => a = b /\ x = y
    | CPreBirth p a x, CPreBirth q b y => alike_population p q /\ a = b /\ x = y
    | CSelect p a, CSelect q b => alike_population p q /\ Forall2 alike_individual a b
    | _, _ => False
    end.
  Definition alike_pso_call {T} (c d : pso_call T) : Prop :=
    match c, d with
    | PCoordinates xs, PCoordinates ys => xs = ys
    | PVelocities xs, PVelocities ys => xs = ys
    | PCalc s p v, PCalc t q w => alike_swarm s t /\ alike_particle p q /\ v = w
    | PPostVelocity a x, PPostVelocity b y => a = b /\ x = y
    | PPostMove a x, PPostMove b y => a = b /\ x = y
    | _, _ => False
    end.

  Variables U1 U2 : Type.
  Variable W : U1 -> U2 -> Prop.

  Definition alike_logger {T} (l : logger U1 T) (m : logger U2 T) : Prop :=
    forall k a b, alike_view a b -> alike_comp W eq (told_by k l a) (told_by k m b).
  Definition alike_stop {T} (f : alg_state T -> comp U1 bool) (g : alg_state T -> comp U2 bool) : Prop :=
    forall a b, alike_view a b -> alike_comp W eq (f a) (g b).

  (** Corresponding components: given corresponding arguments they act alike.  Only the
      goals may return different values. *)
  Record alike_ga {T} (c : ga_config U1 T) (d : ga_config U2 T) : Prop := {
    ag_goal : forall x, alike_comp W R (ga_goal c x) (ga_goal d x);
    ag_stop : alike_stop (ga_stop c) (ga_stop d);
    ag_creator : alike_comp W eq (ga_creator c) (ga_creator d);
    ag_pairing : forall p q, alike_population p q -> alike_comp W eq (ga_pairing c p) (ga_pairing d q);
    ag_cross : forall xs, alike_comp W eq (ga_cross c xs) (ga_cross d xs);
    ag_mutation : forall x, alike_comp W eq (ga_mutation c x) (ga_mutation d x);
    ag_selections : Forall2 (fun f g => forall p q, alike_population p q ->
                               alike_comp W (Forall2 alike_individual) (f p) (g q))
                            (ga_selections c) (ga_selections d);
    ag_pre_births : Forall2 (fun f g => forall p q xs, alike_population p q -> alike_comp W eq (f p xs) (g q xs))
                            (ga_pre_births c) (ga_pre_births d);
    ag_loggers : Forall2 alike_logger (ga_loggers c) (ga_loggers d)
  }.
  Record alike_pso {T} (c : pso_config U1 T) (d : pso_config U2 T) : Prop := {
    ap_goal : forall x, alike_comp W R (pso_goal c x) (pso_goal d x);
    ap_stop : alike_stop (pso_stop c) (pso_stop d);
    ap_coordinates : alike_comp W eq (pso_coordinates c) (pso_coordinates d);
    ap_velocities : alike_comp W eq (pso_velocities c) (pso_velocities d);
    ap_calc : forall s t p q, alike_swarm s t -> alike_particle p q ->
                alike_comp W eq (pso_calc c s p) (pso_calc d t q);
    ap_post_velocity : Forall2 (fun f g => forall v, alike_comp W eq (f v) (g v))
                               (pso_post_velocity c) (pso_post_velocity d);
    ap_post_move : Forall2 (fun f g => forall x, alike_comp W eq (f x) (g x))
                           (pso_post_move c) (pso_post_move d);
    ap_loggers : Forall2 alike_logger (pso_loggers c) (pso_loggers d)
  }.

  (** Two runs that do the same: they end alike, with corresponding results, states and
      events. *)
  Definition alike_run {E A B} (RE : E -> E -> Prop) (RA : A -> B -> Prop)
    (r : outcome A * U1 * list E) (r' : outcome B * U2 * list E) : Prop :=
    alike_outcome RA (fst (fst r)) (fst (fst r')) /\ W (snd (fst r)) (snd (fst r')) /\
    Forall2 RE (snd r) (snd r').
  Definition alike_result {T S} (RS : S -> S -> Prop) (a b : option (T * f64) * S) : Prop :=
    alike_option alike_solution (fst a) (fst b) /\ RS (snd a) (snd b).
End Alike.
Arguments alike_ga R {U1 U2} W {T} c d.
Arguments alike_pso R {U1 U2} W {T} c d.
Arguments alike_run {U1 U2} W {E A B} RE RA r r'.
Arguments alike_logger R {U1 U2} W {T} l m.
Arguments alike_stop R {U1 U2} W {T} f g.
