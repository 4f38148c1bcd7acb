(** * Property C80: constructors and setters *)

From Coq Require Import List Arith ZArith Bool.
From Verif Require Import Base FloatModel GaModel PsoModel GaComponents StopModel SpecConfig DemoGa DemoPso.
Import ListNotations.

(** ** C80: a setter replaces its component and nothing else. *)
Theorem C80_ga_setters :
  forall (U T : Type) (c : ga_config U T),
    (forall v, ga_pairing (ga_set_pairing c v) = v /\ ga_same_except GPairing c (ga_set_pairing c v)) /\
    (forall v, ga_cross (ga_set_cross c v) = v /\ ga_same_except GCross c (ga_set_cross c v)) /\
    (forall v, ga_mutation (ga_set_mutation c v) = v /\ ga_same_except GMutation c (ga_set_mutation c v)) /\
    (forall v, ga_selections (ga_set_selection c v) = v /\ ga_same_except GSelections c (ga_set_selection c v)) /\
    (forall v, ga_pre_births (ga_set_pre_birth c v) = v /\ ga_same_except GPreBirths c (ga_set_pre_birth c v)) /\
    (forall v, ga_stop (ga_set_stop_checker c v) = v /\ ga_same_except GStop c (ga_set_stop_checker c v)) /\
    (forall v, ga_loggers (ga_set_loggers c v) = v /\ ga_same_except GLoggers c (ga_set_loggers c v)).
Proof. intros U T c. unfold ga_same_except. repeat split; intros N; now elim N. Qed.
Print Assumptions C80_ga_setters.
Theorem C80_pso_setters :
  forall (U T : Type) (c : pso_config U T),
    (forall v, pso_stop (pso_set_stop_checker c v) = v /\ pso_same_except PStop c (pso_set_stop_checker c v)) /\
    (forall v, pso_loggers (pso_set_loggers c v) = v /\ pso_same_except PLoggers c (pso_set_loggers c v)) /\
    (forall v, pso_post_move (pso_set_post_moves c v) = v /\ pso_same_except PMoves c (pso_set_post_moves c v)) /\
    (forall v, pso_post_velocity (pso_set_post_velocity_calc c v) = v /\
               pso_same_except PVelocity c (pso_set_post_velocity_calc c v)).
Proof. intros U T c. unfold pso_same_except. repeat split; intros N; now elim N. Qed.
Print Assumptions C80_pso_setters.
(** The constructors take the components in the documented order and start without
    loggers (the PSO also without post-processing). *)
Theorem C80_ga_new :
  forall (U T : Type) goal stop creator pairing cross mutation selections pre_births,
    let c : ga_config U T := ga_new goal stop creator pairing cross mutation selections pre_births in
    ga_goal c = goal /\ ga_stop c = stop /\ ga_creator c = creator /\ ga_pairing c = pairing /\
    ga_cross c = cross /\ ga_mutation c = mutation /\ ga_selections c = selections /\
    ga_pre_births c = pre_births /\ ga_loggers c = [].
Proof. repeat split. Qed.
Print Assumptions C80_ga_new.
Theorem C80_pso_new :
  forall (U T : Type) goal stop coordinates velocities calc,
    let c : pso_config U T := pso_new goal stop coordinates velocities calc in
    pso_goal c = goal /\ pso_stop c = stop /\ pso_coordinates c = coordinates /\
    pso_velocities c = velocities /\ pso_calc c = calc /\
    pso_post_velocity c = [] /\ pso_post_move c = [] /\ pso_loggers c = [].
Proof. repeat split. Qed.
Print Assumptions C80_pso_new.
(** Tournament::new makes couples and one challenger; the builders change one number. *)
Theorem C80_tournament :
  forall n,
    let t := tournament_new n in
    (families_count t = n /\ partners_count t = 2 /\ rounds_count t = 1) /\
    (forall t k, families_count (set_partners_count t k) = families_count t /\
                 partners_count (set_partners_count t k) = k /\
                 rounds_count (set_partners_count t k) = rounds_count t) /\
    (forall t k, families_count (set_rounds_count t k) = families_count t /\
                 partners_count (set_rounds_count t k) = partners_count t /\
                 rounds_count (set_rounds_count t k) = k).
Proof. repeat split. Qed.
Print Assumptions C80_tournament.

(** The setters of the running example really change it. *)
Example C80_nonvacuous :
  length (ga_loggers demo) = 2 /\ length (ga_loggers (ga_set_loggers demo [])) = 0 /\
  length (ga_selections (ga_set_loggers demo [])) = 2 /\
  length (pso_post_move flock) = 1 /\ length (pso_post_move (pso_set_post_moves flock [])) = 0.
Proof. repeat split. Qed.
