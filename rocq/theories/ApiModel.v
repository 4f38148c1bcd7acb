(** * What a user component can do with a population: optlib/src/genetic/mod.rs and optlib/src/lib.rs *)

From Coq Require Import List Arith ZArith Bool.
From Verif Require Import Base FloatModel GaModel PsoModel.
Import ListNotations.

(** ** Reading *)

(** [impl Agent for Individual] (genetic/mod.rs:52-60). *)
Definition ind_get_goal {T} (i : individual T) : f64 := fitness i.
Definition ind_get_parameter {T} (i : individual T) : T := chromosomes i.

(** [impl Agent for Particle] (particleswarm/mod.rs:88-96). *)
Definition par_get_goal {T} (p : particle T) : f64 := value p.
Definition par_get_parameter {T} (p : particle T) : list T := coordinates p.

(** [impl AgentsState for Population] (genetic/mod.rs:127-139): references to the
    individuals are pushed one by one.  A reference is modelled by the value. *)
Definition pop_get_agents {T} (p : population T) : list (individual T) :=
  fold_left (fun agents i => agents ++ [i]) (individuals p) [].

(** [impl AgentsState for Swarm] (particleswarm/mod.rs:412-424). *)
Definition swarm_get_agents {T} (s : swarm T) : list (particle T) :=
  fold_left (fun agents i => agents ++ [i]) (particles s) [].

(** [Population::len] (genetic/mod.rs:218-220) and [Swarm::len] (particleswarm/mod.rs:160-162). *)
Definition pop_len {T} (p : population T) : nat := length (individuals p).
Definition swarm_len {T} (s : swarm T) : nat := length (particles s).

(** [impl Index for Population] (genetic/mod.rs:277-283). *)
Definition pop_index {T} (p : population T) (n : nat) : outcome (individual T) := index (individuals p) n.

(** ** Changing *)

(** [population[n] = i] through [IndexMut] (genetic/mod.rs:286-290) or an item of
    [iter_mut] (190-192).  The fields of [Individual] are private outside the
    module, so [i] can only be a clone of some individual. *)
Definition pop_store {T} (p : population T) (n : nat) (i : individual T) : outcome (population T) :=
  let! l := update (individuals p) n i in Ret (set_individuals p l).

(** [population[n].kill()] (genetic/mod.rs:79-81, 286-290). *)
Definition pop_kill {T} (p : population T) (n : nat) : outcome (population T) :=
  let! i := pop_index p n in pop_store p n (kill i).

(** [std::mem::swap] of two items of [iter_mut] (genetic/mod.rs:190-192). *)
Definition pop_swap {T} (p : population T) (n m : nat) : outcome (population T) :=
  let! i := pop_index p n in
  let! j := pop_index p m in
  let! q := pop_store p n j in
  pop_store q m i.

(** ** Selections as programs

    Everything that an implementation of [Selection] (genetic/mod.rs:345-349)
    outside of the crate can do: it is given [&mut Population], it may hold clones
    of individuals in its own fields ([saved], a list), and it may do anything that
    concerns neither. *)
Inductive sel_prog (U T : Type) : Type :=
| SDone                                              (* return *)
| SKill (n : nat) (k : sel_prog U T)                 (* population[n].kill() *)
| SSwap (n m : nat) (k : sel_prog U T)               (* swap population[n] and population[m] *)
| SSave (n : nat) (k : sel_prog U T)                 (* saved.push(population[n].clone()) *)
| SSaveBest (k : sel_prog U T)                       (* saved.extend(population.get_best().clone()) *)
| SSaveWorst (k : sel_prog U T)                      (* saved.extend(population.get_worst().clone()) *)
| SPut (n j : nat) (k : sel_prog U T)                (* population[n] = saved[j].clone() *)
| SDrop (j : nat) (k : sel_prog U T)                 (* saved.truncate(j) *)
| SRead (k : population T -> list (individual T) -> sel_prog U T) (* any use of the methods above *)
| SDo (A : Type) (c : comp U A) (k : A -> sel_prog U T).          (* anything else *)
Arguments SDone {U T}.
Arguments SKill {U T} n k.
Arguments SSwap {U T} n m k.
Arguments SSave {U T} n k.
Arguments SSaveBest {U T} k.
Arguments SSaveWorst {U T} k.
Arguments SPut {U T} n j k.
Arguments SDrop {U T} j k.
Arguments SRead {U T} k.
Arguments SDo {U T A} c k.

Definition opt_list {A} (o : option A) : list A := match o with Some a => [a] | None => [] end.

(** The state of the object: [saved] is the part of the environment that [L] shows. *)
Definition remember {U T} (L : lens U (list (individual T))) (l : list (individual T)) : comp U unit :=
  fun u => (Ret tt, lput L (lget L u ++ l) u).

(** Running such a program on a population. *)
Fixpoint sel_exec {U T} (L : lens U (list (individual T))) (s : sel_prog U T) (p : population T) : comp U (population T) :=
  match s with
  | SDone => cret p
  | SKill n k => do q <- cpure (pop_kill p n) ;; sel_exec L k q
  | SSwap n m k => do q <- cpure (pop_swap p n m) ;; sel_exec L k q
  | SSave n k => do i <- cpure (pop_index p n) ;; do _ <- remember L [i] ;; sel_exec L k p
  | SSaveBest k => do _ <- remember L (opt_list (best_individual p)) ;; sel_exec L k p
  | SSaveWorst k => do _ <- remember L (opt_list (worst_individual p)) ;; sel_exec L k p
  | SPut n j k => fun u => (do i <- cpure (index (lget L u) j) ;; do q <- cpure (pop_store p n i) ;; sel_exec L k q) u
  | SDrop j k => fun u => sel_exec L k p (lput L (firstn j (lget L u)) u)
  | SRead k => fun u => sel_exec L (k p (lget L u)) p u
  | SDo c k => do a <- c ;; sel_exec L (k a) p
  end.

(** As a selection of the optimizer. *)
Definition selection_of {U T} (L : lens U (list (individual T))) (s : sel_prog U T) (p : population T)
  : comp U (list (individual T)) :=
  do q <- sel_exec L s p ;; cret (individuals q).
