(** * Specification vocabulary for the ready-made GA components *)

From Coq Require Import List Arith ZArith Bool.
From Verif Require Import Base FloatModel GaModel SpecGa.
Import ListNotations.

Section Sel.
  Context {T : Type}.

  (** Number of live individuals. *)
  Definition live (l : list (individual T)) : nat := count_occ Bool.bool_dec (map alive l) true.
  (** [i] is killed at position [n] between [l] and [l']. *)
  Definition killed_at (l l' : list (individual T)) (n : nat) (i : individual T) : Prop :=
    nth_error l n = Some i /\ alive i = true /\
    exists j, nth_error l' n = Some j /\ alive j = false.
  (** [i] survives at position [n]. *)
  Definition survives_at (l l' : list (individual T)) (n : nat) (i : individual T) : Prop :=
    nth_error l n = Some i /\ alive i = true /\ nth_error l' n = Some i.
  Definition first_alive (l : list (individual T)) : Prop :=
    exists i t, l = i :: t /\ alive i = true.
  (** Nobody alive, nor the first individual, has a NaN fitness. *)
  Definition no_nan (l : list (individual T)) : Prop :=
    forall n i, nth_error l n = Some i -> (alive i = true \/ n = 0) -> is_nan (fitness i) = false.
End Sel.

(** The interval test: the gene is finite and in the closed interval. *)
Definition gene_in {T} `{FloatTrait T} (x : T) (i : T * T) : Prop :=
  ffinite x = true /\ flt x (fst i) = false /\ flt (snd i) x = false.
Definition genes_in {T} `{FloatTrait T} (c : list T) (intervals : list (T * T)) : Prop :=
  Forall2 gene_in c intervals.

(** Goal value at a position of the population. *)
Definition fitness_is {T} (p : population T) (n : nat) (v : f64) : Prop :=
  exists i, nth_error (individuals p) n = Some i /\ fitness i = v.
(** [a] has a strictly smaller goal value than [b]. *)
Definition beats {T} (p : population T) (a b : nat) : Prop :=
  exists va vb, fitness_is p a va /\ fitness_is p b vb /\ ltb va vb = true.
