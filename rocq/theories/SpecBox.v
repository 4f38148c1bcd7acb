(** * Specification vocabulary for the components of the particle swarm *)

From Coq Require Import List Arith ZArith Bool.
From Verif Require Import Base FloatModel.
Import ListNotations.

Section Box.
  Context {prec emax : Z}.
  Notation F := (bfloat prec emax).
  (** Membership in a box: one coordinate per interval, inside it. *)
  Definition in_box (box : list (F * F)) (x : list F) : Prop :=
    Forall2 (fun xi i => is_finite xi = true /\ leb (fst i) xi = true /\ leb xi (snd i) = true) x box.
  (** Every interval is finite and not empty. *)
  Definition good_box (box : list (F * F)) : Prop :=
    Forall (fun i => is_finite (fst i) = true /\ is_finite (snd i) = true /\
                     leb (fst i) (snd i) = true) box.
End Box.
