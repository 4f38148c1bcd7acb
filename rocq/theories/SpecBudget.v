(** * Specification vocabulary: how often the goal is called *)

From Coq Require Import List Arith ZArith Bool.
From Verif Require Import Base GaModel SpecGa SpecSel.
Import ListNotations.

(** The creator makes [n] chromosomes; while the size of the population is allowed by
    [room], the pairing makes at most [m] families; a family has at most [c] children; the
    pre-births add nobody; the last selection leaves a size allowed by [room]. *)
Record ga_economy {U T} (room : nat -> Prop) (n m c : nat) (cfg : ga_config U T) : Prop := {
  eco_creator : forall u xs u', ga_creator cfg u = (Ret xs, u') -> length xs = n;
  eco_first : room n;
  eco_pairing : forall p u l u', room (length (individuals p)) -> ga_pairing cfg p u = (Ret l, u') -> length l <= m;
  eco_cross : forall xs u ys u', ga_cross cfg xs u = (Ret ys, u') -> length ys <= c;
  eco_pre_births : forall f p xs u ys u', In f (ga_pre_births cfg) -> f p xs u = (Ret ys, u') -> length ys <= length xs;
  eco_room : (forall k, room k) \/
    exists earlier f, ga_selections cfg = earlier ++ [f] /\
      forall p u l u', f p u = (Ret l, u') -> room (live l)
}.

(** [m2] does what [m1] does; where [m1] is cut off, it goes on. *)
Definition grows {U E A} (m1 m2 : M U E A) : Prop :=
  forall u, (fst (fst (m1 u)) <> NoFuel -> m2 u = m1 u) /\ exists t, snd (m2 u) = snd (m1 u) ++ t.
