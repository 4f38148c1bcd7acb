(** * Specification vocabulary: sets of chromosomes that breeding does not leave *)

From Coq Require Import List Arith ZArith Bool.
From Verif Require Import Base FloatModel GaModel SpecGa.
Import ListNotations.

(** Children, mutants, chosen newborns and survivors of members of [S] are members of [S]. *)
Definition closed {U T} (S : T -> Prop) (cfg : ga_config U T) : Prop :=
  (forall xs u ys u', Forall S xs -> ga_cross cfg xs u = (Ret ys, u') -> Forall S ys) /\
  (forall x u y u', S x -> ga_mutation cfg x u = (Ret y, u') -> S y) /\
  (forall f p xs u ys u', In f (ga_pre_births cfg) -> inside S p -> Forall S xs -> f p xs u = (Ret ys, u') -> Forall S ys) /\
  (forall f p u l u', In f (ga_selections cfg) -> inside S p -> f p u = (Ret l, u') -> Forall (fun i => S (chromosomes i)) l).

(** All that is evaluated, and all that is seen, is in [S]. *)
Definition lived_in {T} (S : T -> Prop) (t : list (ga_event T)) : Prop :=
  Forall S (evals t) /\ forall e p, In e t -> shows e = Some p -> inside S p.

(** Chromosomes of [d] genes, the [k]-th of which satisfies [Q k]. *)
Definition gene_wise {G} (d : nat) (Q : nat -> G -> Prop) (x : list G) : Prop :=
  length x = d /\ forall k g, nth_error x k = Some g -> Q k g.

(** A cross of genes with one child, which has what both parents have. *)
Definition inherits {U G} (Q : G -> Prop) (single : list G -> comp U (list G)) : Prop :=
  forall x y u cs u', Q x -> Q y -> single [x; y] u = (Ret cs, u') -> exists c, cs = [c] /\ Q c.

(** The bits of [z] under [mask] are those of [pattern]. *)
Definition schema (mask pattern z : Z) : Prop := Z.land z mask = Z.land pattern mask.
