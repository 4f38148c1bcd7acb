(** * Specification vocabulary: components that hold individuals *)

From Coq Require Import List Arith ZArith Bool.
From Verif Require Import Base FloatModel GaModel SpecGa SpecRun ApiModel.
Import ListNotations.

Section Held.
  Context {U T : Type}.

  (** Every member of [l] is a copy, dead or alive, of somebody in [from]. *)
  Definition copies (l : list (individual T)) (from : individual T -> Prop) : Prop :=
    forall i, In i l -> exists j, from j /\ chromosomes i = chromosomes j /\ fitness i = fitness j.

  (** [held u]: all individuals that the components hold in their fields. *)
  Variable held : U -> list (individual T).

  (** A call that sees no population cannot give its component new individuals. *)
  Definition learns_nothing {A} (c : comp U A) : Prop :=
    forall u, copies (held (snd (c u))) (fun j => In j (held u)).
  (** One that sees [p] can copy individuals from [p]. *)
  Definition learns_from {A} (p : population T) (c : comp U A) : Prop :=
    forall u, copies (held (snd (c u))) (fun j => In j (held u) \/ known p j).
  (** A selection leaves copies of what it sees or holds. *)
  Definition leaves_copies (p : population T) (c : comp U (list (individual T))) : Prop :=
    forall u l u', c u = (Ret l, u') -> copies l (fun j => In j (held u) \/ known p j).

  (** What the private fields of [Individual] and [Population] enforce: nobody but
      the optimizer makes individuals. *)
  Record honest (cfg : ga_config U T) : Prop := Honest {
    honest_goal : forall x, learns_nothing (ga_goal cfg x);
    honest_stop : forall s, learns_nothing (ga_stop cfg s);
    honest_creator : learns_nothing (ga_creator cfg);
    honest_cross : forall xs, learns_nothing (ga_cross cfg xs);
    honest_mutation : forall x, learns_nothing (ga_mutation cfg x);
    honest_loggers : forall l k s, In l (ga_loggers cfg) -> learns_nothing (told_by k l s);
    honest_pairing : forall p, learns_from p (ga_pairing cfg p);
    honest_pre_births : forall f p xs, In f (ga_pre_births cfg) -> learns_from p (f p xs);
    honest_selections : forall f p, In f (ga_selections cfg) -> learns_from p (f p) /\ leaves_copies p (f p)
  }.

  (** Histories in which components keep their fields from one call to the next:
      all events since the optimizer was made. *)
  Inductive ga_life (ok : ga_config U T -> Prop) : population T -> U -> list (ga_event T) -> Prop :=
  | life_new u : held u = [] -> ga_life ok (Population [] None None 0) u []
  | life_find cfg fuel p u h r p' u' t :
      ok cfg -> ga_life ok p u h -> ga_find_min cfg fuel p u = (Ret (r, p'), u', t) -> ga_life ok p' u' (h ++ t)
  | life_next cfg fuel p u h r p' u' t :
      ok cfg -> ga_life ok p u h -> ga_next_iterations cfg fuel p u = (Ret (r, p'), u', t) -> ga_life ok p' u' (h ++ t)
  | life_between p u h u' :
      ga_life ok p u h -> copies (held u') (fun j => In j (held u)) -> ga_life ok p u' h.

  (** What an observer of the history [h] has seen: individuals with their own
      values, and after an iteration the extremes of the generation. *)
  Definition observed_well (h : list (ga_event T)) : Prop :=
    observations_valued h /\ (forall p, reported h p -> iteration p > 0 -> settled p).
End Held.

(** ** Programs *)

(** The rest of what a selection does leaves its saved individuals alone. *)
Fixpoint tidy {U T} (L : lens U (list (individual T))) (s : sel_prog U T) : Prop :=
  match s with
  | SDone => True
  | SKill _ k | SSwap _ _ k | SSave _ k | SSaveBest k | SSaveWorst k | SPut _ _ k | SDrop _ k => tidy L k
  | SRead k => forall p l, tidy L (k p l)
  | SDo c k => keeps (lget L) c /\ forall a, tidy L (k a)
  end.

(** No [saved] individual is put into the population. *)
Fixpoint forgetful {U T} (s : sel_prog U T) : Prop :=
  match s with
  | SDone => True
  | SPut _ _ _ => False
  | SKill _ k | SSwap _ _ k | SSave _ k | SSaveBest k | SSaveWorst k | SDrop _ k => forgetful k
  | SRead k => forall p l, forgetful (k p l)
  | SDo c k => forall a, forgetful (k a)
  end.

(** ... and none changes its place: all it does to the population is [kill()]. *)
Fixpoint just_kills {U T} (s : sel_prog U T) : Prop :=
  match s with
  | SDone => True
  | SPut _ _ _ | SSwap _ _ _ => False
  | SKill _ k | SSave _ k | SSaveBest k | SSaveWorst k | SDrop _ k => just_kills k
  | SRead k => forall p l, just_kills (k p l)
  | SDo c k => forall a, just_kills (k a)
  end.
