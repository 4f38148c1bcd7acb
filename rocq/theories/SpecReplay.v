(** * Replaying a trace

    A trace records what the components answered.  Here it is read as a program:
    starting from the state [u] of the trait objects, every recorded call is made
    again, in the recorded order and by the component whose turn it is, each
    giving the recorded answer and handing its state to the next.  Only the data
    types of the model are used. *)

From Coq Require Import List Arith Bool.
From Verif Require Import Base FloatModel GaModel PsoModel SpecGa SpecPso.
Import ListNotations.

(** [step e c u c' u']: answering the event [e] takes the trait objects from [u]
    to [u']; [c] says whose turn it is. *)
Inductive replays {U E C : Type} (step : E -> C -> U -> C -> U -> Prop)
  : C -> U -> list E -> C -> U -> Prop :=
| replays_nil c u : replays step c u [] c u
| replays_cons e t c u c1 u1 c2 u2 :
    step e c u c1 u1 -> replays step c1 u1 t c2 u2 -> replays step c u (e :: t) c2 u2.

(** The turn after [j] among [n] components taking turns. *)
Definition turn_after (n j : nat) : nat := if S j =? n then 0 else S j.

(** Whose turn it is: among the pre-births and among the selections. *)
Definition ga_replay {U T} (cfg : ga_config U T) (e : ga_event T)
  (c : nat * nat) (u : U) (c' : nat * nat) (u' : U) : Prop :=
  match e with
  | EEval _ | ESee _ => c' = c /\ u' = u
  | EValue x v => c' = c /\ ga_goal cfg x u = (Ret v, u')
  | EStop p b => c' = c /\ ga_stop cfg (ga_view p) u = (Ret b, u')
  | ELog k i p =>
      c' = c /\ exists l, nth_error (ga_loggers cfg) i = Some l /\ told_by k l (ga_view p) u = (Ret tt, u')
  | ECall (CCreate xs) => c' = c /\ ga_creator cfg u = (Ret xs, u')
  | ECall (CPairs p pairs) => c' = c /\ ga_pairing cfg p u = (Ret pairs, u')
  | ECall (CCross parents children) => c' = c /\ ga_cross cfg parents u = (Ret children, u')
  | ECall (CMutate x y) => c' = c /\ ga_mutation cfg x u = (Ret y, u')
  | ECall (CPreBirth p xs ys) =>
      c' = (turn_after (length (ga_pre_births cfg)) (fst c), snd c) /\
      exists pb, nth_error (ga_pre_births cfg) (fst c) = Some pb /\ pb p xs u = (Ret ys, u')
  | ECall (CSelect p l) =>
      c' = (fst c, turn_after (length (ga_selections cfg)) (snd c)) /\
      exists s, nth_error (ga_selections cfg) (snd c) = Some s /\ s p u = (Ret l, u')
  end.

(** ... among the velocity corrections and among the post-moves. *)
Definition pso_replay {U T} (cfg : pso_config U T) (e : pso_event T)
  (c : nat * nat) (u : U) (c' : nat * nat) (u' : U) : Prop :=
  match e with
  | EEval _ | ESee _ => c' = c /\ u' = u
  | EValue x v => c' = c /\ pso_goal cfg x u = (Ret v, u')
  | EStop s b => c' = c /\ pso_stop cfg (pso_view s) u = (Ret b, u')
  | ELog k i s =>
      c' = c /\ exists l, nth_error (pso_loggers cfg) i = Some l /\ told_by k l (pso_view s) u = (Ret tt, u')
  | ECall (PCoordinates xs) => c' = c /\ pso_coordinates cfg u = (Ret xs, u')
  | ECall (PVelocities vs) => c' = c /\ pso_velocities cfg u = (Ret vs, u')
  | ECall (PCalc s p v) => c' = c /\ pso_calc cfg s p u = (Ret v, u')
  | ECall (PPostVelocity v w) =>
      c' = (turn_after (length (pso_post_velocity cfg)) (fst c), snd c) /\
      exists f, nth_error (pso_post_velocity cfg) (fst c) = Some f /\ f v u = (Ret w, u')
  | ECall (PPostMove x y) =>
      c' = (fst c, turn_after (length (pso_post_move cfg)) (snd c)) /\
      exists f, nth_error (pso_post_move cfg) (snd c) = Some f /\ f x u = (Ret y, u')
  end.
