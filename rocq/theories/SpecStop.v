(** * Specification vocabulary for the stop checkers *)

From Coq Require Import List Arith ZArith Bool.
From Verif Require Import Base FloatModel GaModel PsoModel SpecGa SpecRun.
Import ListNotations.

(** Asking the questions [qs] one after the other gives the answers [bs]; the
    environment goes from [u] to [u']. *)
Inductive asked {U} : list (comp U bool) -> U -> list bool -> U -> Prop :=
| asked_nil u : asked [] u [] u
| asked_cons q qs u b u1 bs u2 :
    q u = (Ret b, u1) -> asked qs u1 bs u2 -> asked (q :: qs) u (b :: bs) u2.

(** The best goals of a sequence of states with a solution, with their iterations. *)
Fixpoint best_goals {T} (ss : list (alg_state T)) : list (nat * f64) :=
  match ss with
  | [] => []
  | s :: ss' => match as_best s with
                | None => best_goals ss'
                | Some (_, v) => (as_iter s, v) :: best_goals ss'
                end
  end.

(** The goals [v] and [r] differ by more than [delta] (f64 arithmetic). *)
Definition differ (np64 : nan_policy 53 1024) (delta v r : f64) : bool :=
  ltb delta (b_abs (b_sub np64 v r)).

(** [reference far h r c]: after the best goals [h] the reference value is [r],
    taken at iteration [c].  It starts at f64::MAX; a goal [far] from it replaces it. *)
Inductive reference (far : f64 -> f64 -> bool) : list (nat * f64) -> f64 -> nat -> Prop :=
| reference_start : reference far [] f64_MAX 0
| reference_kept h r c i v :
    reference far h r c -> far v r = false -> reference far (h ++ [(i, v)]) r c
| reference_taken h r c i v :
    reference far h r c -> far v r = true -> reference far (h ++ [(i, v)]) v i.

(** A checker without state. *)
Definition decides {U T} (f : alg_state T -> bool) (c : alg_state T -> comp U bool) : Prop :=
  forall s u, c s u = (Ret (f s), u).

(** Iteration numbers that never go down (one run). *)
Fixpoint not_decreasing (l : list nat) : Prop :=
  match l with
  | [] => True
  | i :: l' => Forall (fun j => i <= j) l' /\ not_decreasing l'
  end.

(** The questions [t] records were asked of the checker object [stop], one after
    the other, and answered as recorded; its state goes from [g] to [g'].  The
    iteration numbers it is shown are consecutive, from [i]. *)
Definition consult {G T S X} (view : S -> alg_state T) (stop : alg_state T -> comp G bool)
    (i : nat) (t : list (event T S X)) (g g' : G) : Prop :=
  asked (map (fun sb => stop (view (fst sb))) (stops t)) g (map snd (stops t)) g' /\
  map (fun sb => as_iter (view (fst sb))) (stops t) = seq i (length (stops t)).

(** The recorded answers are those of GoalNotChange([m], [delta]): stop iff there
    is a solution and the reference was taken more than [m] iterations ago. *)
Definition quiet_answers {T S X} (np64 : nan_policy 53 1024) (m : nat) (delta : f64)
    (view : S -> alg_state T) (t : list (event T S X)) : Prop :=
  forall past s b later, stops t = past ++ (s, b) :: later ->
    (b = true <-> as_best (view s) <> None /\
       exists r c,
         reference (differ np64 delta) (best_goals (map (fun sb => view (fst sb)) past ++ [view s])) r c /\
         m < as_iter (view s) - c).
