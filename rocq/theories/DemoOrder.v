(** * Two goals that rank the points alike and differ in scale, for the examples of C95 *)

From Coq Require Import List Arith ZArith Bool.
From Verif Require Import Base Logic FloatModel Rng GaModel GaComponents PsoModel PsoComponents StopModel
  SpecGa SpecOrder DemoFloats DemoPso DemoLibm.
Import ListNotations.

(** Three steps: [a] below 1, [b] below 2, [c] above. *)
Definition steps (a b c : f64) (x : list f64) : f64 :=
  match x with
  | y :: _ => if ltb y one64 then a else if ltb y two64 then b else c
  | [] => c
  end.
Definition low_steps := steps one64 two64 three64.
Definition high_steps := steps one64 four64 ten64.

Lemma steps_cases a b c x a' b' c' :
  (steps a b c x = a /\ steps a' b' c' x = a') \/ (steps a b c x = b /\ steps a' b' c' x = b') \/
  (steps a b c x = c /\ steps a' b' c' x = c').
Proof. unfold steps. destruct x as [|y x]; auto. destruct (ltb y one64); auto. destruct (ltb y two64); auto. Qed.

Lemma steps_ranking : same_ranking low_steps high_steps.
Proof.
  intros v w [x [-> ->]]. unfold low_steps, high_steps.
  destruct (steps_cases one64 two64 three64 x one64 four64 ten64) as [[-> ->]|[[-> ->]|[-> ->]]];
    (split; [reflexivity|]; split; [reflexivity|]; intros v' w' [y [-> ->]];
     destruct (steps_cases one64 two64 three64 y one64 four64 ten64) as [[-> ->]|[[-> ->]|[-> ->]]]; reflexivity).
Qed.

(** One particle that goes down from 3 in steps of 1, until the goal does not change any more. *)
Definition walker (goal : list f64 -> f64) : pso_config gnc f64 :=
  PsoConfig (goal_from_function goal) (goal_not_change np64_default true 1 two64)
    (cret [[three64]]) (cret [[one64]]) (fun _ _ => cret [b_of_Z (-1)]) [] [] [].
Definition walk (goal : list f64 -> f64) := @pso_find_min gnc f64 (FloatIEEE np64_default) (walker goal) 20 swarm_new gnc_new.

Lemma walks_differ : exists o1 s1 o2 s2,
  fst (fst (walk low_steps)) = Ret (o1, s1) /\ fst (fst (walk high_steps)) = Ret (o2, s2) /\
  option_map fst o1 <> option_map fst o2.
Proof.
  assert (G1 : exists y, fst (fst (walk low_steps)) = Ret y /\ option_map fst (bits (fst y)) = Some [to_bits64 one64])
    by (apply show_ret; vm_compute; reflexivity).
  assert (G2 : exists y, fst (fst (walk high_steps)) = Ret y /\ option_map fst (bits (fst y)) = Some [0%Z])
    by (apply show_ret; vm_compute; reflexivity).
  destruct G1 as [[o1 s1] [E1 B1]], G2 as [[o2 s2] [E2 B2]]. exists o1, s1, o2, s2.
  split; [exact E1|]. split; [exact E2|]. intros E.
  assert (F : forall o, option_map fst (bits o) = option_map (map to_bits64) (option_map fst o)) by (intros [[x v]|]; reflexivity).
  cbn [fst] in B1, B2. rewrite F in B1, B2. rewrite E in B1. rewrite B1 in B2. revert B2. vm_compute. discriminate.
Qed.
