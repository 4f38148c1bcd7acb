(** * Runs with a limit that is not reached: concrete cases *)

From Coq Require Import List Arith ZArith Bool Lia.
From Verif Require Import Base FloatModel GaModel PsoModel StopModel LimitFacts DemoFloats DemoGa DemoPso DemoWorst.
Import ListNotations.
Local Open Scope nat_scope.

Definition ended_of {U E R P} (f : P -> nat) (run : outcome (R * P) * U * list E) : option nat :=
  match fst (fst run) with Ret (_, p) => Some (f p) | _ => None end.
Lemma run_parts {U E R P} (f : P -> nat) (run : outcome (R * P) * U * list E) n :
  ended_of f run = Some n -> exists r p u t, run = (Ret (r, p), u, t) /\ f p = n.
Proof.
  unfold ended_of. destruct run as [[[[r p]| |] u] t]; cbn [fst]; intros H; [|discriminate H|discriminate H].
  injection H as H. exists r, p, u, t. auto.
Qed.
Lemma ga_limit_case {U T} (cfg : ga_config U T) cs k n fuel p u : n < k ->
  ended_of iteration (ga_find_min (ga_set_stop_checker cfg (composite_any (cs ++ [max_iterations k]))) fuel p u) = Some n ->
  exists r p' u' t,
  ga_find_min (ga_set_stop_checker cfg (composite_any (cs ++ [max_iterations k]))) fuel p u = (Ret (r, p'), u', t) /\
  ga_find_min (ga_set_stop_checker cfg (composite_any cs)) fuel p u = (Ret (r, p'), u', t) /\ iteration p' = n.
Proof.
  intros Hk H. destruct (run_parts _ _ _ H) as (r & p' & u' & t & E & N). exists r, p', u', t.
  split; [exact E|]. split; [|exact N]. rewrite <- N in Hk.
  exact (proj1 (proj2 (ga_find_limit cfg cs k fuel p u r p' u' t)) E Hk).
Qed.
Lemma pso_limit_case {U T} {FT : FloatTrait T} (cfg : pso_config U T) cs k n fuel p u : n < k ->
  ended_of sw_iteration (pso_find_min (pso_set_stop_checker cfg (composite_any (cs ++ [max_iterations k]))) fuel p u) = Some n ->
  exists r p' u' t,
  pso_find_min (pso_set_stop_checker cfg (composite_any (cs ++ [max_iterations k]))) fuel p u = (Ret (r, p'), u', t) /\
  pso_find_min (pso_set_stop_checker cfg (composite_any cs)) fuel p u = (Ret (r, p'), u', t) /\ sw_iteration p' = n.
Proof.
  intros Hk H. destruct (run_parts _ _ _ H) as (r & p' & u' & t & E & N). exists r, p', u', t.
  split; [exact E|]. split; [|exact N]. rewrite <- N in Hk.
  exact (proj1 (proj2 (pso_find_limit cfg cs k fuel p u r p' u' t)) E Hk).
Qed.

Definition ended_at (c : ga_config nat Z) : option nat := ended_of iteration (ga_find_min c 9 demo_start 0).
Lemma pair_cut :
  ended_at (ga_set_stop_checker pair_run (composite_any ([max_iterations 2] ++ [max_iterations 1]))) = Some 1 /\
  ended_at (ga_set_stop_checker pair_run (composite_any [max_iterations 2])) = Some 2.
Proof. vm_compute. split; reflexivity. Qed.
Lemma pair_limit : exists r p' u' t,
  ga_find_min (ga_set_stop_checker pair_run (composite_any ([max_iterations 2] ++ [max_iterations 5]))) 9 demo_start 0 = (Ret (r, p'), u', t) /\
  ga_find_min (ga_set_stop_checker pair_run (composite_any [max_iterations 2])) 9 demo_start 0 = (Ret (r, p'), u', t) /\ iteration p' = 2.
Proof.
  apply (ga_limit_case pair_run [max_iterations 2] 5 2 9 demo_start 0); [lia|]. vm_compute. reflexivity.
Qed.
Lemma flock_limit : exists r s' u' t,
  pso_find_min (pso_set_stop_checker flock (composite_any ([max_iterations 3] ++ [max_iterations 5]))) 10 flock_start (0, 0) = (Ret (r, s'), u', t) /\
  pso_find_min (pso_set_stop_checker flock (composite_any [max_iterations 3])) 10 flock_start (0, 0) = (Ret (r, s'), u', t) /\ sw_iteration s' = 3.
Proof.
  apply (pso_limit_case flock [max_iterations 3] 5 3 10 flock_start (0, 0)); [lia|]. vm_compute. reflexivity.
Qed.
