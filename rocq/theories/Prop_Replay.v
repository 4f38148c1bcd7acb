(** * Properties C77-C79: the components are used exactly as recorded

    [replays step c u t c' u'] (SpecReplay): making the calls recorded in [t] again,
    in order, from the state [u] of the trait objects, gives the recorded answers
    and ends in [u'].  [c] = (whose turn among the pre-births / velocity corrections,
    whose turn among the selections / post-moves). *)

From Coq Require Import List Arith ZArith Bool Lia.
From Verif Require Import Base FloatModel GaModel PsoModel SpecGa SpecPso SpecReplay ReplayFacts
  DemoFloats DemoGa DemoPso.
Import ListNotations.

(** ** C77: the GA reaches its trait objects only through the recorded calls, in turn. *)
Theorem C77_ga_replayed :
  forall (U T : Type) (cfg : ga_config U T) fuel p u r u' t,
    ga_find_min cfg fuel p u = (Ret r, u', t) \/ ga_next_iterations cfg fuel p u = (Ret r, u', t) ->
    replays (ga_replay cfg) (0, 0) u t (0, 0) u'.
Proof. exact @ga_replayed. Qed.
Print Assumptions C77_ga_replayed.
(** Also when a component panics or the run never stops: only the last recorded
    event may be a call that did not return. *)
Theorem C77_ga_replayed_prefix :
  forall (U T : Type) (cfg : ga_config U T) fuel p u o u' t,
    ga_find_min cfg fuel p u = (o, u', t) \/ ga_next_iterations cfg fuel p u = (o, u', t) ->
    exists t1 t2 c1 u1, t = t1 ++ t2 /\ length t2 <= 1 /\ replays (ga_replay cfg) (0, 0) u t1 c1 u1.
Proof. exact @ga_nearly_replayed. Qed.
Print Assumptions C77_ga_replayed_prefix.

(** Two pre-births and two selections take turns. *)
Definition two_births : ga_config nat Z := ga_set_pre_birth demo [demo_pre_birth; demo_pre_birth].
Example C77_nonvacuous :
  length (ga_pre_births two_births) = 2 /\ length (ga_selections two_births) = 2 /\
  (exists r u' t, ga_find_min two_births 10 demo_start 0 = (Ret r, u', t) /\
     count_occ Bool.bool_dec
       (map (fun e => match e with ECall (CPreBirth _ _ _) => true | _ => false end) t) true = 6).
Proof.
  split; [reflexivity|]. split; [reflexivity|].
  destruct (ga_find_min two_births 10 demo_start 0) as [[o u'] t] eqn:E.
  assert (R : returned (fst (fst (ga_find_min two_births 10 demo_start 0))) = true) by (vm_compute; reflexivity).
  assert (N : count_occ Bool.bool_dec
    (map (fun e => match e with ECall (CPreBirth _ _ _) => true | _ => false end)
         (snd (ga_find_min two_births 10 demo_start 0))) true = 6) by (vm_compute; reflexivity).
  rewrite E in R, N. cbn [fst snd] in R, N. destruct o as [r| |]; try discriminate R.
  exists r, u', t. split; [reflexivity|exact N].
Qed.

(** ** C78: the PSO reaches its trait objects only through the recorded calls, in turn. *)
Theorem C78_pso_replayed :
  forall (U T : Type) (FT : FloatTrait T) (cfg : pso_config U T) fuel s u r u' t,
    pso_find_min cfg fuel s u = (Ret r, u', t) \/ pso_next_iterations cfg fuel s u = (Ret r, u', t) ->
    replays (pso_replay cfg) (0, 0) u t (0, 0) u'.
Proof. exact @pso_replayed. Qed.
Print Assumptions C78_pso_replayed.
Theorem C78_pso_replayed_prefix :
  forall (U T : Type) (FT : FloatTrait T) (cfg : pso_config U T) fuel s u o u' t,
    pso_find_min cfg fuel s u = (o, u', t) \/ pso_next_iterations cfg fuel s u = (o, u', t) ->
    exists t1 t2 c1 u1, t = t1 ++ t2 /\ length t2 <= 1 /\ replays (pso_replay cfg) (0, 0) u t1 c1 u1.
Proof. exact @pso_nearly_replayed. Qed.
Print Assumptions C78_pso_replayed_prefix.

(** Two post-moves take turns. *)
Definition two_moves : pso_config env f64 := pso_set_post_moves flock [box_move; box_move].
Example C78_nonvacuous :
  length (pso_post_move two_moves) = 2 /\
  (exists r u' t, pso_find_min two_moves 10 flock_start (0, 0) = (Ret r, u', t) /\
     count_occ Bool.bool_dec
       (map (fun e => match e with ECall (PPostMove _ _) => true | _ => false end) t) true = 16).
Proof.
  split; [reflexivity|].
  destruct (pso_find_min two_moves 10 flock_start (0, 0)) as [[o u'] t] eqn:E.
  assert (R : returned (fst (fst (pso_find_min two_moves 10 flock_start (0, 0)))) = true) by (vm_compute; reflexivity).
  assert (N : count_occ Bool.bool_dec
    (map (fun e => match e with ECall (PPostMove _ _) => true | _ => false end)
         (snd (pso_find_min two_moves 10 flock_start (0, 0)))) true = 16) by (vm_compute; reflexivity).
  rewrite E in R, N. cbn [fst snd] in R, N. destruct o as [r| |]; try discriminate R.
  exists r, u', t. split; [reflexivity|exact N].
Qed.

(** ** C79: [find_min] of the PSO forgets the previous run. *)
Theorem C79_pso_find_min_fresh :
  forall (U T : Type) (FT : FloatTrait T) (cfg : pso_config U T) fuel s1 s2 u,
    pso_find_min cfg fuel s1 u = pso_find_min cfg fuel s2 u.
Proof. reflexivity. Qed.
Print Assumptions C79_pso_find_min_fresh.

Example C79_nonvacuous : sw_iteration flock_swarm <> sw_iteration flock_start.
Proof. destruct flock_three as [-> _]. discriminate. Qed.
