(** * Properties C46 and C75: particle swarms whose components fit together never panic *)

From Coq Require Import List Arith ZArith Bool Lia.
From Flocq Require Import Core.FLX IEEE754.BinarySingleNaN.
From Verif Require Import Base Logic FloatModel Rng GaModel GaComponents PsoModel PsoComponents StopModel
  SpecGa SpecPso SpecRun SpecBox SpecTotal SpecStandard PsoTotal PsoStandard DemoFloats DemoPso.
Import ListNotations.

(** ** C46: the documented configuration *)
Theorem C46_standard_f64 :
  forall (U : Type) (L : lens U rng) (HL : lens_ok L) (I : phase -> nat -> U -> Prop) (HI : lasting L I) (np32 : nan_policy 24 128) (np64 : nan_policy 53 1024)
    (box : list (f64 * f64)) (n k : nat) answers goal stop vels calc post_velocity earlier loggers fuel s u,
    good_intervals64 np64 box ->
    (forall ph i x, dim (length box) x -> returns (I ph i) (goal x)) ->
    (forall q, always (I Running (as_iter q)) (answers q) (stop q)) -> stops_by k answers ->
    standard_velocities64 np64 L (length box) n vels ->
    standard_calc np64 np32 np64 L calc ->
    Forall (@standard_post_velocity _ _ _ _ np64 U (length box)) post_velocity ->
    Forall (@standard_post_move _ _ _ _ np64 np32 _ U L (length box)) earlier ->
    logging_fits (fun _ => True) I loggers ->
    k < fuel -> I Resting 0 u ->
    exists r s' u' t,
      @pso_find_min U f64 (FloatIEEE np64)
        (PsoConfig goal stop (zoom L (@random_vectors f64 NumGene64 np64 box n)) vels calc post_velocity
           (earlier ++ [fun x => cpure (@move_to_boundary f64 (FloatIEEE np64) box x)]) loggers) fuel s u
        = (Ret (r, s'), u', t) /\
      sw_iteration s' <= k /\ answers (pso_view s') true /\ length (particles s') = n /\ (r = None <-> n = 0) /\
      (forall x v, r = Some (x, v) -> in_box box x /\ evaluated t x v) /\ I Running (sw_iteration s') u'.
Proof. exact @standard64. Qed.
Print Assumptions C46_standard_f64.

Theorem C46_standard_f32 :
  forall (U : Type) (L : lens U rng) (HL : lens_ok L) (I : phase -> nat -> U -> Prop) (HI : lasting L I) (np32 : nan_policy 24 128) (np64 : nan_policy 53 1024)
    (box : list (f32 * f32)) (n k : nat) answers goal stop vels calc post_velocity earlier loggers fuel s u,
    good_intervals32 box ->
    (forall ph i x, dim (length box) x -> returns (I ph i) (goal x)) ->
    (forall q, always (I Running (as_iter q)) (answers q) (stop q)) -> stops_by k answers ->
    standard_velocities32 np64 np32 L (length box) n vels ->
    standard_calc np32 np32 np64 L calc ->
    Forall (@standard_post_velocity _ _ _ _ np32 U (length box)) post_velocity ->
    Forall (@standard_post_move _ _ _ _ np32 np32 _ U L (length box)) earlier ->
    logging_fits (fun _ => True) I loggers ->
    k < fuel -> I Resting 0 u ->
    exists r s' u' t,
      @pso_find_min U f32 (FloatIEEE np32)
        (PsoConfig goal stop (zoom L (@random_vectors f32 (NumGene32 np64 np32) np64 box n)) vels calc
           post_velocity (earlier ++ [fun x => cpure (@move_to_boundary f32 (FloatIEEE np32) box x)]) loggers) fuel s u
        = (Ret (r, s'), u', t) /\
      sw_iteration s' <= k /\ answers (pso_view s') true /\ length (particles s') = n /\ (r = None <-> n = 0) /\
      (forall x v, r = Some (x, v) -> in_box box x /\ evaluated t x v) /\ I Running (sw_iteration s') u'.
Proof. exact @standard32. Qed.
Print Assumptions C46_standard_f32.

(** After any history of runs with a boundary at the end of the post move chain,
    [next_iterations] goes on as well. *)
Theorem C46_continued :
  forall (prec emax : Z) (Hp : Prec_gt_0 prec) (He : Prec_lt_emax prec emax) (np : nan_policy prec emax) (U : Type)
    (I : phase -> nat -> U -> Prop) (ok : pso_config U (bfloat prec emax) -> Prop) answers d n (cfg : pso_config U (bfloat prec emax))
    box k fuel s h u,
    good_box box ->
    (forall c, ok c -> exists earlier,
       pso_post_move c = earlier ++ [fun x => cpure (@move_to_boundary _ (FloatIEEE np) box x)]) ->
    @pso_reach U _ (FloatIEEE np) ok s h -> ok cfg -> swarm_dim d s ->
    pso_fits I answers d n cfg -> stops_by k answers -> k - sw_iteration s < fuel -> I Resting (sw_iteration s) u ->
    exists r s' u' t, @pso_next_iterations U _ (FloatIEEE np) cfg fuel s u = (Ret (r, s'), u', t) /\
      (sw_iteration s <= k -> sw_iteration s' <= k) /\ answers (pso_view s') true /\
      swarm_dim d s' /\ length (particles s') = length (particles s) /\ (r = None <-> particles s = []) /\
      (forall x v, r = Some (x, v) -> in_box box x /\ evaluated (h ++ t) x v) /\ I Running (sw_iteration s') u'.
Proof. exact @standard_next. Qed.
Print Assumptions C46_continued.

(** Such stop checkers are MaxIterations(k) and CompositeAny(Threshold(t), MaxIterations(k)). *)
Theorem C46_max_iterations :
  forall (U T : Type) (I : U -> Prop) k q,
    always I (max_answers k q) (@max_iterations U T k q) /\ stops_by k (@max_answers T k).
Proof. intros. split; [apply max_always|apply max_stops_by]. Qed.
Print Assumptions C46_max_iterations.
Theorem C46_composite_any :
  forall (U T : Type) (I : U -> Prop) t k q,
    always I (any_answers t k q) (@composite_any U T [threshold t; max_iterations k] q) /\
    stops_by k (@any_answers T t k).
Proof. intros. split; [apply any_always|apply any_stops_by]. Qed.
Print Assumptions C46_composite_any.

(** Two particles in a box of two dimensions, three iterations with random velocities,
    speed limits and teleports. *)
Definition std_box : list (f64 * f64) := [(minus_two64, ten64); (one64, four64)].
Definition std_post_move : list (list f64 -> comp rng (list f64)) :=
  match @random_teleport_new f64 Demo64 std_box one32 with
  | Ret rt => [fun x => zoom lens_id (random_teleport_post_move np32_default rt x)]
  | _ => []
  end.
Definition std_swarm : pso_config rng f64 :=
  PsoConfig (goal_from_function swarm_goal) (max_iterations 3)
    (zoom lens_id (@random_vectors f64 NumGene64 np64_default std_box 2))
    (zoom lens_id (@random_vectors f64 NumGene64 np64_default std_box 2))
    (fun s p => zoom lens_id (classic_velocity np32_default one64 two64 s p))
    [fun v => cret (max_velocity_abs three64 v); fun v => cpure (max_velocity_dimensions [one64; two64] v)]
    (std_post_move ++ [fun x => cpure (move_to_boundary std_box x)]) [].
Example C46_nonvacuous :
  lens_ok (@lens_id rng) /\ lasting lens_id (fun _ _ _ => True) /\ good_intervals64 np64_default std_box /\
  (forall x, dim 2 x -> @returns rng f64 (fun _ => True) (pso_goal std_swarm x)) /\
  standard_velocities64 np64_default lens_id 2 2 (pso_velocities std_swarm) /\
  standard_calc np64_default np32_default np64_default lens_id (pso_calc std_swarm) /\
  Forall (@standard_post_velocity _ _ _ _ np64_default rng 2) (pso_post_velocity std_swarm) /\
  Forall (@standard_post_move _ _ _ _ np64_default np32_default _ rng lens_id 2) std_post_move /\
  std_post_move <> [] /\
  (exists y, fst (fst (pso_find_min std_swarm 10 flock_start counter)) = Ret y /\
     (bits (fst y), sw_iteration (snd y)) =
       (Some ([to_bits64 (from_bits64 9); to_bits64 one64], to_bits64 one64), 3)).
Proof.
  assert (G : good_intervals64 np64_default std_box).
  { intros lo hi [E|[E|[]]]; injection E as <- <-; split; reflexivity. }
  split; [split; reflexivity|]. split; [split; auto|]. split; [exact G|].
  split; [intros x _ u _; eexists _, _; split; [reflexivity|]; auto|].
  split; [now apply std_random64|]. split; [apply std_classic|].
  split; [constructor; [apply std_max_abs|constructor; [now apply std_max_dimensions|constructor]]|].
  assert (T : exists rt, @random_teleport_new f64 Demo64 std_box one32 = Ret rt) by (eexists; reflexivity).
  destruct T as [rt T].
  assert (E : std_post_move = [fun x => zoom lens_id (random_teleport_post_move np32_default rt x)])
    by (unfold std_post_move; now rewrite T).
  rewrite E. split; [constructor; [exact (std_teleport np64_default np32_default lens_id 2 std_box one32 rt eq_refl T)|constructor]|].
  split; [discriminate|]. apply show_ret. vm_compute. reflexivity.
Qed.

(** ** C75: a swarm whose components fit together never panics, whatever stops it,
    and stays in shape. *)
Theorem C75_find_min_never_panics :
  forall (U T : Type) (FT : FloatTrait T) (I : phase -> nat -> U -> Prop) answers (d n : nat) (cfg : pso_config U T) fuel s u,
    pso_fits I answers d n cfg -> I Resting 0 u -> fst (fst (pso_find_min cfg fuel s u)) <> Panic.
Proof. exact @pso_find_never_panics. Qed.
Print Assumptions C75_find_min_never_panics.

Theorem C75_next_iterations_never_panics :
  forall (U T : Type) (FT : FloatTrait T) (I : phase -> nat -> U -> Prop) answers (d n : nat) (cfg : pso_config U T) fuel s u,
    pso_fits I answers d n cfg -> I Resting (sw_iteration s) u -> swarm_dim d s -> fst (fst (pso_next_iterations cfg fuel s u)) <> Panic.
Proof. exact @pso_next_never_panics. Qed.
Print Assumptions C75_next_iterations_never_panics.

Theorem C75_find_min_keeps_shape :
  forall (U T : Type) (FT : FloatTrait T) (I : phase -> nat -> U -> Prop) answers (d n : nat) (cfg : pso_config U T) fuel s u r s' u' t,
    pso_fits I answers d n cfg -> I Resting 0 u -> pso_find_min cfg fuel s u = (Ret (r, s'), u', t) ->
    swarm_dim d s' /\ length (particles s') = n /\ answers (pso_view s') true /\ I Running (sw_iteration s') u'.
Proof. exact @pso_find_fits. Qed.
Print Assumptions C75_find_min_keeps_shape.

Theorem C75_next_iterations_keeps_shape :
  forall (U T : Type) (FT : FloatTrait T) (I : phase -> nat -> U -> Prop) answers (d n : nat) (cfg : pso_config U T) fuel s u r s' u' t,
    pso_fits I answers d n cfg -> I Resting (sw_iteration s) u -> swarm_dim d s ->
    pso_next_iterations cfg fuel s u = (Ret (r, s'), u', t) ->
    swarm_dim d s' /\ length (particles s') = length (particles s) /\ answers (pso_view s') true /\ I Running (sw_iteration s') u'.
Proof. exact @pso_next_fits. Qed.
Print Assumptions C75_next_iterations_keeps_shape.

Theorem C75_find_min_seen_in_shape :
  forall (U T : Type) (FT : FloatTrait T) (I : phase -> nat -> U -> Prop) answers (d n : nat) (cfg : pso_config U T) fuel s u,
    pso_fits I answers d n cfg -> I Resting 0 u -> Forall (swarm_seen d n) (snd (pso_find_min cfg fuel s u)).
Proof. exact @pso_find_seen. Qed.
Print Assumptions C75_find_min_seen_in_shape.

Theorem C75_next_iterations_seen_in_shape :
  forall (U T : Type) (FT : FloatTrait T) (I : phase -> nat -> U -> Prop) answers (d n : nat) (cfg : pso_config U T) fuel s u,
    pso_fits I answers d n cfg -> I Resting (sw_iteration s) u -> swarm_dim d s ->
    Forall (swarm_seen d (length (particles s))) (snd (pso_next_iterations cfg fuel s u)).
Proof. exact @pso_next_seen. Qed.
Print Assumptions C75_next_iterations_seen_in_shape.

Theorem C75_ends :
  forall (U T : Type) (FT : FloatTrait T) (I : phase -> nat -> U -> Prop) answers (d n : nat) (cfg : pso_config U T) k fuel s u,
    pso_fits I answers d n cfg -> stops_by k answers -> k < fuel -> I Resting 0 u ->
    exists r s' u' t, pso_find_min cfg fuel s u = (Ret (r, s'), u', t) /\
      swarm_dim d s' /\ length (particles s') = n /\ (r = None <-> n = 0) /\
      sw_iteration s' <= k /\ answers (pso_view s') true /\ I Running (sw_iteration s') u'.
Proof. exact @pso_find_returns. Qed.
Print Assumptions C75_ends.

Theorem C75_next_iterations_ends :
  forall (U T : Type) (FT : FloatTrait T) (I : phase -> nat -> U -> Prop) answers (d n : nat) (cfg : pso_config U T) k fuel s u,
    pso_fits I answers d n cfg -> stops_by k answers -> k - sw_iteration s < fuel -> I Resting (sw_iteration s) u -> swarm_dim d s ->
    exists r s' u' t, pso_next_iterations cfg fuel s u = (Ret (r, s'), u', t) /\
      swarm_dim d s' /\ length (particles s') = length (particles s) /\ (r = None <-> particles s = []) /\
      (sw_iteration s <= k -> sw_iteration s' <= k) /\ answers (pso_view s') true /\ I Running (sw_iteration s') u'.
Proof. exact @pso_next_returns. Qed.
Print Assumptions C75_next_iterations_ends.

(** The flock of the other examples fits together, and no swarm is left without
    a shape: the new one has it. *)
Example C75_nonvacuous :
  pso_fits (fun _ _ _ => True) (max_answers 3) 2 2 flock /\ stops_by 3 (@max_answers (list f64) 3) /\
  swarm_dim 2 flock_swarm /\ length (particles flock_swarm) = 2 /\ swarm_dim 2 (@swarm_new f64).
Proof.
  assert (F : pso_fits (fun _ _ _ => True) (max_answers 3) 2 2 flock).
  { constructor; cbn [flock pso_goal pso_stop pso_coordinates pso_velocities pso_calc pso_post_velocity pso_post_move pso_loggers].
    - auto.
    - intros ph i x _ u _. eexists _, _. split; [reflexivity|auto].
    - intros s _. apply max_always.
    - intros u _. eexists _, _. split; [reflexivity|]. split; auto. split; [reflexivity|repeat constructor].
    - intros u _. eexists _, _. split; [reflexivity|]. split; auto. split; [reflexivity|repeat constructor].
    - intros s p Hs Hi u _. eexists _, _. split; [reflexivity|]. split; auto.
      assert (D : dim 2 (coordinates p)).
      { destruct Hs as [A _]. rewrite Forall_forall in A. apply (A p Hi). }
      unfold dim in *. destruct (best_particle s); [destruct (Nat.even _)|]; rewrite ?map_length; auto.
    - intros i f v [<-|[]] Hv u _. eexists _, _. split; [reflexivity|]. auto.
    - intros ph i f x [<-|[]] Hx. apply (standard_post_move_fits np64_default np32_default {| lget := fun _ => counter; lput := fun _ u => u |} (fun _ => True) (fun _ _ _ => Logic.I) 2); auto.
      apply std_boundary. reflexivity.
    - apply (plain_logging _ (fun _ _ => True)). intros l k q [<-|[<-|[]]] _ u _; destruct k; eexists _, _; (split; [reflexivity|auto]). }
  split; [exact F|]. split; [apply max_stops_by|].
  destruct (pso_find_fits _ _ _ _ _ _ _ _ _ _ _ _ F Logic.I flock_returns) as [A [B _]].
  split; [exact A|]. split; [exact B|]. apply swarm_new_dim.
Qed.
