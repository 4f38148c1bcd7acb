(** * C98: a coordinate in which the swarm rests stays as it is *)

From Coq Require Import List Arith ZArith Bool Lia.
From Flocq Require Import Core IEEE754.BinarySingleNaN IEEE754.Binary.
From Verif Require Import Base FloatModel Rng GaModel GaComponents PsoModel PsoComponents StopModel SpecGa SpecPso SpecBox
  SpecRand SpecVel SpecStill StillFacts FloatFacts DemoFloats DemoPso.
Import ListNotations.

(** ** Runs: whatever the goal says, whatever is drawn and however long it takes *)
Theorem C98_next_iterations :
  forall prec emax (Hp : Prec_gt_0 prec) (He : Prec_lt_emax prec emax) (np : nan_policy prec emax)
    k (c : bfloat prec emax), is_finite c = true ->
  forall U (cfg : pso_config U (bfloat prec emax)) fuel s u o u' t,
    quiet k c cfg -> swarm_rests k c s ->
    @pso_next_iterations U _ (FloatIEEE np) cfg fuel s u = (o, u', t) ->
    rested k c t /\ (forall r s', o = Ret (r, s') -> swarm_rests k c s').
Proof. exact @next_rests. Qed.
Print Assumptions C98_next_iterations.
Theorem C98_find_min :
  forall prec emax (Hp : Prec_gt_0 prec) (He : Prec_lt_emax prec emax) (np : nan_policy prec emax)
    k (c : bfloat prec emax), is_finite c = true ->
  forall U (cfg : pso_config U (bfloat prec emax)) fuel s u o u' t,
    quiet k c cfg ->
    (forall xs u1, pso_coordinates cfg u = (Ret xs, u1) -> Forall (at_number k c) xs) ->
    (forall u vs u1, pso_velocities cfg u = (Ret vs, u1) -> Forall (still k) vs) ->
    @pso_find_min U _ (FloatIEEE np) cfg fuel s u = (o, u', t) ->
    rested k c t /\ (forall r s', o = Ret (r, s') -> swarm_rests k c s').
Proof. exact @find_rests. Qed.
Print Assumptions C98_find_min.

(** ** All components of the library but RandomTeleport are quiet *)
Theorem C98_classic :
  forall prec emax (Hp : Prec_gt_0 prec) (He : Prec_lt_emax prec emax) (np : nan_policy prec emax)
    k (c : bfloat prec emax), is_finite c = true ->
  forall np32 U (L : lens U rng) phi_p phi_g, is_finite phi_p = true -> is_finite phi_g = true ->
    quiet_calc k c (fun s p => zoom L (@classic_velocity _ (FloatIEEE np) np32 phi_p phi_g s p)).
Proof. exact @classic_zoom_quiet. Qed.
Print Assumptions C98_classic.
Theorem C98_canonical :
  forall prec emax (Hp : Prec_gt_0 prec) (He : Prec_lt_emax prec emax) (np : nan_policy prec emax)
    k (c : bfloat prec emax), is_finite c = true ->
  forall np32 U (L : lens U rng) phi_p phi_g xi, is_finite phi_p = true -> is_finite phi_g = true -> is_finite xi = true ->
    quiet_calc k c (fun s p => zoom L (@canonical_velocity _ (FloatIEEE np) np32 phi_p phi_g xi s p)).
Proof. exact @canonical_zoom_quiet. Qed.
Print Assumptions C98_canonical.
Theorem C98_inertia :
  forall prec emax (Hp : Prec_gt_0 prec) (He : Prec_lt_emax prec emax) (np : nan_policy prec emax)
    k (c : bfloat prec emax), is_finite c = true ->
  forall np32 U (L : lens U rng), lens_ok L ->
  forall phi_p phi_g (inertia : nat -> comp U (bfloat prec emax)), is_finite phi_p = true -> is_finite phi_g = true ->
    (forall i u w u', inertia i u = (Ret w, u') -> is_finite w = true) ->
    quiet_calc k c (@inertia_velocity _ (FloatIEEE np) np32 U L phi_p phi_g inertia).
Proof. exact @inertia_quiet. Qed.
Print Assumptions C98_inertia.
Theorem C98_negative :
  forall prec emax (Hp : Prec_gt_0 prec) (He : Prec_lt_emax prec emax) (np : nan_policy prec emax)
    k (c : bfloat prec emax), is_finite c = true ->
  forall np64 U (L : lens U rng) (q : @negative_reinforcement (bfloat prec emax)),
    Forall (fun phi => is_finite phi = true)
      [nr_phi_best_personal q; nr_phi_best_current q; nr_phi_best_global q;
       nr_phi_worst_personal q; nr_phi_worst_current q; nr_phi_worst_global q; nr_xi q] ->
    quiet_calc k c (fun s p => zoom L (@negative_velocity _ (FloatIEEE np) np64 q s p)).
Proof. exact @negative_zoom_quiet. Qed.
Print Assumptions C98_negative.
Theorem C98_max_velocity_dimensions :
  forall prec emax (Hp : Prec_gt_0 prec) (He : Prec_lt_emax prec emax) (np : nan_policy prec emax) k U limits m,
    nth_error limits k = Some m -> leb (Binary.B754_zero false) m = true ->
    quiet_velocity k (fun v => @cpure U _ (@max_velocity_dimensions (bfloat prec emax) (FloatIEEE np) limits v)).
Proof. exact @dimensions_quiet. Qed.
Print Assumptions C98_max_velocity_dimensions.
Theorem C98_max_velocity_abs :
  forall prec emax (Hp : Prec_gt_0 prec) (He : Prec_lt_emax prec emax) (np : nan_policy prec emax) k U limit,
    is_finite limit = true -> leb (Binary.B754_zero false) limit = true ->
    quiet_velocity k (fun v => @cret U _ (@max_velocity_abs (bfloat prec emax) (FloatIEEE np) limit v)).
Proof. exact @abs_quiet. Qed.
Print Assumptions C98_max_velocity_abs.
Theorem C98_move_to_boundary :
  forall prec emax (Hp : Prec_gt_0 prec) (He : Prec_lt_emax prec emax) (np : nan_policy prec emax)
    k (c : bfloat prec emax), is_finite c = true ->
  forall U box lo hi, nth_error box k = Some (lo, hi) -> leb lo c = true -> leb c hi = true ->
    quiet_move k c (fun x => @cpure U _ (@move_to_boundary _ (FloatIEEE np) box x)).
Proof. exact @move_quiet. Qed.
Print Assumptions C98_move_to_boundary.

(** Two particles that agree in the second coordinate only: the first one moves, the
    second one does not. *)
Definition ridge : pso_config rng f64 :=
  PsoConfig (goal_from_function swarm_goal) (max_iterations 3)
    (cret [[three64; one64]; [ten64; one64]]) (cret (zero_velocities 2 2))
    (fun s p => zoom lens_id (@classic_velocity f64 (FloatIEEE np64_default) np32_default one64 two64 s p))
    [fun v => cret (@max_velocity_abs f64 (FloatIEEE np64_default) four64 v)]
    [fun x => cpure (@move_to_boundary f64 (FloatIEEE np64_default) swarm_box x)] [].
Definition evals (t : list (pso_event f64)) : list (list Z) :=
  flat_map (fun e => match e with EEval x => [map to_bits64 x] | _ => [] end) t.
Example C98_runs_nonvacuous :
  is_finite one64 = true /\ quiet 1 one64 ridge /\
  (forall u xs u1, pso_coordinates ridge u = (Ret xs, u1) -> Forall (at_number 1 one64) xs) /\
  (forall u vs u1, pso_velocities ridge u = (Ret vs, u1) -> Forall (still 1) vs) /\
  let t := snd (@pso_find_min rng f64 (FloatIEEE np64_default) ridge 10 swarm_new (fun _ => to_bits32 one32)) in
  length (evals t) = 8 /\
  nodup (list_eq_dec Z.eq_dec) (map (skipn 1) (evals t)) = [[to_bits64 one64]] /\
  2 < length (nodup (list_eq_dec Z.eq_dec) (map (firstn 1) (evals t))).
Proof.
  split; [reflexivity|]. split; [|split; [|split]].
  - split; [apply C98_classic; reflexivity|]. split.
    + constructor; [|constructor]. apply C98_max_velocity_abs; reflexivity.
    + constructor; [|constructor]. apply (C98_move_to_boundary _ _ _ _ np64_default 1 one64 eq_refl rng swarm_box one64 four64); reflexivity.
  - intros u xs u1 E. injection E as <- _. constructor; [|constructor; [|constructor]]; exists one64; split; reflexivity.
  - intros u vs u1 E. injection E as <- _. constructor; [|constructor; [|constructor]]; (eexists; split; [reflexivity|eexists; reflexivity]).
  - vm_compute. repeat split. repeat constructor.
Qed.

(** ** A swarm of one particle, started by ZeroVelocityInitializer, never moves *)
Theorem C98_lone_particle :
  forall prec emax (Hp : Prec_gt_0 prec) (He : Prec_lt_emax prec emax) (np : nan_policy prec emax)
    U goal stop coords calc limits loggers box n (x : list (bfloat prec emax)) fuel s u u1 o u' t,
    coords u = (Ret [x], u1) -> in_box box x ->
    (forall k c, is_finite c = true -> quiet_calc k c calc) ->
    Forall (fun f => forall k, k < length x -> quiet_velocity k f) limits ->
    @pso_find_min U _ (FloatIEEE np)
      (PsoConfig goal stop coords (cret (@zero_velocities _ (FloatIEEE np) (length x) n)) calc limits
         [fun x => cpure (@move_to_boundary _ (FloatIEEE np) box x)] loggers) fuel s u = (o, u', t) ->
    forall y w, evaluated t y w -> same_point y x.
Proof. exact @lone_particle. Qed.
Print Assumptions C98_lone_particle.
(** The first particle of the swarm above on its own. *)
Example C98_lone_particle_nonvacuous :
  in_box swarm_box [three64; one64] /\
  let calc := fun s p => zoom lens_id (@classic_velocity f64 (FloatIEEE np64_default) np32_default one64 two64 s p) in
  (forall k c, is_finite c = true -> quiet_calc k c calc) /\
  let limit := fun v => @cret rng _ (@max_velocity_abs f64 (FloatIEEE np64_default) four64 v) in
  Forall (fun f => forall k, k < 2 -> quiet_velocity k f) [limit] /\
  evals (snd (@pso_find_min rng f64 (FloatIEEE np64_default)
    (PsoConfig (goal_from_function swarm_goal) (max_iterations 3) (cret [[three64; one64]]) (cret (zero_velocities 2 1))
       calc [limit] [fun x => cpure (@move_to_boundary f64 (FloatIEEE np64_default) swarm_box x)] [])
    10 swarm_new counter)) = repeat (map to_bits64 [three64; one64]) 4.
Proof.
  split; [repeat constructor|]. split; [intros; now apply C98_classic|].
  split; [constructor; [|constructor]; intros; apply C98_max_velocity_abs; reflexivity|].
  vm_compute. reflexivity.
Qed.
