(** * Property C102: how fast the particles of a swarm fly *)

From Coq Require Import List Arith ZArith Bool Reals String Lia Lra.
From Flocq Require Import Core IEEE754.BinarySingleNaN IEEE754.Binary.
From Verif Require Import Base FloatModel Rng GaModel PsoModel PsoComponents StopModel LogModel TestFuncModel ExampleModel StatProgramModel
  SpecGa SpecPso SpecReal SpecSpeed SpecPace ArithFacts PaceFacts PaceRuns DemoFloats DemoExample.
Import ListNotations.
Local Open Scope R_scope.

(** ** With MaxVelocityAbs *)

(** If first velocities keep the limit, then so do all velocities that are ever seen. *)
Theorem C102_find_min :
  forall (prec emax : Z) (Hp : Prec_gt_0 prec) (He : Prec_lt_emax prec emax) (np : nan_policy prec emax),
    (1 < prec)%Z -> forall h, emax = (2 * h)%Z ->
  forall (U : Type) (cfg : pso_config U (bfloat prec emax)) d a k limit box,
    (0 <= k)%Z -> (Z.of_nat d <= 2 ^ prec)%Z -> INR d * bpow radix2 (2 * k) < bpow radix2 emax ->
    limited np cfg d a (bpow radix2 k) limit box ->
  forall fuel s u o u' t,
    (forall u vs u1, pso_velocities cfg u = (Ret vs, u1) -> Forall (slow d (rounded_limit (prec := prec) (emax := emax) d (Binary.B2R prec emax limit))) vs) ->
    @pso_find_min U _ (FloatIEEE np) cfg fuel s u = (o, u', t) ->
    velocities_seen (slow d (rounded_limit (prec := prec) (emax := emax) d (Binary.B2R prec emax limit))) t /\
    forall r s', o = Ret (r, s') -> swarm_where d a (slow d (rounded_limit (prec := prec) (emax := emax) d (Binary.B2R prec emax limit))) s'.
Proof. exact @limited_find. Qed.
Print Assumptions C102_find_min.
Theorem C102_next_iterations :
  forall (prec emax : Z) (Hp : Prec_gt_0 prec) (He : Prec_lt_emax prec emax) (np : nan_policy prec emax),
    (1 < prec)%Z -> forall h, emax = (2 * h)%Z ->
  forall (U : Type) (cfg : pso_config U (bfloat prec emax)) d a k limit box,
    (0 <= k)%Z -> (Z.of_nat d <= 2 ^ prec)%Z -> INR d * bpow radix2 (2 * k) < bpow radix2 emax ->
    limited np cfg d a (bpow radix2 k) limit box ->
  forall fuel s u o u' t,
    swarm_where d a (slow d (rounded_limit (prec := prec) (emax := emax) d (Binary.B2R prec emax limit))) s ->
    @pso_next_iterations U _ (FloatIEEE np) cfg fuel s u = (o, u', t) ->
    velocities_seen (slow d (rounded_limit (prec := prec) (emax := emax) d (Binary.B2R prec emax limit))) t /\
    forall r s', o = Ret (r, s') -> swarm_where d a (slow d (rounded_limit (prec := prec) (emax := emax) d (Binary.B2R prec emax limit))) s'.
Proof. exact @limited_next. Qed.
Print Assumptions C102_next_iterations.

(** ** Without: a bound that the calculator keeps, the swarm keeps *)
Theorem C102_find_min_unlimited :
  forall (prec emax : Z) (Hp : Prec_gt_0 prec) (He : Prec_lt_emax prec emax) (np : nan_policy prec emax)
    (U : Type) (cfg : pso_config U (bfloat prec emax)) d a m box,
    List.length box = d -> box_within a box -> tame d a m m (pso_calc cfg) -> pso_post_velocity cfg = [] ->
    (exists moves, pso_post_move cfg = (moves ++ [fun x => cpure (@move_to_boundary _ (FloatIEEE np) box x)])%list) ->
  forall fuel s u o u' t,
    (forall u vs u1, pso_velocities cfg u = (Ret vs, u1) -> Forall (bounded d m) vs) ->
    @pso_find_min U _ (FloatIEEE np) cfg fuel s u = (o, u', t) ->
    velocities_seen (bounded d m) t /\ forall r s', o = Ret (r, s') -> swarm_where d a (bounded d m) s'.
Proof. exact @free_find. Qed.
Print Assumptions C102_find_min_unlimited.
Theorem C102_next_iterations_unlimited :
  forall (prec emax : Z) (Hp : Prec_gt_0 prec) (He : Prec_lt_emax prec emax) (np : nan_policy prec emax)
    (U : Type) (cfg : pso_config U (bfloat prec emax)) d a m box,
    List.length box = d -> box_within a box -> tame d a m m (pso_calc cfg) -> pso_post_velocity cfg = [] ->
    (exists moves, pso_post_move cfg = (moves ++ [fun x => cpure (@move_to_boundary _ (FloatIEEE np) box x)])%list) ->
  forall fuel s u o u' t, swarm_where d a (bounded d m) s ->
    @pso_next_iterations U _ (FloatIEEE np) cfg fuel s u = (o, u', t) ->
    velocities_seen (bounded d m) t /\ forall r s', o = Ret (r, s') -> swarm_where d a (bounded d m) s'.
Proof. exact @free_next. Qed.
Print Assumptions C102_next_iterations_unlimited.

(** ** The calculators answer in bounds: coordinates up to [2^a], velocities up to [2^v],
    coefficients up to [2^p], factors up to [2^x] *)
Theorem C102_canonical :
  forall (prec emax : Z) (Hp : Prec_gt_0 prec) (He : Prec_lt_emax prec emax) (np : nan_policy prec emax)
    (np32 : nan_policy 24 128) (U : Type) (L : lens U rng) d a v p x m,
    (0 <= a)%Z -> (0 <= v)%Z -> (0 <= p)%Z -> (0 <= x)%Z -> m <= bpow radix2 v ->
  forall phi_p phi_g xi : bfloat prec emax, at_most phi_p p -> at_most phi_g p -> at_most xi x ->
    (x + Z.max v (p + a + 1) + 2 < emax)%Z ->
    tame d (bpow radix2 a) m (bpow radix2 (x + Z.max v (p + a + 1) + 2))
      (fun s q => zoom L (@canonical_velocity _ (FloatIEEE np) np32 phi_p phi_g xi s q)).
Proof. exact @canonical_tame. Qed.
Print Assumptions C102_canonical.
Theorem C102_classic :
  forall (prec emax : Z) (Hp : Prec_gt_0 prec) (He : Prec_lt_emax prec emax) (np : nan_policy prec emax)
    (np32 : nan_policy 24 128) (U : Type) (L : lens U rng) d a v p m,
    (0 <= a)%Z -> (0 <= p)%Z -> m <= bpow radix2 v ->
  forall phi_p phi_g : bfloat prec emax, at_most phi_p p -> at_most phi_g p ->
    (Z.max v (p + a + 1) + 2 < emax)%Z ->
    tame d (bpow radix2 a) m (bpow radix2 (Z.max v (p + a + 1) + 2))
      (fun s q => zoom L (@classic_velocity _ (FloatIEEE np) np32 phi_p phi_g s q)).
Proof. exact @classic_tame. Qed.
Print Assumptions C102_classic.
Theorem C102_inertia :
  forall (prec emax : Z) (Hp : Prec_gt_0 prec) (He : Prec_lt_emax prec emax) (np : nan_policy prec emax)
    (np32 : nan_policy 24 128) (U : Type) (L : lens U rng) d a v p x m,
    (0 <= a)%Z -> (0 <= v)%Z -> (0 <= p)%Z -> (0 <= x)%Z -> m <= bpow radix2 v -> lens_ok L ->
  forall (phi_p phi_g : bfloat prec emax) (inertia : nat -> comp U (bfloat prec emax)),
    (forall i u w u', inertia i u = (Ret w, u') -> at_most w x) -> at_most phi_p p -> at_most phi_g p ->
    (Z.max (x + v) (p + a + 1) + 2 < emax)%Z ->
    tame d (bpow radix2 a) m (bpow radix2 (Z.max (x + v) (p + a + 1) + 2))
      (@inertia_velocity _ (FloatIEEE np) np32 U L phi_p phi_g inertia).
Proof. exact @inertia_tame. Qed.
Print Assumptions C102_inertia.
Theorem C102_negative :
  forall (prec emax : Z) (Hp : Prec_gt_0 prec) (He : Prec_lt_emax prec emax) (np : nan_policy prec emax)
    (np64 : nan_policy 53 1024) (U : Type) (L : lens U rng) d a v p x m,
    (0 <= a)%Z -> (0 <= v)%Z -> (0 <= p)%Z -> (0 <= x)%Z -> m <= bpow radix2 v ->
  forall q : @negative_reinforcement (bfloat prec emax),
    Forall (fun phi => at_most phi p)
      [nr_phi_best_personal q; nr_phi_best_current q; nr_phi_best_global q;
       nr_phi_worst_personal q; nr_phi_worst_current q; nr_phi_worst_global q] ->
    at_most (nr_xi q) x -> (x + Z.max v (p + a + 1) + 6 < emax)%Z ->
    tame d (bpow radix2 a) m (bpow radix2 (x + Z.max v (p + a + 1) + 6))
      (fun s r => zoom L (@negative_velocity _ (FloatIEEE np) np64 q s r)).
Proof. exact @negative_tame. Qed.
Print Assumptions C102_negative.

(** ** The programs: limits 10, 700 and 2 *)
Theorem C102_programs_limited :
  forall (W : Type) (write : string -> comp W bool) (now : comp W Z) (fmt : formatter f32)
    (np32 : nan_policy 24 128) (np64 : nan_policy 53 1024) (LM : Libm f32) (dbg : bool) fuel r (w : W),
    velocities_seen (slow 5 (10 + / 100000)) (snd (pso_main np32 (@particleswarm_paraboloid W write now fmt np32 np64 dbg) fuel r w)) /\
    velocities_seen (slow 3 (700 + / 1000)) (snd (pso_main np32 (@particleswarm_schwefel W write now fmt np32 np64 LM dbg) fuel r w)).
Proof. exact @limited_programs. Qed.
Print Assumptions C102_programs_limited.
Theorem C102_programs_iterative :
  forall (W : Type) (write : string -> comp W bool) (now : comp W Z) (fmt : formatter f32)
    (np32 : nan_policy 24 128) (np64 : nan_policy 53 1024) (LM : Libm f32) stop fuel r (w : W),
    velocities_seen (slow 3 (700 + / 1000))
      (snd (pso_main_iterative np32 (@particleswarm_schwefel_iterative W write now fmt np32 np64 LM) stop fuel r w)).
Proof. exact @limited_iterative. Qed.
Print Assumptions C102_programs_iterative.
Theorem C102_programs_statistics :
  forall (np32 : nan_policy 24 128) (np64 : nan_policy 53 1024) (dbg : bool)
    (loggers : list (logger (world run_data) (list f32))) (goal : list f32 -> comp (world run_data) f64) fuel r w,
    velocities_seen (slow 3 (700 + / 1000)) (snd (pso_main np32 (create_particleswarm_schwefel np32 np64 loggers goal) fuel r w)) /\
    velocities_seen (slow 3 (2 + / 500000)) (snd (pso_main np32 (create_particleswarm_rosenbrock np32 np64 dbg loggers goal) fuel r w)) /\
    velocities_seen (slow 3 (700 + / 1000)) (snd (pso_main np32 (create_particleswarm_schwefel_full np32 np64 dbg loggers goal) fuel r w)) /\
    velocities_seen (slow 3 (700 + / 1000)) (snd (pso_main np32 (create_particleswarm_schwefel_inertia np32 np64 dbg loggers goal) fuel r w)) /\
    velocities_seen (slow 3 (700 + / 1000)) (snd (pso_main np32 (create_particleswarm_rastrigin_inertia np32 np64 dbg loggers goal) fuel r w)).
Proof. exact limited_statistics. Qed.
Print Assumptions C102_programs_statistics.
(** The programs without a limit. *)
Theorem C102_programs_unlimited :
  forall (W : Type) (write : string -> comp W bool) (now : comp W Z) (fmt : formatter f32)
    (np32 : nan_policy 24 128) (np64 : nan_policy 53 1024) (LM : Libm f32) (dbg : bool) fuel r (w : W),
    velocities_seen (bounded 3 8) (snd (pso_main np32 (@particleswarm_rastrigin W write now fmt np32 np64 LM dbg) fuel r w)) /\
    velocities_seen (bounded 3 3) (snd (pso_main np32 (@particleswarm_rosenbrock W write now fmt np32 np64 dbg) fuel r w)) /\
    velocities_seen (bounded 5 128) (snd (pso_main np32 (@test_particleswarm_paraboloid W np32 np64 dbg) fuel r w)).
Proof. exact @unlimited_programs. Qed.
Print Assumptions C102_programs_unlimited.

(** ** A swarm that meets the hypotheses: two particles, limit 1; the second particle is held
    at length 1, the first particle stays *)
Definition pace_box : list (f64 * f64) := [(minus_two64, ten64); (one64, four64)].
Definition pace_swarm : pso_config rng f64 :=
  PsoConfig (goal_from_function (fun x => nth 0 x ten64)) (max_iterations 2)
    (cret [[minus_two64; four64]; [ten64; one64]]) (cret (@zero_velocities f64 (FloatIEEE np64_default) 2 2))
    (fun s p => zoom lens_id (@classic_velocity f64 (FloatIEEE np64_default) np32_default two64 two64 s p))
    [fun v => cret (@max_velocity_abs f64 (FloatIEEE np64_default) one64 v)]
    [fun x => cpure (@move_to_boundary f64 (FloatIEEE np64_default) pace_box x)] [].
Definition last_velocities (t : list (pso_event f64)) : list (list f64) :=
  last (map (fun e => match shows e with Some s => map velocity (particles s) | None => [] end) t) [].
Example C102_nonvacuous :
  limited np64_default pace_swarm 2 (bpow radix2 4) (bpow radix2 8) one64 pace_box /\
  (forall u vs u1, pso_velocities pace_swarm u = (Ret vs, u1) ->
     Forall (slow 2 (rounded_limit (prec := 53) (emax := 1024) 2 (Binary.B2R 53 1024 one64))) vs) /\
  map (map to_bits64) (last_velocities (snd (@pso_find_min rng f64 (FloatIEEE np64_default) pace_swarm 5 swarm_new
    (fun _ => to_bits32 (b_of_Z 1))))) = [[0; 0]; [13830285523204353821; 4597906287094837021]]%Z.
Proof.
  destruct (of_Z_exact (prec := 53) (emax := 1024) 1) as [F1 E1]; [lia|].
  assert (E : Binary.B2R 53 1024 one64 = 1) by exact E1.
  split; [|split; [|vm_compute; reflexivity]].
  - split; [reflexivity|]. split; [reflexivity|]. split; [reflexivity|]. split.
    + destruct (of_Z_exact (prec := 53) (emax := 1024) (-2)) as [F2 E2]; [lia|].
      destruct (of_Z_exact (prec := 53) (emax := 1024) 10) as [F10 E10]; [lia|].
      destruct (of_Z_exact (prec := 53) (emax := 1024) 4) as [F4 E4]; [lia|].
      change (bpow radix2 4) with 16.
      assert (G2 : Binary.B2R 53 1024 minus_two64 = -2) by exact E2.
      assert (G10 : Binary.B2R 53 1024 ten64 = 10) by exact E10.
      assert (G4 : Binary.B2R 53 1024 four64 = 4) by exact E4.
      repeat constructor; cbn [fst snd]; rewrite ?E, ?G2, ?G10, ?G4; try lra; reflexivity.
    + split; [|split; [reflexivity|exists []; reflexivity]]. rewrite E.
      apply (C102_classic 53 1024 _ _ np64_default np32_default rng lens_id 2 4 1 1); [lia|lia| | | |lia].
      * apply limit_one64.
      * destruct (of_Z_exact (prec := 53) (emax := 1024) 2) as [F2 E2]; [lia|].
        split; [reflexivity|]. rewrite Rabs_pos_eq; [right; exact E2|]. replace (Binary.B2R 53 1024 two64) with 2 by (symmetry; exact E2). lra.
      * destruct (of_Z_exact (prec := 53) (emax := 1024) 2) as [F2 E2]; [lia|].
        split; [reflexivity|]. rewrite Rabs_pos_eq; [right; exact E2|]. replace (Binary.B2R 53 1024 two64) with 2 by (symmetry; exact E2). lra.
  - intros u vs u1 H. injection H as <- _. rewrite E.
    pose proof (zeros_slow 2 _ (rounded_nonneg (prec := 53) (emax := 1024) 2 1 Rle_0_1)) as Z.
    apply Forall_cons; [exact Z|]. apply Forall_cons; [exact Z|apply Forall_nil].
Qed.
