(** * Property C94: every outcome that the random components allow is possible *)

From Coq Require Import List Arith ZArith Bool Lia.
From Flocq Require Import Core.FLX IEEE754.BinarySingleNaN.
From Verif Require Import Base Logic FloatModel Rng GaModel GaComponents PsoModel PsoComponents StopModel
  SpecGa SpecPso SpecBits SpecBox SpecVel SpecStandard SpecPossible CrossFacts PossibleFacts PossibleRuns DemoFloats DemoPso DemoLibm.
Import ListNotations.

(** ** Creation: every population (every list of start vectors) inside the intervals *)
Theorem C94_random_creator_f64 :
  forall np size box c vs, @random_creator_new f64 NumGene64 size box = Ret c ->
    good_intervals64 np box -> length vs = size -> Forall (in_box box) vs ->
    possible (@random_create f64 NumGene64 np c) vs.
Proof. exact creator64_possible. Qed.
Print Assumptions C94_random_creator_f64.
Theorem C94_random_creator_f32 :
  forall np64 np32 size box c vs, @random_creator_new f32 (NumGene32 np64 np32) size box = Ret c ->
    good_intervals32 box -> length vs = size -> Forall (in_box box) vs ->
    possible (@random_create f32 (NumGene32 np64 np32) np64 c) vs.
Proof. exact creator32_possible. Qed.
Print Assumptions C94_random_creator_f32.
Theorem C94_random_creator_int :
  forall np mn mx size box c vs, @random_creator_new Z (NumGeneInt mn mx) size box = Ret c ->
    (forall lo hi, In (lo, hi) box -> (mn <= lo /\ hi <= mx /\ Z.abs lo <= 2 ^ 53 /\ Z.abs hi <= 2 ^ 53)%Z) ->
    length vs = size -> Forall (fun x => Forall2 (fun g i => (fst i <= g <= snd i)%Z) x box) vs ->
    possible (@random_create Z (NumGeneInt mn mx) np c) vs.
Proof. exact creator_int_possible. Qed.
Print Assumptions C94_random_creator_int.
Theorem C94_random_initializer_f64 :
  forall np box n vs, good_intervals64 np box -> length vs = n -> Forall (in_box box) vs ->
    possible (@random_vectors f64 NumGene64 np box n) vs.
Proof. exact vectors64_possible. Qed.
Print Assumptions C94_random_initializer_f64.
Theorem C94_random_initializer_f32 :
  forall np64 np32 box n vs, good_intervals32 box -> length vs = n -> Forall (in_box box) vs ->
    possible (@random_vectors f32 (NumGene32 np64 np32) np64 box n) vs.
Proof. exact vectors32_possible. Qed.
Print Assumptions C94_random_initializer_f32.
(** Two vectors of the box [-2, 10] x [1, 4]: a corner and a point on an edge. *)
Example C94_creation_nonvacuous :
  good_intervals64 np64_default swarm_box /\
  Forall (in_box swarm_box) [[minus_two64; four64]; [three64; one64]] /\
  (exists c, @random_creator_new f64 NumGene64 2 swarm_box = Ret c) /\
  good_intervals32 [(one32, three32)] /\ Forall (in_box [(one32, three32)]) [[two32]; [three32]] /\
  (exists c, @random_creator_new Z (NumGeneInt 0 255) 2 [(0, 255)]%Z = Ret c).
Proof.
  split; [intros lo hi [E|[E|[]]]; injection E as <- <-; split; reflexivity|].
  split; [repeat constructor|]. split; [eexists; reflexivity|].
  split; [intros lo hi [E|[]]; injection E as <- <-; repeat split; reflexivity|].
  split; [repeat constructor|eexists; reflexivity].
Qed.

(** ** Pairing: any individuals, good or bad, any number of times *)
Theorem C94_random_pairing :
  forall (T : Type) (p : population T) pairs,
    0 < length (individuals p) -> length pairs = length (individuals p) / 2 ->
    Forall (fun f => length f = 2 /\ Forall (fun i => i < length (individuals p)) f) pairs ->
    possible (random_pairing p) pairs.
Proof. exact @pairing_possible. Qed.
Print Assumptions C94_random_pairing.
(** However many rounds a tournament has, even the worst individual may win it (against itself). *)
Theorem C94_tournament :
  forall (T : Type) (t : tournament) (p : population T) fams,
    0 < length (individuals p) -> length fams = families_count t ->
    Forall (fun f => length f = partners_count t /\ Forall (fun i => i < length (individuals p)) f) fams ->
    possible (tournament_pairs t p) fams.
Proof. exact @tournament_possible. Qed.
Print Assumptions C94_tournament.
Example C94_pairing_nonvacuous :
  let p := Population [Individual 5%Z one64 true; Individual 6%Z ten64 true] None None 3 in
  possible (tournament_pairs (set_rounds_count (tournament_new 1) 4) p) [[1; 1]] /\
  possible (random_pairing p) [[1; 0]].
Proof.
  split.
  - apply C94_tournament; [simpl; lia|reflexivity|]. repeat constructor.
  - apply C94_random_pairing; [simpl; lia|reflexivity|]. repeat constructor.
Qed.

(** ** Crossing: every position *)
Theorem C94_cross_bitwise_f64 :
  forall dbg p1 p2 pos, 0 < pos < 64 -> exists c,
    possible (cross_bitwise64 dbg [p1; p2]) [c] /\
    crossed 64 (to_bits64 p1) (to_bits64 p2) (Z.of_nat pos) (to_bits64 c).
Proof. exact cross_bitwise64_possible. Qed.
Print Assumptions C94_cross_bitwise_f64.
Theorem C94_cross_bitwise_f32 :
  forall dbg p1 p2 pos, 0 < pos < 32 -> exists c,
    possible (cross_bitwise32 dbg [p1; p2]) [c] /\
    crossed 32 (to_bits32 p1) (to_bits32 p2) (Z.of_nat pos) (to_bits32 c).
Proof. exact cross_bitwise32_possible. Qed.
Print Assumptions C94_cross_bitwise_f32.
Theorem C94_cross_exp_f64 :
  forall (LM : Libm f64) (np : nan_policy 53 1024) dbg (x y : f64) mpos epos (first : bool),
    0 < mpos < 64 -> 0 < epos < 16 ->
    exists m1 e1 s1 m2 e2 s2 m e s,
      decoded 53 1024 x (m1, e1, s1) /\ decoded 53 1024 y (m2, e2, s2) /\
      crossed 64 m1 m2 (Z.of_nat mpos) m /\ unsigned 64 m /\
      crossed 16 e1 e2 (Z.of_nat epos) e /\ signed 16 e /\
      s = (if first then s1 else s2) /\
      possible (@float_cross_exp f64 (FloatIEEE np) LM _ dbg [x; y])
        [b_mul np (b_mul np (b_of_Z s) (b_of_Z m)) (fexp2 (b_of_Z e))].
Proof.
  intros LM np. exact (cross_exp_possible np decoded64 ltac:(lia) ltac:(vm_compute; discriminate)).
Qed.
Print Assumptions C94_cross_exp_f64.
Theorem C94_cross_exp_f32 :
  forall (LM : Libm f32) (np : nan_policy 24 128) dbg (x y : f32) mpos epos (first : bool),
    0 < mpos < 64 -> 0 < epos < 16 ->
    exists m1 e1 s1 m2 e2 s2 m e s,
      decoded 24 128 x (m1, e1, s1) /\ decoded 24 128 y (m2, e2, s2) /\
      crossed 64 m1 m2 (Z.of_nat mpos) m /\ unsigned 64 m /\
      crossed 16 e1 e2 (Z.of_nat epos) e /\ signed 16 e /\
      s = (if first then s1 else s2) /\
      possible (@float_cross_exp f32 (FloatIEEE np) LM _ dbg [x; y])
        [b_mul np (b_mul np (b_of_Z s) (b_of_Z m)) (fexp2 (b_of_Z e))].
Proof.
  intros LM np. exact (cross_exp_possible np decoded32 ltac:(lia) ltac:(vm_compute; discriminate)).
Qed.
Print Assumptions C94_cross_exp_f32.
(** The genes of a vector are crossed independently of each other. *)
Theorem C94_vec_cross :
  forall (G : Type) (single : list G -> comp rng (list G)) p1 p2 kids,
    length p1 <= length p2 ->
    Forall2 (fun gg k => possible (single [fst gg; snd gg]) k) (combine p1 p2) kids ->
    possible (vec_cross_all_genes single [p1; p2]) [concat kids].
Proof. exact @vec_cross_possible. Qed.
Print Assumptions C94_vec_cross.
(** Two genes that are crossed at two different positions. *)
Example C94_cross_nonvacuous :
  exists c1 c2, possible (vec_cross_all_genes (cross_bitwise64 true) [[one64; one64]; [two64; two64]]) [[c1; c2]] /\
    crossed 64 (to_bits64 one64) (to_bits64 two64) 61 (to_bits64 c1) /\
    crossed 64 (to_bits64 one64) (to_bits64 two64) 5 (to_bits64 c2).
Proof.
  destruct (C94_cross_bitwise_f64 true one64 two64 61 ltac:(lia)) as [c1 [P1 X1]].
  destruct (C94_cross_bitwise_f64 true one64 two64 5 ltac:(lia)) as [c2 [P2 X2]].
  exists c1, c2. split; [|split; assumption].
  apply (C94_vec_cross f64 (cross_bitwise64 true) [one64; one64] [two64; two64] [[c1]; [c2]]); [simpl; lia|].
  repeat constructor; assumption.
Qed.

(** ** Mutation: any bits, any genes *)
Theorem C94_bitwise_mutation_f64 :
  forall positions x, Forall (fun k => k < 64) positions -> exists y,
    possible (bitwise_mutation64 (length positions) x) y /\
    forall i, i < 64 -> Z.testbit (to_bits64 y) (Z.of_nat i) =
      xorb (Z.testbit (to_bits64 x) (Z.of_nat i)) (Nat.odd (count_occ Nat.eq_dec positions i)).
Proof. exact mutation64_possible. Qed.
Print Assumptions C94_bitwise_mutation_f64.
Theorem C94_bitwise_mutation_f32 :
  forall positions x, Forall (fun k => k < 32) positions -> exists y,
    possible (bitwise_mutation32 (length positions) x) y /\
    forall i, i < 32 -> Z.testbit (to_bits32 y) (Z.of_nat i) =
      xorb (Z.testbit (to_bits32 x) (Z.of_nat i)) (Nat.odd (count_occ Nat.eq_dec positions i)).
Proof. exact mutation32_possible. Qed.
Print Assumptions C94_bitwise_mutation_f32.
Theorem C94_vec_mutation :
  forall (G : Type) np probability (single : G -> comp rng G) l l',
    ltb (b_of_Z 0) probability = true -> ltb probability (b_of_Z 100) = true ->
    Forall2 (fun g g' => g' = g \/ possible (single g) g') l l' ->
    possible (vec_mutation np lens_id probability single l) l'.
Proof. exact @vec_mutation_possible. Qed.
Print Assumptions C94_vec_mutation.
(** Of three genes the first and the last change, at a probability of ten percent. *)
Example C94_mutation_nonvacuous :
  exists y, possible (vec_mutation np64_default lens_id ten64 (bitwise_mutation64 1) [one64; two64; one64]) [y; two64; y] /\
    Z.testbit (to_bits64 y) 63 = true /\ Z.testbit (to_bits64 one64) 63 = false.
Proof.
  destruct (C94_bitwise_mutation_f64 [63] one64) as [y [P B]]; [repeat constructor; lia|].
  exists y. split; [|split; [exact (B 63 ltac:(lia))|reflexivity]].
  apply C94_vec_mutation; [reflexivity|reflexivity|].
  constructor; [right; exact P|constructor; [left; reflexivity|constructor; [right; exact P|constructor]]].
Qed.

(** ** RandomTeleport: to every point, and not at all *)
Theorem C94_teleport_f64 :
  forall np64 np32 intervals p rt (x y : list f64),
    @random_teleport_new f64 (FloatIEEE np64) intervals p = Ret rt -> length x = length intervals ->
    (ltb (b_of_Z 0) p = true ->
     Forall2 (fun g i => leb (fst i) g = true /\ leb g (snd i) = true) y intervals ->
     possible (@random_teleport_post_move f64 (FloatIEEE np64) _ np32 rt x) y) /\
    (ltb p (b_of_Z 1) = true -> possible (@random_teleport_post_move f64 (FloatIEEE np64) _ np32 rt x) x).
Proof. intros np64 np32. exact (@teleport_possible f64 (FloatIEEE np64) _ _ np32). Qed.
Print Assumptions C94_teleport_f64.
Theorem C94_teleport_f32 :
  forall np np32 intervals p rt (x y : list f32),
    @random_teleport_new f32 (FloatIEEE np) intervals p = Ret rt -> length x = length intervals ->
    (ltb (b_of_Z 0) p = true ->
     Forall2 (fun g i => leb (fst i) g = true /\ leb g (snd i) = true) y intervals ->
     possible (@random_teleport_post_move f32 (FloatIEEE np) _ np32 rt x) y) /\
    (ltb p (b_of_Z 1) = true -> possible (@random_teleport_post_move f32 (FloatIEEE np) _ np32 rt x) x).
Proof. intros np np32. exact (@teleport_possible f32 (FloatIEEE np) _ _ np32). Qed.
Print Assumptions C94_teleport_f32.
(** With probability 2^-149, the least positive number, any point can be reached. *)
Definition rare : f32 := from_bits32 1.
Example C94_teleport_nonvacuous :
  exists rt, @random_teleport_new f64 (FloatIEEE np64_default) swarm_box rare = Ret rt /\
    possible (@random_teleport_post_move f64 (FloatIEEE np64_default) _ np32_default rt [one64; two64]) [ten64; four64] /\
    possible (@random_teleport_post_move f64 (FloatIEEE np64_default) _ np32_default rt [one64; two64]) [one64; two64].
Proof.
  assert (E : exists rt, @random_teleport_new f64 (FloatIEEE np64_default) swarm_box rare = Ret rt) by (eexists; reflexivity).
  destruct E as [rt E]. exists rt. split; [exact E|].
  destruct (C94_teleport_f64 np64_default np32_default swarm_box rare rt [one64; two64] [ten64; four64] E eq_refl) as [H1 H2].
  split; [apply H1; [reflexivity|repeat constructor]|apply H2; reflexivity].
Qed.

(** ** Velocities: every choice of the random factors between 0 and 1 *)
Theorem C94_classic_velocity :
  forall (T : Type) (FT : FloatTrait T) np32 (phi_p phi_g : T) s p b (rs : nat -> f32), best_particle s = Some b ->
    covers p (velocity p) -> covers p (best_personal_coordinates p) -> covers p (coordinates b) ->
    (forall k, unit_number (rs k)) ->
    exists y, possible (classic_velocity np32 phi_p phi_g s p) y /\ length y = length (coordinates p) /\
      forall k v b' x g, nth_error (velocity p) k = Some v -> nth_error (best_personal_coordinates p) k = Some b' ->
        nth_error (coordinates p) k = Some x -> nth_error (coordinates b) k = Some g ->
        nth_error y k = Some (fadd (fadd v (fmul (fmul phi_p (fof_f32 (rs (2 * k)))) (fsub b' x)))
                                   (fmul (fmul phi_g (fof_f32 (rs (2 * k + 1)))) (fsub g x))).
Proof. exact @classic_possible. Qed.
Print Assumptions C94_classic_velocity.
Theorem C94_canonical_velocity :
  forall (T : Type) (FT : FloatTrait T) np32 (phi_p phi_g xi : T) s p b (rs : nat -> f32), best_particle s = Some b ->
    covers p (velocity p) -> covers p (best_personal_coordinates p) -> covers p (coordinates b) ->
    (forall k, unit_number (rs k)) ->
    exists y, possible (canonical_velocity np32 phi_p phi_g xi s p) y /\ length y = length (coordinates p) /\
      forall k v b' x g, nth_error (velocity p) k = Some v -> nth_error (best_personal_coordinates p) k = Some b' ->
        nth_error (coordinates p) k = Some x -> nth_error (coordinates b) k = Some g ->
        nth_error y k = Some (fmul xi (fadd (fadd v (fmul (fmul phi_p (fof_f32 (rs (2 * k)))) (fsub b' x)))
                                            (fmul (fmul phi_g (fof_f32 (rs (2 * k + 1)))) (fsub g x)))).
Proof. exact @canonical_possible. Qed.
Print Assumptions C94_canonical_velocity.
Theorem C94_inertia_velocity :
  forall (T : Type) (FT : FloatTrait T) np32 (phi_p phi_g : T) (weight : nat -> T) s p b (rs : nat -> f32),
    best_particle s = Some b ->
    covers p (velocity p) -> covers p (best_personal_coordinates p) -> covers p (coordinates b) ->
    (forall k, unit_number (rs k)) ->
    exists y, possible (inertia_velocity np32 lens_id phi_p phi_g (fun t => cret (weight t)) s p) y /\
      length y = length (coordinates p) /\
      forall k v b' x g, nth_error (velocity p) k = Some v -> nth_error (best_personal_coordinates p) k = Some b' ->
        nth_error (coordinates p) k = Some x -> nth_error (coordinates b) k = Some g ->
        nth_error y k = Some (fadd (fadd (fmul (weight (sw_iteration s)) v) (fmul (fmul phi_p (fof_f32 (rs (2 * k)))) (fsub b' x)))
                                   (fmul (fmul phi_g (fof_f32 (rs (2 * k + 1)))) (fsub g x))).
Proof. exact @inertia_possible. Qed.
Print Assumptions C94_inertia_velocity.
(** All factors 1, the greatest that can be drawn. *)
Example C94_velocity_nonvacuous :
  unit_number one32 /\
  let p := Particle [one64] [two64] one64 [three64] one64 [ten64] ten64 in
  let s := Swarm [p] (Some p) (Some p) 7 in
  covers p (velocity p) /\ covers p (best_personal_coordinates p) /\ covers p (coordinates p) /\ best_particle s = Some p.
Proof. repeat split; try reflexivity; unfold covers; simpl; lia. Qed.

(** ** Runs: whatever point [x] of the box is best, some draws lead to a result that is at
    least as good - the swarm may start there *)
Theorem C94_swarm_can_find_f64 :
  forall (U : Type) (L : lens U rng) np64 box n goal stop vels calc post_velocity loggers (x : list f64) f,
    good_intervals64 np64 box -> 0 < n -> in_box box x ->
    (forall u, exists u', goal x u = (Ret f, u')) -> is_finite f = true ->
    exists zs, forall rest u fuel s y v s' u' t,
      lget L u = prepend zs rest ->
      @pso_find_min U f64 (FloatIEEE np64)
        (PsoConfig goal stop (zoom L (@random_vectors f64 NumGene64 np64 box n)) vels calc post_velocity
           [fun x => cpure (@move_to_boundary f64 (FloatIEEE np64) box x)] loggers) fuel s u
      = (Ret (Some (y, v), s'), u', t) ->
      is_finite v = true /\ leb v f = true.
Proof. exact @can_find64. Qed.
Print Assumptions C94_swarm_can_find_f64.
Theorem C94_swarm_can_find_f32 :
  forall (U : Type) (L : lens U rng) np64 np32 box n goal stop vels calc post_velocity loggers (x : list f32) f,
    good_intervals32 box -> 0 < n -> in_box box x ->
    (forall u, exists u', goal x u = (Ret f, u')) -> is_finite f = true ->
    exists zs, forall rest u fuel s y v s' u' t,
      lget L u = prepend zs rest ->
      @pso_find_min U f32 (FloatIEEE np32)
        (PsoConfig goal stop (zoom L (@random_vectors f32 (NumGene32 np64 np32) np64 box n)) vels calc post_velocity
           [fun x => cpure (@move_to_boundary f32 (FloatIEEE np32) box x)] loggers) fuel s u
      = (Ret (Some (y, v), s'), u', t) ->
      is_finite v = true /\ leb v f = true.
Proof. exact @can_find32. Qed.
Print Assumptions C94_swarm_can_find_f32.
(** The goal of the demonstration swarm at the corner (-2, 1); a run that returns something. *)
Definition finder : pso_config rng f64 :=
  PsoConfig (goal_from_function swarm_goal) (max_iterations 3)
    (zoom lens_id (@random_vectors f64 NumGene64 np64_default swarm_box 2))
    (zoom lens_id (@random_vectors f64 NumGene64 np64_default swarm_box 2))
    (fun s p => zoom lens_id (@classic_velocity f64 (FloatIEEE np64_default) np32_default one64 two64 s p))
    [] [fun x => cpure (@move_to_boundary f64 (FloatIEEE np64_default) swarm_box x)] [].
Example C94_swarm_nonvacuous :
  in_box swarm_box [minus_two64; one64] /\ is_finite (swarm_goal [minus_two64; one64]) = true /\
  (forall u : rng, exists u', pso_goal finder [minus_two64; one64] u = (Ret (swarm_goal [minus_two64; one64]), u')) /\
  exists y, fst (fst (@pso_find_min rng f64 (FloatIEEE np64_default) finder 10 swarm_new
    (prepend (map to_bits64 [three64; one64; minus_two64; one64]) counter))) = Ret y /\
    option_map snd (bits (fst y)) = Some (to_bits64 (swarm_goal [minus_two64; one64])).
Proof.
  split; [repeat constructor|]. split; [reflexivity|]. split; [intros u; exists u; reflexivity|].
  apply show_ret. vm_compute. reflexivity.
Qed.
