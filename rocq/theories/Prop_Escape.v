(** * C99: a swarm with RandomTeleport can leave every state; more of C94 *)

From Coq Require Import List Arith ZArith Bool Lia.
From Flocq Require Import Core.FLX IEEE754.BinarySingleNaN.
From Verif Require Import Base Logic FloatModel Rng GaModel GaComponents PsoModel PsoComponents StopModel
  SpecGa SpecPso SpecRun SpecBits SpecBox SpecVel SpecStandard SpecPossible SpecStill
  EscapeFacts DemoGa DemoFloats DemoPso Prop_Ga Prop_Possible.
Import ListNotations.

(** ** From any state that a swarm can be in, if the optimizer makes one more iteration *)
Theorem C99_swarm_escapes_f64 :
  forall np64 np32 (U : Type) (L : lens U rng) ok (s : swarm f64) h, @pso_reach U f64 (FloatIEEE np64) ok s h ->
  forall p rest (calc : swarm f64 -> particle f64 -> comp rng (list f64)) v0
    limits box probability rt goal stop coords vels loggers x f,
    lens_ok L -> particles s = p :: rest -> length (coordinates p) = length box ->
    possible (calc s p) v0 -> length v0 = length box ->
    Forall (fun f => forall v, length v = length box -> exists w, f v = Ret w /\ length w = length box) limits ->
    @random_teleport_new f64 (FloatIEEE np64) box probability = Ret rt -> ltb (b_of_Z 0) probability = true ->
    in_box box x ->
    (forall u, exists u', goal x u = (Ret f, u')) -> is_finite f = true ->
    (forall s, keeps (lget L) (stop s)) -> (forall l k s, In l loggers -> keeps (lget L) (told_by k l s)) ->
    exists zs, forall later u fuel y v s' u' t,
      lget L u = prepend zs later ->
      @pso_next_iterations U f64 (FloatIEEE np64)
        (PsoConfig goal stop coords vels (fun s p => zoom L (calc s p)) (map (fun f v => cpure (f v)) limits)
           [fun x => zoom L (@random_teleport_post_move f64 (FloatIEEE np64) _ np32 rt x);
            fun x => cpure (@move_to_boundary f64 (FloatIEEE np64) box x)] loggers) fuel s u
      = (Ret (Some (y, v), s'), u', t) ->
      sw_iteration s < sw_iteration s' ->
      evaluated t x f /\ is_finite v = true /\ leb v f = true.
Proof. intros np64 np32 U L ok s h. exact (@swarm_escapes 53 1024 _ _ np64 _ _ np32 U L ok s h). Qed.
Print Assumptions C99_swarm_escapes_f64.
Theorem C99_swarm_escapes_f32 :
  forall np np32 (U : Type) (L : lens U rng) ok (s : swarm f32) h, @pso_reach U f32 (FloatIEEE np) ok s h ->
  forall p rest (calc : swarm f32 -> particle f32 -> comp rng (list f32)) v0
    limits box probability rt goal stop coords vels loggers x f,
    lens_ok L -> particles s = p :: rest -> length (coordinates p) = length box ->
    possible (calc s p) v0 -> length v0 = length box ->
    Forall (fun f => forall v, length v = length box -> exists w, f v = Ret w /\ length w = length box) limits ->
    @random_teleport_new f32 (FloatIEEE np) box probability = Ret rt -> ltb (b_of_Z 0) probability = true ->
    in_box box x ->
    (forall u, exists u', goal x u = (Ret f, u')) -> is_finite f = true ->
    (forall s, keeps (lget L) (stop s)) -> (forall l k s, In l loggers -> keeps (lget L) (told_by k l s)) ->
    exists zs, forall later u fuel y v s' u' t,
      lget L u = prepend zs later ->
      @pso_next_iterations U f32 (FloatIEEE np)
        (PsoConfig goal stop coords vels (fun s p => zoom L (calc s p)) (map (fun f v => cpure (f v)) limits)
           [fun x => zoom L (@random_teleport_post_move f32 (FloatIEEE np) _ np32 rt x);
            fun x => cpure (@move_to_boundary f32 (FloatIEEE np) box x)] loggers) fuel s u
      = (Ret (Some (y, v), s'), u', t) ->
      sw_iteration s < sw_iteration s' ->
      evaluated t x f /\ is_finite v = true /\ leb v f = true.
Proof. intros np np32 U L ok s h. exact (@swarm_escapes 24 128 _ _ np _ _ np32 U L ok s h). Qed.
Print Assumptions C99_swarm_escapes_f32.
(** A swarm of one particle, which C98 keeps at (3, 1) until it is given a teleport; then five
    draws (four factors and the decision) and a point bring it to (-2, 1). *)
Definition lone : pso_config rng f64 :=
  PsoConfig (goal_from_function swarm_goal) (max_iterations 3) (cret [[three64; one64]]) (cret (zero_velocities 2 1))
    (fun s p => zoom lens_id (@classic_velocity f64 (FloatIEEE np64_default) np32_default one64 two64 s p))
    [fun v => cpure (@max_velocity_dimensions f64 (FloatIEEE np64_default) [four64; one64] v)]
    [fun x => cpure (@move_to_boundary f64 (FloatIEEE np64_default) swarm_box x)] [].
Definition lone_run := @pso_find_min rng f64 (FloatIEEE np64_default) lone 10 (Swarm [] None None 0) counter.
Lemma lone_run_eq : lone_run = @pso_find_min rng f64 (FloatIEEE np64_default) lone 10 (Swarm [] None None 0) counter.
Proof. reflexivity. Qed.
Definition lone_swarm : swarm f64 := match fst (fst lone_run) with Ret (_, s) => s | _ => swarm_new end.
Definition lone_teleport : @random_teleport f64 := RandomTeleport swarm_box rare swarm_box.
Definition freed : pso_config rng f64 :=
  PsoConfig (goal_from_function swarm_goal) (max_iterations 4) (cret []) (cret [])
    (fun s p => zoom lens_id (@classic_velocity f64 (FloatIEEE np64_default) np32_default one64 two64 s p))
    (map (fun f v => cpure (f v)) [@max_velocity_dimensions f64 (FloatIEEE np64_default) [four64; one64]])
    [fun x => zoom lens_id (@random_teleport_post_move f64 (FloatIEEE np64_default) _ np32_default lone_teleport x);
     fun x => cpure (@move_to_boundary f64 (FloatIEEE np64_default) swarm_box x)] [].
Definition draws : list Z := [0; 0; 0; 0; 0; to_bits64 minus_two64; to_bits64 one64]%Z.
Example C99_nonvacuous :
  (exists h, @pso_reach rng f64 (FloatIEEE np64_default) (fun c => c = lone) lone_swarm h) /\
  (exists p v0, particles lone_swarm = [p] /\ length (coordinates p) = 2 /\ length v0 = 2 /\
     possible (@classic_velocity f64 (FloatIEEE np64_default) np32_default one64 two64 lone_swarm p) v0) /\
  Forall (fun f : list f64 -> outcome (list f64) => forall v, length v = 2 -> exists w, f v = Ret w /\ length w = 2)
    [@max_velocity_dimensions f64 (FloatIEEE np64_default) [four64; one64]] /\
  @random_teleport_new f64 (FloatIEEE np64_default) swarm_box rare = Ret lone_teleport /\
  ltb (b_of_Z 0) rare = true /\ in_box swarm_box [minus_two64; one64] /\
  (forall s, keeps (lget lens_id) (pso_stop freed s)) /\
  exists r, fst (fst (@pso_next_iterations rng f64 (FloatIEEE np64_default) freed 10 lone_swarm (prepend draws counter))) = Ret r /\
    (bits (fst r), sw_iteration lone_swarm, sw_iteration (snd r))
    = (Some (map to_bits64 [minus_two64; one64], to_bits64 (swarm_goal [minus_two64; one64])), 3, 4).
Proof.
  split; [|split].
  - assert (R : returned (fst (fst lone_run)) = true) by (vm_compute; reflexivity).
    exists (snd lone_run).
    apply (@pso_reach_find rng f64 (FloatIEEE np64_default) (fun c => c = lone) lone 10 counter (Swarm [] None None 0) []
      (match fst (fst lone_run) with Ret r => fst r | _ => None end) lone_swarm (snd (fst lone_run)) (snd lone_run)).
    + reflexivity.
    + constructor.
    + rewrite <- lone_run_eq. unfold lone_swarm. destruct lone_run as [[[[r s]| |] u] t]; try discriminate R. reflexivity.
  - assert (A : match particles lone_swarm with
                | [p] => match best_particle lone_swarm with
                         | Some b => forallb (Nat.eqb 2) [length (coordinates p); length (velocity p);
                                       length (best_personal_coordinates p); length (coordinates b)]
                         | None => false end
                | _ => false end = true) by (vm_compute; reflexivity).
    destruct (particles lone_swarm) as [|p [|? ?]]; [discriminate A| |discriminate A].
    destruct (best_particle lone_swarm) as [b|] eqn:B; [|discriminate A].
    cbn [forallb] in A. rewrite !Bool.andb_true_iff, !Nat.eqb_eq in A. destruct A as [A1 [A2 [A3 [A4 _]]]].
    destruct (C94_classic_velocity f64 (FloatIEEE np64_default) np32_default one64 two64 lone_swarm p b (fun _ => one32)) as [y [Y1 [Y2 _]]];
      unfold covers; try lia; [exact B|intros _; split; reflexivity|].
    exists p, y. split; [reflexivity|]. split; [now rewrite A1|]. split; [now rewrite Y2, <- A1|exact Y1].
  - split; [constructor; [|constructor]; intros [|a [|b [|c v]]] L; try discriminate L; eexists; split; reflexivity|].
    split; [reflexivity|]. split; [reflexivity|]. split; [repeat constructor|].
    split; [intros s u; reflexivity|].
    apply (show_ret (fun r => (bits (fst r), sw_iteration lone_swarm, sw_iteration (snd r)))). vm_compute. reflexivity.
Qed.

(** ** C94: velocities of NegativeReinforcement and results of genetic runs *)
Theorem C94_negative_velocity :
  forall (T : Type) (FT : FloatTrait T) np64 (q : @negative_reinforcement T) s p bg wg bc wc (rs : nat -> f64),
    best_particle s = Some bg -> worst_particle s = Some wg ->
    first_least value (particles s) bc -> last_greatest value (particles s) wc ->
    covers p (velocity p) -> covers p (best_personal_coordinates p) -> covers p (worst_personal_coordinates p) ->
    covers p (coordinates bg) -> covers p (coordinates wg) -> covers p (coordinates bc) -> covers p (coordinates wc) ->
    (forall k, unit_number (rs k)) ->
    exists y, possible (negative_velocity np64 q s p) y /\ length y = length (coordinates p) /\
      forall i v x bpi bci bgi wpi wci wgi,
        nth_error (velocity p) i = Some v -> nth_error (coordinates p) i = Some x ->
        nth_error (best_personal_coordinates p) i = Some bpi -> nth_error (coordinates bc) i = Some bci ->
        nth_error (coordinates bg) i = Some bgi -> nth_error (worst_personal_coordinates p) i = Some wpi ->
        nth_error (coordinates wc) i = Some wci -> nth_error (coordinates wg) i = Some wgi ->
        let u := fun k => fof_f64 (rs k) in
        nth_error y i = Some
          (fmul (nr_xi q)
            (fsub (fsub (fsub
              (fadd (fadd (fadd v
                (fmul (fmul (nr_phi_best_personal q) (u (6 * i + 2))) (fsub bpi x)))
                (fmul (fmul (nr_phi_best_current q) (u (6 * i + 1))) (fsub bci x)))
                (fmul (fmul (nr_phi_best_global q) (u (6 * i))) (fsub bgi x)))
              (fmul (fmul (nr_phi_worst_personal q) (u (6 * i + 5))) (fsub wpi x)))
              (fmul (fmul (nr_phi_worst_current q) (u (6 * i + 4))) (fsub wci x)))
              (fmul (fmul (nr_phi_worst_global q) (u (6 * i + 3))) (fsub wgi x)))).
Proof. exact @negative_possible. Qed.
Print Assumptions C94_negative_velocity.
(** All factors 1, the greatest that can be drawn. *)
Example C94_negative_nonvacuous :
  unit_number one64 /\
  let p := Particle [one64] [two64] one64 [three64] one64 [ten64] ten64 in
  let s := Swarm [p] (Some p) (Some p) 7 in
  best_particle s = Some p /\ worst_particle s = Some p /\
  first_least value (particles s) p /\ last_greatest value (particles s) p /\
  covers p (velocity p) /\ covers p (best_personal_coordinates p) /\ covers p (worst_personal_coordinates p).
Proof.
  split; [split; reflexivity|]. cbv zeta. split; [reflexivity|]. split; [reflexivity|].
  split; [exists 0; split; [reflexivity|]; split; [intros b [<-|[]]; right; split; reflexivity|intros j b K; lia]|].
  split; [exists 0; split; [reflexivity|]; split; [intros b [<-|[]]; right; split; reflexivity|intros [|[|j]] b K; [lia|discriminate|discriminate]]|].
  unfold covers; simpl; lia.
Qed.

(** Runs of the genetic algorithm with selections that keep the best. *)
Theorem C94_genetic_can_find_f64 :
  forall (U : Type) (L : lens U rng) np size box c (cfg : ga_config U (list f64)) x f,
    @random_creator_new f64 NumGene64 size box = Ret c -> good_intervals64 np box -> 0 < size -> in_box box x ->
    ga_creator cfg = zoom L (@random_create f64 NumGene64 np c) ->
    Forall keeps_best (ga_selections cfg) ->
    (forall u, exists u', ga_goal cfg x u = (Ret f, u')) -> is_finite f = true ->
    exists zs, forall rest u fuel p y v p' u' t,
      lget L u = prepend zs rest ->
      ga_find_min cfg fuel p u = (Ret (Some (y, v), p'), u', t) -> evaluated t x f /\ leb v f = true.
Proof. exact @genetic_can_find64. Qed.
Print Assumptions C94_genetic_can_find_f64.
Theorem C94_genetic_can_find_f32 :
  forall (U : Type) (L : lens U rng) np64 np32 size box c (cfg : ga_config U (list f32)) x f,
    @random_creator_new f32 (NumGene32 np64 np32) size box = Ret c -> good_intervals32 box -> 0 < size -> in_box box x ->
    ga_creator cfg = zoom L (@random_create f32 (NumGene32 np64 np32) np64 c) ->
    Forall keeps_best (ga_selections cfg) ->
    (forall u, exists u', ga_goal cfg x u = (Ret f, u')) -> is_finite f = true ->
    exists zs, forall rest u fuel p y v p' u' t,
      lget L u = prepend zs rest ->
      ga_find_min cfg fuel p u = (Ret (Some (y, v), p'), u', t) -> evaluated t x f /\ leb v f = true.
Proof. exact @genetic_can_find32. Qed.
Print Assumptions C94_genetic_can_find_f32.
(** A genetic run that is given the corner (-2, 1) among its start points. *)
Definition corner_finder (c : random_creator) : ga_config rng (list f64) :=
  GaConfig (goal_from_function swarm_goal) (max_iterations 2) (zoom lens_id (@random_create f64 NumGene64 np64_default c))
    (fun p => cret [[0; 1]]) (fun parents => cret parents) (fun x => cret (rev x))
    [fun p => cret (kill_fitness_nan p)] [] [].
Example C94_genetic_nonvacuous :
  exists c, @random_creator_new f64 NumGene64 2 swarm_box = Ret c /\
    good_intervals64 np64_default swarm_box /\ in_box swarm_box [minus_two64; one64] /\
    Forall keeps_best (ga_selections (corner_finder c)) /\
    (forall u, exists u', ga_goal (corner_finder c) [minus_two64; one64] u = (Ret (swarm_goal [minus_two64; one64]), u')) /\
    exists r, fst (fst (ga_find_min (corner_finder c) 10 (Population [] None None 0)
      (prepend (map to_bits64 [three64; one64; minus_two64; one64]) counter))) = Ret r /\
      leb (match fst r with Some (_, v) => v | None => ten64 end) (swarm_goal [minus_two64; one64]) = true.
Proof.
  eexists. split; [reflexivity|].
  split; [intros lo hi [E|[E|[]]]; injection E as <- <-; split; reflexivity|].
  split; [repeat constructor|].
  split; [constructor; [|constructor]; apply C09_kill_fitness_nan_keeps_best|].
  split; [intros u; exists u; reflexivity|].
  apply (show_ret (fun r => leb (match fst r with Some (_, v) => v | None => ten64 end) (swarm_goal [minus_two64; one64]))).
  vm_compute. reflexivity.
Qed.
