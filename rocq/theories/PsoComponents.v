(** * The ready-made components of the particle swarm
    (optlib/src/particleswarm/{initializing,postmove,postvelocitycalc,velocitycalc}) *)

From Coq Require Import List Arith ZArith Bool.
From Verif Require Import Base FloatModel Rng GaModel GaComponents PsoModel.
Import ListNotations.

(** ** initializing/mod.rs *)

(** [RandomCoordinatesInitializer::get_coordinates] and
    [RandomVelocityInitializer::get_velocity] (initializing/mod.rs:30-36, 60-66):
    the same body. *)
Definition random_vectors {G} `{NumGene G} (np64 : nan_policy 53 1024)
  (intervals : list (G * G)) (particles_count : nat) : comp rng (list (list G)) :=
  creplicate particles_count (create_vec np64 intervals).

(** [ZeroVelocityInitializer::get_velocity] (initializing/mod.rs:80-86). *)
Definition zero_velocities {T} `{FloatTrait T} (dimension particles_count : nat) : list (list T) :=
  repeat (repeat fzero dimension) particles_count.

Section PostProcessing.
  Context {T : Type} {FT : FloatTrait T}.

  (** ** postmove/mod.rs *)

  (** The three tests on coordinate [i] (postmove/mod.rs:28-38). *)
  Definition clamp_coordinate (x : T) (interval : T * T) : T :=
    let x := if negb (ffinite x) then fst interval else x in
    let x := if flt x (fst interval) then fst interval else x in
    if flt (snd interval) x then snd interval else x.

  (** [MoveToBoundary::post_move] (postmove/mod.rs:23-41). *)
  Definition move_to_boundary (intervals : list (T * T)) (x : list T) : outcome (list T) :=
    let! _ := oassert (length x =? length intervals) in
    ofold (fun x i =>
             let! xi := index x i in
             let! it := index intervals i in
             update x i (clamp_coordinate xi it)) (seq 0 (length x)) x.

  (** [RandomTeleport] (postmove/mod.rs:44-71). *)
  Record random_teleport := RandomTeleport {
    rt_intervals : list (T * T);
    rt_probability : f32;
    rt_random_intervals : list (T * T)
  }.
  Definition random_teleport_new (intervals : list (T * T)) (probability : f32)
    : outcome random_teleport :=
    let! _ := oassert (leb (b_of_Z 0) probability) in
    let! _ := oassert (leb probability (b_of_Z 1)) in
    let! random_intervals := omap (fun mm => uniform_incl (fst mm) (snd mm)) intervals in
    Ret (RandomTeleport intervals probability random_intervals).

  (** [RandomTeleport::post_move] (postmove/mod.rs:73-85). *)
  Definition random_teleport_post_move {SA : Sampler T} (np32 : nan_policy 24 128)
    (r : random_teleport) (x : list T) : comp rng (list T) :=
    do _ <- cpure (oassert (length x =? length (rt_intervals r))) ;;
    do between <- cpure (uniform_excl (FT := FloatIEEE np32) (b_of_Z 0) (b_of_Z 1)) ;;
    do rnd <- sample_excl (FT := FloatIEEE np32) between ;;
    if ltb rnd (rt_probability r) then
      cfold (fun x i =>
               do d <- cpure (index (rt_random_intervals r) i) ;;
               do y <- sample_incl d ;;
               cpure (update x i y)) (seq 0 (length x)) x
    else cret x.

  (** ** postvelocitycalc/mod.rs *)

  (** [MaxVelocityDimensions::correct_velocity] (postvelocitycalc/mod.rs:16-34). *)
  Definition max_velocity_dimensions (max_velocity : list T) (v : list T) : outcome (list T) :=
    let! _ := oassert (length v =? length max_velocity) in
    Ret (map (fun vm => let '(v, v_max) := vm in
                        if fle (fabs v) v_max then v
                        else fmul (fabs v_max) (fsignum v)) (combine v max_velocity)).

  (** [MaxVelocityAbs::correct_velocity] (postvelocitycalc/mod.rs:47-63). *)
  Definition velocity_norm (v : list T) : T :=
    fsqrt (fold_left (fun acc vi => fadd acc (fmul vi vi)) v fzero).
  Definition max_velocity_abs (max_velocity : T) (v : list T) : list T :=
    let current := velocity_norm v in
    if flt max_velocity current
    then map (fun vi => fdiv (fmul vi max_velocity) current) v
    else v.

  (** ** velocitycalc/mod.rs *)
  Variable np32 : nan_policy 24 128.

  (** [T::from(Uniform::new_inclusive(0.0_f32, 1.0_f32).sample(rng)).unwrap()]
      (velocitycalc/mod.rs:41, 44-45; 102, 105-106; 321, 324-325). *)
  Definition unit_f32 : comp rng T :=
    do between <- cpure (uniform_incl (FT := FloatIEEE np32) (b_of_Z 0) (b_of_Z 1)) ;;
    do x <- sample_incl (FT := FloatIEEE np32) between ;;
    cret (fof_f32 x).

  (** phi * r * (a - x) *)
  Definition pull (phi r a x : T) : T := fmul (fmul phi r) (fsub a x).

  (** [ClassicVelocityCalculator::calc_new_velocity] (velocitycalc/mod.rs:36-56). *)
  Definition classic_velocity (phi_personal phi_global : T) (s : swarm T) (p : particle T)
    : comp rng (list T) :=
    do global_best <- cpure (unwrap (best_particle s)) ;;
    cmapM (fun i =>
             do r_personal <- unit_f32 ;;
             do r_global <- unit_f32 ;;
             cpure (let! v := index (velocity p) i in
                    let! b := index (best_personal_coordinates p) i in
                    let! x := index (coordinates p) i in
                    let! g := index (coordinates global_best) i in
                    Ret (fadd (fadd v (pull phi_personal r_personal b x))
                              (pull phi_global r_global g x))))
          (seq 0 (length (coordinates p))).

  (** [CanonicalVelocityCalculator] (velocitycalc/mod.rs:71-94): the constructor
      returns the constriction factor xi. *)
  Definition canonical_new (phi_personal phi_global alpha : T) : outcome T :=
    let! _ := oassert (flt (fof_f64 (b_of_Z 4)) (fadd phi_personal phi_global)) in
    let! _ := oassert (flt fzero alpha) in
    let! _ := oassert (flt alpha fone) in
    let phi := fadd phi_global phi_personal in
    Ret (fdiv (fmul (fof_f64 (b_of_Z 2)) alpha) (fsub phi (fof_f64 (b_of_Z 2)))).

  (** [CanonicalVelocityCalculator::calc_new_velocity] (velocitycalc/mod.rs:97-120). *)
  Definition canonical_velocity (phi_personal phi_global xi : T) (s : swarm T) (p : particle T)
    : comp rng (list T) :=
    do global_best <- cpure (unwrap (best_particle s)) ;;
    cmapM (fun i =>
             do r_personal <- unit_f32 ;;
             do r_global <- unit_f32 ;;
             cpure (let! v := index (velocity p) i in
                    let! b := index (best_personal_coordinates p) i in
                    let! x := index (coordinates p) i in
                    let! g := index (coordinates global_best) i in
                    Ret (fmul xi (fadd (fadd v (pull phi_personal r_personal b x))
                                       (pull phi_global r_global g x)))))
          (seq 0 (length (coordinates p))).

  (** [NegativeReinforcement] (velocitycalc/mod.rs:143-177). *)
  Record negative_reinforcement := NegativeReinforcement {
    nr_phi_best_personal : T; nr_phi_best_current : T; nr_phi_best_global : T;
    nr_phi_worst_personal : T; nr_phi_worst_current : T; nr_phi_worst_global : T;
    nr_xi : T
  }.

  (** [T::from(Uniform::new_inclusive(0.0, 1.0).sample(rng)).unwrap()], f64
      (velocitycalc/mod.rs:195, 198-204). *)
  Definition unit_f64 (np64 : nan_policy 53 1024) : comp rng T :=
    do between <- cpure (uniform_incl (FT := FloatIEEE np64) (b_of_Z 0) (b_of_Z 1)) ;;
    do x <- sample_incl (FT := FloatIEEE np64) between ;;
    cret (fof_f64 x).

  (** [NegativeReinforcement::calc_new_velocity] (velocitycalc/mod.rs:180-235). *)
  Definition negative_velocity (np64 : nan_policy 53 1024) (k : negative_reinforcement)
    (s : swarm T) (p : particle T) : comp rng (list T) :=
    do global_best <- cpure (unwrap (best_particle s)) ;;
    do current_best <- cpure (let! o := find_best_particle (particles s) in unwrap o) ;;
    do global_worst <- cpure (unwrap (worst_particle s)) ;;
    do current_worst <- cpure (let! o := find_worst_particle (particles s) in unwrap o) ;;
    cmapM (fun i =>
             do r_best_global <- unit_f64 np64 ;;
             do r_best_current <- unit_f64 np64 ;;
             do r_best_personal <- unit_f64 np64 ;;
             do r_worst_global <- unit_f64 np64 ;;
             do r_worst_current <- unit_f64 np64 ;;
             do r_worst_personal <- unit_f64 np64 ;;
             cpure (let! v := index (velocity p) i in
                    let! x := index (coordinates p) i in
                    let! bp := index (best_personal_coordinates p) i in
                    let! bc := index (coordinates current_best) i in
                    let! bg := index (coordinates global_best) i in
                    let! wp := index (worst_personal_coordinates p) i in
                    let! wc := index (coordinates current_worst) i in
                    let! wg := index (coordinates global_worst) i in
                    Ret (fmul (nr_xi k)
                      (fsub (fsub (fsub
                        (fadd (fadd (fadd v
                          (pull (nr_phi_best_personal k) r_best_personal bp x))
                          (pull (nr_phi_best_current k) r_best_current bc x))
                          (pull (nr_phi_best_global k) r_best_global bg x))
                        (pull (nr_phi_worst_personal k) r_worst_personal wp x))
                        (pull (nr_phi_worst_current k) r_worst_current wc x))
                        (pull (nr_phi_worst_global k) r_worst_global wg x)))))
          (seq 0 (length (coordinates p))).

  (** [ConstInertia::get] (velocitycalc/mod.rs:255-259). *)
  Definition const_inertia (w : T) (iteration : nat) : T := w.
  (** [LinearInertia::get] (velocitycalc/mod.rs:278-283). *)
  Definition linear_inertia (w_min w_max : T) (t_max : nat) (iteration : nat) : T :=
    fsub w_max (fdiv (fmul (fsub w_max w_min) (fof_nat iteration)) (fof_nat t_max)).

  (** [InertiaVelocityCalculator::calc_new_velocity] (velocitycalc/mod.rs:315-336):
      [inertia] is the boxed [Inertia], [L] the random generator. *)
  Definition inertia_velocity {U} (L : lens U rng) (phi_personal phi_global : T)
    (inertia : nat -> comp U T) (s : swarm T) (p : particle T) : comp U (list T) :=
    do global_best <- cpure (unwrap (best_particle s)) ;;
    do inertia_ratio <- inertia (sw_iteration s) ;;
    cmapM (fun i =>
             do r_personal <- zoom L unit_f32 ;;
             do r_global <- zoom L unit_f32 ;;
             cpure (let! v := index (velocity p) i in
                    let! b := index (best_personal_coordinates p) i in
                    let! x := index (coordinates p) i in
                    let! g := index (coordinates global_best) i in
                    Ret (fadd (fadd (fmul inertia_ratio v) (pull phi_personal r_personal b x))
                              (pull phi_global r_global g x))))
          (seq 0 (length (coordinates p))).
End PostProcessing.
