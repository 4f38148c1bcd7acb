(** * Properties C38-C45: the components of the particle swarm *)

From Coq Require Import List Arith ZArith Bool Lia Reals Lra.
From Flocq Require Import Core IEEE754.BinarySingleNaN IEEE754.Binary.
From Verif Require Import Base Logic FloatModel Rng GaModel GaComponents PsoModel PsoComponents
  SpecBox SpecRand SpecReal SpecSpeed SpecPso SpecVel FloatFacts BoxFacts PostFacts SatFacts VelFacts SpeedFacts CalcFacts
  DemoFloats DemoPso.
Import ListNotations.

(** ** C38: MoveToBoundary *)
Theorem C38_panic :
  forall (T : Type) (FT : FloatTrait T) (box : list (T * T)) (x : list T),
    move_to_boundary box x = Panic <-> length x <> length box.
Proof. exact @move_to_boundary_panic. Qed.
Print Assumptions C38_panic.

Theorem C38_cases :
  forall prec emax (Hp : Prec_gt_0 prec) (He : Prec_lt_emax prec emax) (np : nan_policy prec emax)
    (box : list (bfloat prec emax * bfloat prec emax)) (x y : list (bfloat prec emax)),
    @move_to_boundary _ (FloatIEEE np) box x = Ret y ->
    length y = length x /\ length x = length box /\
    forall k xk yk lo hi,
      nth_error x k = Some xk -> nth_error y k = Some yk -> nth_error box k = Some (lo, hi) ->
      leb lo hi = true ->
      (is_finite xk = false -> yk = lo) /\
      (is_finite xk = true -> ltb xk lo = true -> yk = lo) /\
      (is_finite xk = true -> ltb hi xk = true -> yk = hi) /\
      (is_finite xk = true -> leb lo xk = true -> leb xk hi = true -> yk = xk).
Proof. exact @boundary_cases. Qed.
Print Assumptions C38_cases.

Theorem C38_in_box :
  forall prec emax (Hp : Prec_gt_0 prec) (He : Prec_lt_emax prec emax) (np : nan_policy prec emax)
    (box : list (bfloat prec emax * bfloat prec emax)) (x y : list (bfloat prec emax)),
    good_box box -> @move_to_boundary _ (FloatIEEE np) box x = Ret y -> in_box box y.
Proof. exact @boundary_in_box. Qed.
Print Assumptions C38_in_box.

Theorem C38_fixed :
  forall prec emax (Hp : Prec_gt_0 prec) (He : Prec_lt_emax prec emax) (np : nan_policy prec emax)
    (box : list (bfloat prec emax * bfloat prec emax)) (x : list (bfloat prec emax)),
    good_box box -> in_box box x -> @move_to_boundary _ (FloatIEEE np) box x = Ret x.
Proof. exact @boundary_fixed. Qed.
Print Assumptions C38_fixed.

Theorem C38_idempotent :
  forall prec emax (Hp : Prec_gt_0 prec) (He : Prec_lt_emax prec emax) (np : nan_policy prec emax)
    (box : list (bfloat prec emax * bfloat prec emax)) (x y : list (bfloat prec emax)),
    good_box box -> @move_to_boundary _ (FloatIEEE np) box x = Ret y ->
    @move_to_boundary _ (FloatIEEE np) box y = Ret y.
Proof. exact @boundary_idempotent. Qed.
Print Assumptions C38_idempotent.

(** 3 is above [-2, 1], NaN is sent to the lower end, 2 stays. *)
Definition not_a_number : f64 := proj1_sig (np_const np64_default).
Example C38_nonvacuous :
  good_box [(minus_two64, one64); (one64, four64); (one64, four64)] /\
  (exists y, move_to_boundary [(minus_two64, one64); (one64, four64); (one64, four64)]
      [three64; not_a_number; two64] = Ret y /\
    map to_bits64 y = map to_bits64 [one64; one64; two64]) /\
  in_box swarm_box [three64; one64] /\
  move_to_boundary swarm_box [three64] = Panic.
Proof.
  split; [repeat constructor; vm_compute; reflexivity|].
  split; [|split; [repeat constructor; vm_compute; reflexivity|]].
  - apply show_ret. vm_compute. reflexivity.
  - apply move_to_boundary_panic. simpl. lia.
Qed.

(** ** C39: RandomTeleport *)
Theorem C39_new :
  forall (T : Type) (FT : FloatTrait T) (intervals : list (T * T)) (p : f32),
    (random_teleport_new intervals p = Panic <->
       leb (b_of_Z 0) p && leb p (b_of_Z 1) = false \/
       exists lo hi, In (lo, hi) intervals /\ fle lo hi && (ffinite lo && ffinite hi) = false) /\
    (random_teleport_new intervals p <> Panic ->
       random_teleport_new intervals p = Ret (RandomTeleport intervals p intervals)).
Proof. exact @teleport_new. Qed.
Print Assumptions C39_new.

Theorem C39_post_move :
  forall prec emax (Hp : Prec_gt_0 prec) (He : Prec_lt_emax prec emax) (np : nan_policy prec emax)
    (np32 : nan_policy 24 128) (SA : Sampler (bfloat prec emax))
    (intervals : list (bfloat prec emax * bfloat prec emax)) (p : f32) rt (x : list (bfloat prec emax)) (r : rng),
    @random_teleport_new _ (FloatIEEE np) intervals p = Ret rt ->
    let post_move := @random_teleport_post_move _ (FloatIEEE np) SA np32 rt in
    let draw := @drawn_excl f32 (FloatIEEE np32) _ (b_of_Z 0) (b_of_Z 1) r 0 in
    (length x <> length intervals -> fst (post_move x r) = Panic) /\
    (length x = length intervals -> ltb draw p = false -> post_move x r = (Ret x, shift 1 r)) /\
    (length x = length intervals -> ltb draw p = true ->
       exists y, post_move x r = (Ret y, shift (1 + length x) r) /\ length y = length x /\
         forall k lo hi yk, nth_error intervals k = Some (lo, hi) -> nth_error y k = Some yk ->
           yk = @drawn_incl _ (FloatIEEE np) SA lo hi r (1 + k) /\
           (is_finite (b_sub np hi lo) = true -> leb lo yk = true /\ leb yk hi = true)).
Proof. exact @teleport_move. Qed.
Print Assumptions C39_post_move.

(** Probability 0 never teleports, whatever is drawn; 1 always does. *)
Theorem C39_never :
  forall (np32 : nan_policy 24 128) (r : rng) (p : bfloat 24 128),
    leb p (b_of_Z 0) = true ->
    ltb (@drawn_excl f32 (FloatIEEE np32) _ (b_of_Z 0) (b_of_Z 1) r 0) p = false.
Proof. exact teleport_never. Qed.
Print Assumptions C39_never.
Theorem C39_always :
  forall (np32 : nan_policy 24 128) (r : rng) (p : bfloat 24 128),
    leb (b_of_Z 1) p = true ->
    ltb (@drawn_excl f32 (FloatIEEE np32) _ (b_of_Z 0) (b_of_Z 1) r 0) p = true.
Proof. exact teleport_always. Qed.
Print Assumptions C39_always.

(** A quarter; the stream of zeros draws 0, which is less; the next draws are read as
    0 in [-2, 10] and, held at the end, 1 in [1, 4]. *)
Definition quarter32 : f32 := @Binary.B754_finite 24 128 false 8388608 (-25) eq_refl.
Example C39_nonvacuous :
  random_teleport_new swarm_box quarter32 = Ret (RandomTeleport swarm_box quarter32 swarm_box) /\
  random_teleport_new swarm_box two32 = Panic /\
  ltb (@drawn_excl f32 (FloatIEEE np32_default) _ (b_of_Z 0) (b_of_Z 1) (fun _ => 0%Z) 0) quarter32 = true /\
  (exists y, fst (random_teleport_post_move np32_default (RandomTeleport swarm_box quarter32 swarm_box)
      [three64; two64] (fun _ => 0%Z)) = Ret y /\ map to_bits64 y = [0%Z; to_bits64 one64]) /\
  leb one32 (b_of_Z 1) = true /\ leb (b_of_Z 1) one32 = true.
Proof.
  split; [reflexivity|]. split; [reflexivity|]. split; [vm_compute; reflexivity|].
  split; [apply show_ret|split]; vm_compute; reflexivity.
Qed.

(** ** C40: MaxVelocityDimensions *)
Theorem C40_panic :
  forall prec emax (Hp : Prec_gt_0 prec) (He : Prec_lt_emax prec emax) (np : nan_policy prec emax)
    (limits v : list (bfloat prec emax)),
    @max_velocity_dimensions _ (FloatIEEE np) limits v = Panic <-> length v <> length limits.
Proof. exact @max_dim_panic. Qed.
Print Assumptions C40_panic.

Theorem C40_limited :
  forall prec emax (Hp : Prec_gt_0 prec) (He : Prec_lt_emax prec emax) (np : nan_policy prec emax)
    (limits v y : list (bfloat prec emax)),
    @max_velocity_dimensions _ (FloatIEEE np) limits v = Ret y ->
    length v = length limits /\ length y = length v /\
    forall k vk mk yk,
      nth_error v k = Some vk -> nth_error limits k = Some mk -> nth_error y k = Some yk ->
      (leb (b_abs vk) mk = true -> yk = vk) /\
      (is_nan vk = false -> leb (Binary.B754_zero false) mk = true ->
         leb (b_abs yk) mk = true /\ Binary.Bsign prec emax yk = Binary.Bsign prec emax vk /\
         (leb (b_abs vk) mk = false -> b_abs yk = b_abs mk)).
Proof. exact @max_dim_spec. Qed.
Print Assumptions C40_limited.

Theorem C40_idempotent :
  forall prec emax (Hp : Prec_gt_0 prec) (He : Prec_lt_emax prec emax) (np : nan_policy prec emax)
    (limits v y : list (bfloat prec emax)),
    @max_velocity_dimensions _ (FloatIEEE np) limits v = Ret y ->
    Forall (fun x => is_nan x = false) v ->
    Forall (fun m => leb (Binary.B754_zero false) m = true) limits ->
    @max_velocity_dimensions _ (FloatIEEE np) limits y = Ret y.
Proof. exact @max_dim_idempotent. Qed.
Print Assumptions C40_idempotent.

(** The limit: a NaN velocity is never corrected. *)
Theorem C40_nan_limit :
  forall prec emax (Hp : Prec_gt_0 prec) (He : Prec_lt_emax prec emax) (np : nan_policy prec emax)
    (limits v y : list (bfloat prec emax)) k vk yk,
    @max_velocity_dimensions _ (FloatIEEE np) limits v = Ret y ->
    nth_error v k = Some vk -> nth_error y k = Some yk -> is_nan vk = true -> is_nan yk = true.
Proof. exact @max_dim_nan. Qed.
Print Assumptions C40_nan_limit.

(** 3 is cut to 2, -2 to -1, 1 is kept; with the limit -2 the velocity 1 becomes 2. *)
Definition minus_one64 : f64 := b_opp one64.
Example C40_nonvacuous :
  (exists y, max_velocity_dimensions [two64; one64; two64] [three64; minus_two64; one64] = Ret y /\
     map to_bits64 y = map to_bits64 [two64; minus_one64; one64]) /\
  Forall (fun x : f64 => is_nan x = false) [three64; minus_two64; one64] /\
  Forall (fun m : f64 => leb (Binary.B754_zero false) m = true) [two64; one64; two64] /\
  (exists y, max_velocity_dimensions [one64] [not_a_number] = Ret y /\ map is_nan y = [true]) /\
  (exists y, max_velocity_dimensions [minus_two64] [one64] = Ret y /\
     map to_bits64 y = [to_bits64 two64]).
Proof.
  split; [apply show_ret; vm_compute; reflexivity|].
  split; [repeat constructor|]. split; [repeat constructor|].
  split; apply show_ret; vm_compute; reflexivity.
Qed.

(** ** C41: MaxVelocityAbs *)
Theorem C41_within :
  forall prec emax (Hp : Prec_gt_0 prec) (He : Prec_lt_emax prec emax) (np : nan_policy prec emax)
    (limit : bfloat prec emax) (v : list (bfloat prec emax)),
    ltb limit (@velocity_norm _ (FloatIEEE np) v) = false ->
    @max_velocity_abs _ (FloatIEEE np) limit v = v.
Proof. exact @max_abs_within. Qed.
Print Assumptions C41_within.

Theorem C41_length :
  forall prec emax (Hp : Prec_gt_0 prec) (He : Prec_lt_emax prec emax) (np : nan_policy prec emax)
    (limit : bfloat prec emax) (v : list (bfloat prec emax)),
    length (@max_velocity_abs _ (FloatIEEE np) limit v) = length v.
Proof. exact @max_abs_length. Qed.
Print Assumptions C41_length.

(** Floats: no sign changes and nothing grows (f32 and f64: [emax] is even). *)
Theorem C41_scaled :
  forall prec emax (Hp : Prec_gt_0 prec) (He : Prec_lt_emax prec emax) (np : nan_policy prec emax) (h : Z),
    emax = (2 * h)%Z ->
    forall (limit : bfloat prec emax) (v : list (bfloat prec emax)) k vk yk,
    is_finite (@velocity_norm _ (FloatIEEE np) v) = true ->
    leb (Binary.B754_zero false) limit = true ->
    ltb limit (@velocity_norm _ (FloatIEEE np) v) = true ->
    nth_error v k = Some vk -> nth_error (@max_velocity_abs _ (FloatIEEE np) limit v) k = Some yk ->
    is_finite vk = true /\ is_nan yk = false /\
    (leb (Binary.B754_zero false) vk = true -> leb (Binary.B754_zero false) yk = true) /\
    (leb vk (Binary.B754_zero false) = true -> leb yk (Binary.B754_zero false) = true) /\
    ((Binary.B2R prec emax vk * Binary.B2R prec emax limit = 0)%R \/
     (min_normal prec emax <= Rabs (Binary.B2R prec emax vk * Binary.B2R prec emax limit))%R ->
     leb (b_abs yk) (b_abs vk) = true).
Proof. exact @max_abs_spec. Qed.
Print Assumptions C41_scaled.

(** Exact arithmetic: the same code over the real numbers. *)
Theorem C41_exact :
  forall (limit : R) (v : list R), (0 <= limit)%R ->
    let y := @max_velocity_abs R FloatR limit v in
    ((length2 v <= limit)%R -> y = v) /\
    ((limit < length2 v)%R ->
       length2 y = limit /\ exists c, (0 <= c < 1)%R /\ y = map (fun x => (c * x)%R) v).
Proof. exact max_abs_exact. Qed.
Print Assumptions C41_exact.
Theorem C41_norm_exact : forall v : list R, @velocity_norm R FloatR v = length2 v.
Proof. exact norm_exact. Qed.
Print Assumptions C41_norm_exact.

(** Floats: the computed norm is the Euclidean length up to the rounding of its
    operations and the underflow of the squares. *)
Theorem C41_norm_accuracy :
  forall prec emax (Hp : Prec_gt_0 prec) (He : Prec_lt_emax prec emax) (np : nan_policy prec emax),
    (1 < prec)%Z ->
    forall v : list (bfloat prec emax),
    is_finite (@velocity_norm _ (FloatIEEE np) v) = true ->
    close prec (length v + 3) (underflow prec emax (length v))
      (Binary.B2R prec emax (@velocity_norm _ (FloatIEEE np) v)) (length2 (map (Binary.B2R prec emax) v)).
Proof. exact @norm_accuracy. Qed.
Print Assumptions C41_norm_accuracy.

(** Floats: a velocity that is too long keeps its direction, ... *)
Theorem C41_component_accuracy :
  forall prec emax (Hp : Prec_gt_0 prec) (He : Prec_lt_emax prec emax) (np : nan_policy prec emax),
    (1 < prec)%Z ->
    forall h : Z, emax = (2 * h)%Z ->
    forall (limit : bfloat prec emax) (v : list (bfloat prec emax)) k vk yk,
    is_finite (@velocity_norm _ (FloatIEEE np) v) = true ->
    leb (Binary.B754_zero false) limit = true ->
    ltb limit (@velocity_norm _ (FloatIEEE np) v) = true ->
    nth_error v k = Some vk -> nth_error (@max_velocity_abs _ (FloatIEEE np) limit v) k = Some yk ->
    let z := (Binary.B2R prec emax limit / Binary.B2R prec emax (@velocity_norm _ (FloatIEEE np) v)
              * Binary.B2R prec emax vk)%R in
    is_finite yk = true /\
    (Rabs (Binary.B2R prec emax yk - z)
       <= ((1 + bpow radix2 (- prec)) ^ 2 - 1) * Rabs z + 2 * underflow prec emax 1)%R.
Proof. exact @component_accuracy. Qed.
Print Assumptions C41_component_accuracy.

(** ... and its length becomes the limit; ... *)
Theorem C41_limit_accuracy :
  forall prec emax (Hp : Prec_gt_0 prec) (He : Prec_lt_emax prec emax) (np : nan_policy prec emax),
    (1 < prec)%Z ->
    forall h : Z, emax = (2 * h)%Z ->
    forall (limit : bfloat prec emax) (v : list (bfloat prec emax)),
    is_finite (@velocity_norm _ (FloatIEEE np) v) = true ->
    leb (Binary.B754_zero false) limit = true ->
    ltb limit (@velocity_norm _ (FloatIEEE np) v) = true ->
    let y := @max_velocity_abs _ (FloatIEEE np) limit v in
    Forall (fun yk => is_finite yk = true) y /\
    close prec (length v + 7) (4 * underflow prec emax (length v))
      (length2 (map (Binary.B2R prec emax) y)) (Binary.B2R prec emax limit) /\
    (length2 (map (Binary.B2R prec emax) y)
       <= (1 + bpow radix2 (- prec)) ^ (length v + 5)
          * (Binary.B2R prec emax limit + 4 * underflow prec emax (length v)))%R.
Proof. exact @norm_limit. Qed.
Print Assumptions C41_limit_accuracy.

(** ... so in every case the length stays within the limit up to rounding. *)
Theorem C41_float_bound :
  forall prec emax (Hp : Prec_gt_0 prec) (He : Prec_lt_emax prec emax) (np : nan_policy prec emax),
    (1 < prec)%Z ->
    forall h : Z, emax = (2 * h)%Z ->
    forall (limit : bfloat prec emax) (v : list (bfloat prec emax)),
    is_finite (@velocity_norm _ (FloatIEEE np) v) = true ->
    is_finite limit = true -> leb (Binary.B754_zero false) limit = true ->
    let y := @max_velocity_abs _ (FloatIEEE np) limit v in
    Forall (fun yk => is_finite yk = true) y /\
    (length2 (map (Binary.B2R prec emax) y)
       <= (1 + bpow radix2 (- prec)) ^ (length v + 5)
          * (Binary.B2R prec emax limit + 4 * underflow prec emax (length v)))%R.
Proof. exact @norm_bound. Qed.
Print Assumptions C41_float_bound.

(** In f64 and two dimensions the bound of [C41_float_bound] exceeds the limit 2
    by less than 2^-49. *)
Example C41_accuracy_nonvacuous :
  is_finite (velocity_norm [three64; four64]) = true /\ is_finite two64 = true /\
  leb (Binary.B754_zero false) two64 = true /\ ltb two64 (velocity_norm [three64; four64]) = true /\
  ((1 + bpow radix2 (-53)) ^ (2 + 5) * (2 + 4 * underflow 53 1024 2) < 2 + bpow radix2 (-49))%R.
Proof.
  split; [vm_compute; reflexivity|]. split; [vm_compute; reflexivity|].
  split; [vm_compute; reflexivity|]. split; [vm_compute; reflexivity|].
  assert (B : underflow 53 1024 2 = bpow radix2 (-537)).
  { unfold underflow. replace (INR 2 * (bpow radix2 (3 - 1024 - 53) / 2))%R with (bpow radix2 (-537) * bpow radix2 (-537))%R.
    - apply sqrt_square, bpow_ge_0.
    - rewrite <- bpow_plus. change (3 - 1024 - 53)%Z with (-537 + -537)%Z. simpl INR. field. }
  rewrite B. assert (S : (bpow radix2 (-537) <= bpow radix2 (-60))%R) by (apply bpow_le; lia).
  pose proof (bpow_ge_0 radix2 (-537)) as P. set (t := bpow radix2 (-537)) in *. clearbody t.
  apply Rle_lt_trans with ((1 + bpow radix2 (-53)) ^ 7 * (2 + 4 * bpow radix2 (-60)))%R.
  - apply Rmult_le_compat_l; [|lra]. apply pow_le. pose proof (bpow_ge_0 radix2 (-53)). lra.
  - unfold bpow. simpl Z.pow_pos. lra.
Qed.

(** Limits.  The squares overflow: 2^600 with the limit 2^500 becomes NaN. *)
Theorem C41_norm_overflow_limit :
  exists (limit : f64) (v : list f64),
    is_finite limit = true /\ forallb is_finite v = true /\
    map is_nan (@max_velocity_abs _ (FloatIEEE np64_default) limit v) = [true].
Proof.
  exists (@Binary.B754_finite 53 1024 false 4503599627370496 448 eq_refl).
  exists [@Binary.B754_finite 53 1024 false 4503599627370496 548 eq_refl].
  vm_compute. auto.
Qed.
Print Assumptions C41_norm_overflow_limit.
(** Subnormal products: the component 15*2^-1074 grows to 16*2^-1074. *)
Theorem C41_subnormal_limit :
  exists (limit : f64) (v : list f64),
    is_finite (@velocity_norm _ (FloatIEEE np64_default) v) = true /\
    leb (Binary.B754_zero false) limit = true /\
    ltb limit (@velocity_norm _ (FloatIEEE np64_default) v) = true /\
    ltb (b_abs (nth 0 v one64))
        (b_abs (nth 0 (@max_velocity_abs _ (FloatIEEE np64_default) limit v) one64)) = true.
Proof.
  exists (@Binary.B754_finite 53 1024 false 8106479329266893 (-53) eq_refl).
  exists [@Binary.B754_finite 53 1024 false 15 (-1074) eq_refl;
          @Binary.B754_finite 53 1024 false 8106479329266894 (-53) eq_refl].
  vm_compute. auto.
Qed.
Print Assumptions C41_subnormal_limit.

(** |(3,4)| = 5 > 2; |(1,1)| <= 2. *)
Example C41_nonvacuous :
  is_finite (velocity_norm [three64; four64]) = true /\ leb (Binary.B754_zero false) two64 = true /\
  ltb two64 (velocity_norm [three64; four64]) = true /\
  (min_normal 53 1024 <= Rabs (Binary.B2R 53 1024 three64 * Binary.B2R 53 1024 two64))%R /\
  ltb two64 (velocity_norm [one64; one64]) = false /\
  length2 [3; 4]%R = 5%R.
Proof.
  split; [vm_compute; reflexivity|]. split; [vm_compute; reflexivity|].
  split; [vm_compute; reflexivity|]. split; [|split; [vm_compute; reflexivity|]].
  - apply Rle_trans with 1%R.
    + unfold min_normal. change 1%R with (bpow radix2 0). apply bpow_le. lia.
    + unfold three64, two64, Binary.B2R, F2R, cond_Zopp; simpl Fnum; simpl Fexp.
      rewrite Rabs_pos_eq; unfold bpow; simpl; lra.
  - unfold length2. simpl. replace (3 * 3 + (4 * 4 + 0))%R with (5 * 5)%R by lra.
    apply sqrt_square. lra.
Qed.

(** ** C42: the velocity calculators *)
Theorem C42_classic_panics :
  forall (T : Type) (FT : FloatTrait T) np32 (phi_p phi_g : T) s p (r : rng),
    fst (classic_velocity np32 phi_p phi_g s p r) = Panic <-> ~ best_usable s p.
Proof. exact @classic_panics. Qed.
Print Assumptions C42_classic_panics.
Theorem C42_canonical_panics :
  forall (T : Type) (FT : FloatTrait T) np32 (phi_p phi_g xi : T) s p (r : rng),
    fst (canonical_velocity np32 phi_p phi_g xi s p r) = Panic <-> ~ best_usable s p.
Proof. exact @canonical_panics. Qed.
Print Assumptions C42_canonical_panics.
Theorem C42_inertia_panics :
  forall (T : Type) (FT : FloatTrait T) np32 (U : Type) (L : lens U rng), lens_ok L ->
    forall (phi_p phi_g : T) (inertia : nat -> comp U T) s p u w u1,
    inertia (sw_iteration s) u = (Ret w, u1) ->
    fst (inertia_velocity np32 L phi_p phi_g inertia s p u) = Panic <-> ~ best_usable s p.
Proof. exact @inertia_panics. Qed.
Print Assumptions C42_inertia_panics.
Theorem C42_negative_panics :
  forall (T : Type) (FT : FloatTrait T) np64 k s p (r : rng),
    fst (negative_velocity np64 k s p r) = Panic <-> ~ six_usable s p.
Proof. exact @negative_panics. Qed.
Print Assumptions C42_negative_panics.

Theorem C42_classic :
  forall (T : Type) (FT : FloatTrait T) np32 (phi_p phi_g : T) s p (r : rng) b,
    best_particle s = Some b -> covers p (velocity p) -> covers p (best_personal_coordinates p) ->
    covers p (coordinates b) ->
    exists y, classic_velocity np32 phi_p phi_g s p r = (Ret y, shift (2 * length (coordinates p)) r) /\
      length y = length (coordinates p) /\
      forall k v b' x g, nth_error (velocity p) k = Some v ->
        nth_error (best_personal_coordinates p) k = Some b' ->
        nth_error (coordinates p) k = Some x -> nth_error (coordinates b) k = Some g ->
        nth_error y k =
          Some (fadd (fadd v (fmul (fmul phi_p (unit32 np32 r (2 * k))) (fsub b' x)))
                     (fmul (fmul phi_g (unit32 np32 r (2 * k + 1))) (fsub g x))).
Proof. exact @classic_returns. Qed.
Print Assumptions C42_classic.
Theorem C42_canonical :
  forall (T : Type) (FT : FloatTrait T) np32 (phi_p phi_g xi : T) s p (r : rng) b,
    best_particle s = Some b -> covers p (velocity p) -> covers p (best_personal_coordinates p) ->
    covers p (coordinates b) ->
    exists y, canonical_velocity np32 phi_p phi_g xi s p r = (Ret y, shift (2 * length (coordinates p)) r) /\
      length y = length (coordinates p) /\
      forall k v b' x g, nth_error (velocity p) k = Some v ->
        nth_error (best_personal_coordinates p) k = Some b' ->
        nth_error (coordinates p) k = Some x -> nth_error (coordinates b) k = Some g ->
        nth_error y k =
          Some (fmul xi (fadd (fadd v (fmul (fmul phi_p (unit32 np32 r (2 * k))) (fsub b' x)))
                              (fmul (fmul phi_g (unit32 np32 r (2 * k + 1))) (fsub g x)))).
Proof. exact @canonical_returns. Qed.
Print Assumptions C42_canonical.
Theorem C42_inertia :
  forall (T : Type) (FT : FloatTrait T) np32 (U : Type) (L : lens U rng), lens_ok L ->
    forall (phi_p phi_g : T) (inertia : nat -> comp U T) s p u b w u1,
    best_particle s = Some b -> covers p (velocity p) -> covers p (best_personal_coordinates p) ->
    covers p (coordinates b) -> inertia (sw_iteration s) u = (Ret w, u1) ->
    exists y, inertia_velocity np32 L phi_p phi_g inertia s p u =
        (Ret y, lput L (shift (2 * length (coordinates p)) (lget L u1)) u1) /\
      length y = length (coordinates p) /\
      forall k v b' x g, nth_error (velocity p) k = Some v ->
        nth_error (best_personal_coordinates p) k = Some b' ->
        nth_error (coordinates p) k = Some x -> nth_error (coordinates b) k = Some g ->
        nth_error y k =
          Some (fadd (fadd (fmul w v) (fmul (fmul phi_p (unit32 np32 (lget L u1) (2 * k))) (fsub b' x)))
                     (fmul (fmul phi_g (unit32 np32 (lget L u1) (2 * k + 1))) (fsub g x))).
Proof. exact @inertia_returns. Qed.
Print Assumptions C42_inertia.
(** ConstInertia: the weight is the same in all iterations. *)
Theorem C42_const_inertia :
  forall (T : Type) (FT : FloatTrait T) np32 (U : Type) (L : lens U rng), lens_ok L ->
    forall (phi_p phi_g w : T) s p u b,
    best_particle s = Some b -> covers p (velocity p) -> covers p (best_personal_coordinates p) ->
    covers p (coordinates b) ->
    exists y, inertia_velocity np32 L phi_p phi_g (fun t => cret (const_inertia w t)) s p u =
        (Ret y, lput L (shift (2 * length (coordinates p)) (lget L u)) u) /\
      length y = length (coordinates p) /\
      forall k v b' x g, nth_error (velocity p) k = Some v ->
        nth_error (best_personal_coordinates p) k = Some b' ->
        nth_error (coordinates p) k = Some x -> nth_error (coordinates b) k = Some g ->
        nth_error y k =
          Some (fadd (fadd (fmul w v) (fmul (fmul phi_p (unit32 np32 (lget L u) (2 * k))) (fsub b' x)))
                     (fmul (fmul phi_g (unit32 np32 (lget L u) (2 * k + 1))) (fsub g x))).
Proof. intros. eapply inertia_returns; eauto. Qed.
Print Assumptions C42_const_inertia.
Theorem C42_negative :
  forall (T : Type) (FT : FloatTrait T) np64 (k : @negative_reinforcement T) s p (r : rng) bg wg bc wc,
    best_particle s = Some bg -> worst_particle s = Some wg ->
    first_least value (particles s) bc -> last_greatest value (particles s) wc ->
    covers p (velocity p) -> covers p (best_personal_coordinates p) -> covers p (worst_personal_coordinates p) ->
    covers p (coordinates bg) -> covers p (coordinates wg) -> covers p (coordinates bc) ->
    covers p (coordinates wc) ->
    exists y, negative_velocity np64 k s p r = (Ret y, shift (6 * length (coordinates p)) r) /\
      length y = length (coordinates p) /\
      forall i v x bpi bci bgi wpi wci wgi, nth_error (velocity p) i = Some v ->
        nth_error (coordinates p) i = Some x ->
        nth_error (best_personal_coordinates p) i = Some bpi -> nth_error (coordinates bc) i = Some bci ->
        nth_error (coordinates bg) i = Some bgi ->
        nth_error (worst_personal_coordinates p) i = Some wpi -> nth_error (coordinates wc) i = Some wci ->
        nth_error (coordinates wg) i = Some wgi ->
        let u := unit64 np64 r in
        nth_error y i =
          Some (fmul (nr_xi k)
            (fsub (fsub (fsub (fadd (fadd (fadd v
              (fmul (fmul (nr_phi_best_personal k) (u (6 * i + 2))) (fsub bpi x)))
              (fmul (fmul (nr_phi_best_current k) (u (6 * i + 1))) (fsub bci x)))
              (fmul (fmul (nr_phi_best_global k) (u (6 * i))) (fsub bgi x)))
              (fmul (fmul (nr_phi_worst_personal k) (u (6 * i + 5))) (fsub wpi x)))
              (fmul (fmul (nr_phi_worst_current k) (u (6 * i + 4))) (fsub wci x)))
              (fmul (fmul (nr_phi_worst_global k) (u (6 * i + 3))) (fsub wgi x)))).
Proof. exact @negative_returns. Qed.
Print Assumptions C42_negative.

(** A particle that sits at all its attractors: the draws do not matter. *)
Theorem C42_classic_fixed :
  forall prec emax (Hp : Prec_gt_0 prec) (He : Prec_lt_emax prec emax) (np : nan_policy prec emax) np32
    (phi_p phi_g : bfloat prec emax) s p (r : rng) b y r',
    best_particle s = Some b -> is_finite phi_p = true -> is_finite phi_g = true ->
    same_point (best_personal_coordinates p) (coordinates p) -> same_point (coordinates b) (coordinates p) ->
    length (velocity p) = length (coordinates p) ->
    @classic_velocity _ (FloatIEEE np) np32 phi_p phi_g s p r = (Ret y, r') ->
    Forall2 same_number y (velocity p).
Proof. exact @classic_fixed. Qed.
Print Assumptions C42_classic_fixed.
Theorem C42_canonical_fixed :
  forall prec emax (Hp : Prec_gt_0 prec) (He : Prec_lt_emax prec emax) (np : nan_policy prec emax) np32
    (phi_p phi_g xi : bfloat prec emax) s p (r : rng) b y r',
    best_particle s = Some b -> is_finite phi_p = true -> is_finite phi_g = true ->
    same_point (best_personal_coordinates p) (coordinates p) -> same_point (coordinates b) (coordinates p) ->
    length (velocity p) = length (coordinates p) ->
    @canonical_velocity _ (FloatIEEE np) np32 phi_p phi_g xi s p r = (Ret y, r') ->
    Forall2 (fun y0 v => same_number y0 (b_mul np xi v)) y (velocity p).
Proof. exact @canonical_fixed. Qed.
Print Assumptions C42_canonical_fixed.
Theorem C42_inertia_fixed :
  forall prec emax (Hp : Prec_gt_0 prec) (He : Prec_lt_emax prec emax) (np : nan_policy prec emax) np32
    (U : Type) (L : lens U rng), lens_ok L ->
    forall (phi_p phi_g : bfloat prec emax) (inertia : nat -> comp U (bfloat prec emax)) s p u b w u1 y u',
    best_particle s = Some b -> is_finite phi_p = true -> is_finite phi_g = true ->
    same_point (best_personal_coordinates p) (coordinates p) -> same_point (coordinates b) (coordinates p) ->
    length (velocity p) = length (coordinates p) ->
    inertia (sw_iteration s) u = (Ret w, u1) ->
    @inertia_velocity _ (FloatIEEE np) np32 U L phi_p phi_g inertia s p u = (Ret y, u') ->
    Forall2 (fun y0 v => same_number y0 (b_mul np w v)) y (velocity p).
Proof. exact @inertia_fixed. Qed.
Print Assumptions C42_inertia_fixed.
Theorem C42_negative_fixed :
  forall prec emax (Hp : Prec_gt_0 prec) (He : Prec_lt_emax prec emax) (np : nan_policy prec emax) np64
    (k : @negative_reinforcement (bfloat prec emax)) s p (r : rng) bg wg bc wc y r',
    best_particle s = Some bg -> worst_particle s = Some wg ->
    first_least value (particles s) bc -> last_greatest value (particles s) wc ->
    Forall (fun phi => is_finite phi = true)
      [nr_phi_best_personal k; nr_phi_best_current k; nr_phi_best_global k;
       nr_phi_worst_personal k; nr_phi_worst_current k; nr_phi_worst_global k] ->
    Forall (fun a => same_point a (coordinates p))
      [best_personal_coordinates p; worst_personal_coordinates p; coordinates bg; coordinates wg;
       coordinates bc; coordinates wc] ->
    length (velocity p) = length (coordinates p) ->
    @negative_velocity _ (FloatIEEE np) np64 k s p r = (Ret y, r') ->
    Forall2 (fun y0 v => same_number y0 (b_mul np (nr_xi k) v)) y (velocity p).
Proof. exact @negative_fixed. Qed.
Print Assumptions C42_negative_fixed.

(** A swarm of one particle that sits at all its attractors, (1, 2), flying with (3, -2);
    and one of two particles. *)
Definition settled : particle f64 :=
  Particle [one64; two64] [three64; minus_two64] one64 [one64; two64] one64 [one64; two64] one64.
Definition settled_swarm : swarm f64 := Swarm [settled] (Some settled) (Some settled) 5.
Definition seven (phi xi : f64) : @negative_reinforcement f64 := NegativeReinforcement phi phi phi phi phi phi xi.
Example C42_nonvacuous :
  best_usable settled_swarm settled /\ six_usable settled_swarm settled /\
  ~ best_usable (Swarm [settled] None None 0) settled /\
  same_point (best_personal_coordinates settled) (coordinates settled) /\
  is_finite two64 = true /\
  (exists y, fst (classic_velocity np32_default two64 three64 settled_swarm settled (fun _ => 3%Z)) = Ret y /\
     map to_bits64 y = map to_bits64 [three64; minus_two64]) /\
  (exists y, fst (canonical_velocity np32_default two64 three64 two64 settled_swarm settled (fun _ => 3%Z)) = Ret y /\
     map to_bits64 y = map to_bits64 [b_mul np64_default two64 three64; b_mul np64_default two64 minus_two64]) /\
  (exists y, fst (inertia_velocity np32_default lens_id two64 three64
       (fun t => cret (if t =? 5 then one64 else two64)) settled_swarm settled (fun _ => 3%Z)) = Ret y /\
     map to_bits64 y = map to_bits64 [three64; minus_two64]) /\
  (exists y, fst (negative_velocity np64_default (seven three64 one64) settled_swarm settled (fun _ => 3%Z)) = Ret y /\
     map to_bits64 y = map to_bits64 [three64; minus_two64]) /\
  (exists y, fst (classic_velocity np32_default two64 three64
       (Swarm [] (Some (Particle [three64] [] one64 [] one64 [] one64)) None 0)
       (Particle [one64] [one64] one64 [two64] one64 [] one64) (fun _ => to_bits32 one32)) = Ret y /\
     map to_bits64 y = map to_bits64 [b_of_Z 9]).
Proof.
  assert (S : same_point (best_personal_coordinates settled) (coordinates settled))
    by (repeat constructor; vm_compute; auto).
  split; [exists settled; unfold covers; simpl; auto|].
  split.
  { exists settled, settled, settled, settled. unfold covers; simpl.
    split; [auto|]. split; [auto|].
    assert (E : le_fin (value settled) (value settled)) by (vm_compute; auto).
    split.
    { exists 0. split; [auto|]. split; [intros b [<-|[]]; exact E|intros; lia]. }
    split; [|auto 10].
    exists 0. split; [auto|]. split; [intros b [<-|[]]; exact E|intros j b Hj Hb].
    destruct j as [|[|j]]; [lia|discriminate|discriminate]. }
  split; [intros [b [Hb _]]; discriminate|]. split; [exact S|]. split; [reflexivity|].
  split; [apply show_ret; vm_compute; reflexivity|].
  split; [apply show_ret; vm_compute; reflexivity|].
  split; [apply show_ret; vm_compute; reflexivity|].
  split; apply show_ret; vm_compute; reflexivity.
Qed.

(** ** C43: CanonicalVelocityCalculator::new *)
Theorem C43_panic :
  forall prec emax (Hp : Prec_gt_0 prec) (He : Prec_lt_emax prec emax) (np : nan_policy prec emax),
    (2 <= prec)%Z ->
    forall phi_p phi_g alpha : bfloat prec emax,
    @canonical_new _ (FloatIEEE np) phi_p phi_g alpha = Panic <->
    ~ (ltb (b_of_Z 4) (b_add np phi_p phi_g) = true /\
       ltb (Binary.B754_zero false) alpha = true /\ ltb alpha b_one = true).
Proof. exact @canonical_new_panics. Qed.
Print Assumptions C43_panic.
Theorem C43_xi :
  forall prec emax (Hp : Prec_gt_0 prec) (He : Prec_lt_emax prec emax) (np : nan_policy prec emax),
    (2 <= prec)%Z ->
    forall phi_p phi_g alpha xi : bfloat prec emax,
    @canonical_new _ (FloatIEEE np) phi_p phi_g alpha = Ret xi ->
    leb (Binary.B754_zero false) xi = true /\ leb xi alpha = true /\ ltb xi b_one = true /\
    is_finite xi = true.
Proof. exact @canonical_xi. Qed.
Print Assumptions C43_xi.

Definition half64 : f64 := @Binary.B754_finite 53 1024 false 4503599627370496 (-53) eq_refl.
Example C43_nonvacuous :
  (exists xi, canonical_new three64 two64 half64 = Ret xi /\ ltb (Binary.B754_zero false) xi = true) /\
  canonical_new two64 two64 half64 = Panic /\ canonical_new three64 two64 one64 = Panic.
Proof. split; [apply show_ret; vm_compute; reflexivity|]. split; vm_compute; reflexivity. Qed.

(** ** C44: LinearInertia *)
Theorem C44_start :
  forall prec emax (Hp : Prec_gt_0 prec) (He : Prec_lt_emax prec emax) (np : nan_policy prec emax),
    (64 < emax)%Z ->
    forall (w_min w_max : bfloat prec emax) t_max,
    is_finite w_max = true -> is_finite (b_sub np w_max w_min) = true -> 0 < t_max ->
    (Z.of_nat t_max <= 2 ^ 64)%Z ->
    partial_cmp (@linear_inertia _ (FloatIEEE np) w_min w_max t_max 0) w_max = Some Eq.
Proof. exact @inertia_start. Qed.
Print Assumptions C44_start.
Theorem C44_decreasing :
  forall prec emax (Hp : Prec_gt_0 prec) (He : Prec_lt_emax prec emax) (np : nan_policy prec emax),
    (64 < emax)%Z ->
    forall (w_min w_max : bfloat prec emax) t_max i j,
    is_finite w_min = true -> is_finite w_max = true -> leb w_min w_max = true ->
    is_finite (b_sub np w_max w_min) = true -> 0 < t_max -> (Z.of_nat t_max <= 2 ^ 64)%Z ->
    i <= j -> (Z.of_nat j <= 2 ^ 64)%Z ->
    leb (@linear_inertia _ (FloatIEEE np) w_min w_max t_max j)
        (@linear_inertia _ (FloatIEEE np) w_min w_max t_max i) = true.
Proof. exact @inertia_decreasing. Qed.
Print Assumptions C44_decreasing.
(** Exact arithmetic: the same code over the real numbers. *)
Theorem C44_exact :
  forall (w_min w_max : R) t_max i, (w_min <= w_max)%R -> 0 < t_max ->
    let get := @linear_inertia R FloatR w_min w_max t_max in
    get 0 = w_max /\ get t_max = w_min /\
    (i <= t_max -> (w_min <= get i)%R /\ (get i <= w_max)%R).
Proof. exact inertia_exact. Qed.
Print Assumptions C44_exact.
(** Limit: when w_max - w_min overflows, the first weight is NaN. *)
Theorem C44_width_overflow_limit :
  exists w_min w_max : f64,
    is_finite w_min = true /\ is_finite w_max = true /\ leb w_min w_max = true /\
    is_nan (@linear_inertia _ (FloatIEEE np64_default) w_min w_max 10 0) = true.
Proof.
  exists (@Binary.B754_finite 53 1024 true 9007199254740991 971 eq_refl).
  exists (@Binary.B754_finite 53 1024 false 9007199254740991 971 eq_refl).
  vm_compute. auto.
Qed.
Print Assumptions C44_width_overflow_limit.

Example C44_nonvacuous :
  is_finite one64 = true /\ is_finite three64 = true /\ leb one64 three64 = true /\
  is_finite (b_sub np64_default three64 one64) = true /\
  map (fun t => to_bits64 (linear_inertia one64 three64 10 t)) [0; 5; 10] =
    map to_bits64 [three64; two64; one64].
Proof. vm_compute. auto. Qed.

(** ** C45: the initializers of coordinates and velocities *)
Theorem C45_random_f64 :
  forall np (intervals : list (f64 * f64)) n (r : rng),
    (forall lo hi, In (lo, hi) intervals -> ltb lo hi = true /\ is_finite (b_sub np hi lo) = true) ->
    exists vs, @random_vectors f64 NumGene64 np intervals n r = (Ret vs, shift (n * length intervals) r) /\
      length vs = n /\
      forall j v, nth_error vs j = Some v -> length v = length intervals /\
        forall k g lo hi, nth_error v k = Some g -> nth_error intervals k = Some (lo, hi) ->
          g = @drawn_incl f64 (FloatIEEE np) _ lo hi r (j * length intervals + k) /\
          leb lo g = true /\ leb g hi = true.
Proof. exact random_vectors_f64. Qed.
Print Assumptions C45_random_f64.
Theorem C45_random_f32 :
  forall np64 np32 (intervals : list (f32 * f32)) n (r : rng),
    (forall lo hi, In (lo, hi) intervals -> ltb lo hi = true /\ is_finite lo = true /\ is_finite hi = true) ->
    exists vs, @random_vectors f32 (NumGene32 np64 np32) np64 intervals n r =
        (Ret vs, shift (n * length intervals) r) /\
      length vs = n /\
      forall j v, nth_error vs j = Some v -> length v = length intervals /\
        forall k g lo hi, nth_error v k = Some g -> nth_error intervals k = Some (lo, hi) ->
          g = fconv (np_of64 np32)
                (@drawn_incl f64 (FloatIEEE np64) _ (fconv (np_of32 np64) lo) (fconv (np_of32 np64) hi)
                   r (j * length intervals + k)) /\
          leb lo g = true /\ leb g hi = true.
Proof. exact random_vectors_f32. Qed.
Print Assumptions C45_random_f32.
Theorem C45_no_particles :
  forall (G : Type) (NG : NumGene G) np (intervals : list (G * G)) (r : rng),
    random_vectors np intervals 0 r = (Ret [], r).
Proof. exact @random_vectors_zero. Qed.
Print Assumptions C45_no_particles.
Theorem C45_unordered_panics :
  forall (G : Type) (NG : NumGene G) np (intervals : list (G * G)) n (r : rng) i,
    0 < n -> In i intervals -> ng_lt (fst i) (snd i) = false ->
    fst (random_vectors np intervals n r) = Panic.
Proof. exact @random_vectors_unordered. Qed.
Print Assumptions C45_unordered_panics.
Theorem C45_infinite_panics :
  forall np (intervals : list (f64 * f64)) n (r : rng) lo hi,
    0 < n -> In (lo, hi) intervals -> is_finite lo && is_finite hi = false ->
    fst (@random_vectors f64 NumGene64 np intervals n r) = Panic.
Proof. exact random_vectors_infinite. Qed.
Print Assumptions C45_infinite_panics.
Theorem C45_zero_velocities :
  forall (T : Type) (FT : FloatTrait T) d n,
    length (zero_velocities d n) = n /\
    forall v, In v (zero_velocities d n) -> length v = d /\ Forall (fun x => x = fzero) v.
Proof. exact @zero_velocities_spec. Qed.
Print Assumptions C45_zero_velocities.

Example C45_nonvacuous :
  (forall lo hi, In (lo, hi) swarm_box ->
     ltb lo hi = true /\ is_finite (b_sub np64_default hi lo) = true) /\
  (exists vs, fst (@random_vectors f64 NumGene64 np64_default swarm_box 2 one_two) = Ret vs /\
     map (map to_bits64) vs = map (map to_bits64) [[one64; two64]; [two64; two64]]) /\
  fst (@random_vectors f64 NumGene64 np64_default [(one64, one64)] 1 one_two) = Panic /\
  map (map to_bits64) (zero_velocities 2 1) = [[0; 0]]%Z.
Proof.
  split; [intros lo hi [[= <- <-]|[[= <- <-]|[]]]; split; vm_compute; reflexivity|].
  split; [apply show_ret; vm_compute; reflexivity|].
  split; [|vm_compute; reflexivity].
  apply (C45_unordered_panics f64 NumGene64) with (i := (one64, one64)); [lia|left; auto|vm_compute; reflexivity].
Qed.
