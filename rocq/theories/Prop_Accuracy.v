(** * Property C105: the computed test functions are close to the documented formulas *)

From Coq Require Import List Arith ZArith Bool String Reals Lia Lra.
From Flocq Require Import Core IEEE754.BinarySingleNaN IEEE754.Binary.
From Verif Require Import Base FloatModel Rng GaModel PsoModel StopModel LogModel TestFuncModel ExampleModel
  SpecReal SpecMean SpecSpeed SpecBox SpecTest SpecExample SpecAccuracy ExampleRuns ExampleAsserts AccTest DemoTrig DemoFloats DemoExample.
Import ListNotations.
Local Open Scope R_scope.

(** ** Paraboloid: n + 3 relative roundings, and the underflow of n squares *)
Theorem C105_paraboloid_f64 :
  forall (np : nan_policy 53 1024) (x : list f64),
    let r := @paraboloid f64 (FloatIEEE np) ToF64_64 x in
    (Z.of_nat (List.length x) <= 2 ^ 53)%Z -> is_finite r = true ->
    0 <= R64 r /\ close 53 (List.length x + 3) (INR (List.length x) * tiny 53 1024) (R64 r) (paraboloid_real (map R64 x)).
Proof. exact paraboloid_close_64. Qed.
Print Assumptions C105_paraboloid_f64.
Theorem C105_paraboloid_f32 :
  forall (np : nan_policy 24 128) (np64 : nan_policy 53 1024) (x : list f32),
    let r := @paraboloid f32 (FloatIEEE np) (ToF64_32 np64) x in
    (Z.of_nat (List.length x) <= 2 ^ 24)%Z -> is_finite r = true ->
    0 <= R64 r /\ close 24 (List.length x + 3) (INR (List.length x) * tiny 24 128) (R64 r) (paraboloid_real (map R32 x)).
Proof. exact paraboloid_close_32. Qed.
Print Assumptions C105_paraboloid_f32.

(** ** Rosenbrock: the square root of the value *)
Theorem C105_rosenbrock_f64 :
  forall (np : nan_policy 53 1024) (x : list f64) b r,
    @rosenbrock f64 (FloatIEEE np) ToF64_64 x = Ret r -> Forall (fun v => Rabs (R64 v) <= b) x -> is_finite r = true ->
    0 <= R64 r /\
    close 53 (List.length x + 1) (rosenbrock_slack 53 1024 (List.length x - 1) b) (sqrt (R64 r)) (sqrt (rosenbrock_real (map R64 x))).
Proof. exact rosenbrock_close_64. Qed.
Print Assumptions C105_rosenbrock_f64.
Theorem C105_rosenbrock_f32 :
  forall (np : nan_policy 24 128) (np64 : nan_policy 53 1024) (x : list f32) b r,
    @rosenbrock f32 (FloatIEEE np) (ToF64_32 np64) x = Ret r -> Forall (fun v => Rabs (R32 v) <= b) x -> is_finite r = true ->
    0 <= R64 r /\
    close 24 (List.length x + 1) (rosenbrock_slack 24 128 (List.length x - 1) b) (sqrt (R64 r)) (sqrt (rosenbrock_real (map R32 x))).
Proof. exact rosenbrock_close_32. Qed.
Print Assumptions C105_rosenbrock_f32.

(** ** Rastrigin and Schwefel, with a cosine and a sine that are off by at most [e] *)
Theorem C105_rastrigin_f64 :
  forall (np : nan_policy 53 1024) (LM : Libm f64) (b : Z) e (x : list f64),
    trig_near cos e (8 * IZR b) (@fcos f64 LM) -> Forall (within b) x -> (0 <= b)%Z ->
    (8 * b <= 2 ^ 53)%Z -> (Z.of_nat (List.length x) * (b ^ 2 + 20) <= 2 ^ 53)%Z ->
    Rabs (R64 (@rastrigin f64 (FloatIEEE np) LM ToF64_64 x) - rastrigin_doc (map R64 x)) <= rastrigin_error 53 1024 (List.length x) (IZR b) e.
Proof. exact rastrigin_accurate_64. Qed.
Print Assumptions C105_rastrigin_f64.
Theorem C105_rastrigin_f32 :
  forall (np : nan_policy 24 128) (np64 : nan_policy 53 1024) (LM : Libm f32) (b : Z) e (x : list f32),
    trig_near cos e (8 * IZR b) (@fcos f32 LM) -> Forall (within b) x -> (0 <= b)%Z ->
    (8 * b <= 2 ^ 24)%Z -> (Z.of_nat (List.length x) * (b ^ 2 + 20) <= 2 ^ 24)%Z ->
    Rabs (R64 (@rastrigin f32 (FloatIEEE np) LM (ToF64_32 np64) x) - rastrigin_doc (map R32 x)) <= rastrigin_error 24 128 (List.length x) (IZR b) e.
Proof. exact rastrigin_accurate_32. Qed.
Print Assumptions C105_rastrigin_f32.
Theorem C105_schwefel_f64 :
  forall (np : nan_policy 53 1024) (LM : Libm f64) (b : Z) e (x : list f64),
    trig_near sin e (IZR b) (@fsin f64 LM) -> Forall (within b) x -> (0 <= b)%Z ->
    (Z.of_nat (List.length x) * (b + 419) <= 2 ^ 53)%Z ->
    Rabs (R64 (@schwefel f64 (FloatIEEE np) LM ToF64_64 x) - schwefel_doc (map R64 x)) <= schwefel_error 53 1024 (List.length x) (IZR b) e.
Proof. exact schwefel_accurate_64. Qed.
Print Assumptions C105_schwefel_f64.
Theorem C105_schwefel_f32 :
  forall (np : nan_policy 24 128) (np64 : nan_policy 53 1024) (LM : Libm f32) (b : Z) e (x : list f32),
    trig_near sin e (IZR b) (@fsin f32 LM) -> Forall (within b) x -> (0 <= b)%Z ->
    (Z.of_nat (List.length x) * (b + 419) <= 2 ^ 24)%Z ->
    Rabs (R64 (@schwefel f32 (FloatIEEE np) LM (ToF64_32 np64) x) - schwefel_doc (map R32 x)) <= schwefel_error 24 128 (List.length x) (IZR b) e.
Proof. exact schwefel_accurate_32. Qed.
Print Assumptions C105_schwefel_f32.
(** The documented minimum 0 of Schwefel's function, as computed on the boxes of the example programs. *)
Theorem C105_schwefel_floor :
  forall (np32 : nan_policy 24 128) (np64 : nan_policy 53 1024) (LM : Libm f32) d k x v,
    trig_near sin (1 / 10 ^ 6) 500 (@fsin f32 LM) ->
    (d = 3%nat /\ k = 1 / 200 \/ d = 5%nat /\ k = 1 / 100 \/ d = 15%nat /\ k = 1 / 25) ->
    solves (fun x => Ret (@schwefel f32 (FloatIEEE np32) LM (ToF64_32 np64) x)) (int_cube d (-500) 500) x v -> - k <= R64 v.
Proof. exact (fun np32 np64 LM => @schwefel_floor np32 np64 LM). Qed.
Print Assumptions C105_schwefel_floor.

(** ** What the example programs report *)
Theorem C105_genetic_paraboloid :
  forall (W : Type) (write : string -> comp W bool) (now : comp W Z) (fmt : formatter f32)
    (np32 : nan_policy 24 128) (np64 : nan_policy 53 1024) (LM : Libm f32) (dbg : bool) fuel r (w : W) x v s' u' t,
    accepts write -> ticks now ->
    (3000 < fuel)%nat -> ga_main (@genetic_paraboloid W write now fmt np32 np64 LM dbg) fuel r w = (Ret (Some (x, v), s'), u', t) -> right_to_six paraboloid_real x v.
Proof.
  exact (fun W write now fmt np32 np64 LM dbg fuel r w x v s' u' t Hw Hn => @genetic_paraboloid_true W write now fmt np32 np64 LM dbg Hw Hn fuel r w x v s' u' t).
Qed.
Print Assumptions C105_genetic_paraboloid.
Theorem C105_genetic_rastrigin :
  forall (W : Type) (write : string -> comp W bool) (now : comp W Z) (fmt : formatter f32)
    (np32 : nan_policy 24 128) (np64 : nan_policy 53 1024) (LM : Libm f32) (dbg : bool) fuel r (w : W) x v s' u' t,
    accepts write -> ticks now ->
    trig_near cos (1 / 10 ^ 6) 48 (@fcos f32 LM) -> (3000 < fuel)%nat -> ga_main (@genetic_rastrigin W write now fmt np32 np64 LM dbg) fuel r w = (Ret (Some (x, v), s'), u', t) -> off_by (1 / 100) rastrigin_doc x v.
Proof.
  exact (fun W write now fmt np32 np64 LM dbg fuel r w x v s' u' t Hw Hn => @genetic_rastrigin_true W write now fmt np32 np64 LM dbg Hw Hn fuel r w x v s' u' t).
Qed.
Print Assumptions C105_genetic_rastrigin.
Theorem C105_genetic_schwefel :
  forall (W : Type) (write : string -> comp W bool) (now : comp W Z) (fmt : formatter f32)
    (np32 : nan_policy 24 128) (np64 : nan_policy 53 1024) (LM : Libm f32) (dbg : bool) fuel r (w : W) x v s' u' t,
    accepts write -> ticks now ->
    trig_near sin (1 / 10 ^ 6) 500 (@fsin f32 LM) -> (3000 < fuel)%nat -> ga_main (@genetic_schwefel W write now fmt np32 np64 LM dbg) fuel r w = (Ret (Some (x, v), s'), u', t) -> off_by (1 / 25) schwefel_doc x v.
Proof.
  exact (fun W write now fmt np32 np64 LM dbg fuel r w x v s' u' t Hw Hn => @genetic_schwefel_true W write now fmt np32 np64 LM dbg Hw Hn fuel r w x v s' u' t).
Qed.
Print Assumptions C105_genetic_schwefel.
Theorem C105_genetic_rosenbrock :
  forall (W : Type) (write : string -> comp W bool) (now : comp W Z) (fmt : formatter f32)
    (np32 : nan_policy 24 128) (np64 : nan_policy 53 1024) (LM : Libm f32) (dbg : bool) fuel r (w : W) x v s' u' t,
    accepts write -> ticks now ->
    ga_main (@genetic_rosenbrock W write now fmt np32 np64 LM dbg) fuel r w = (Ret (Some (x, v), s'), u', t) -> root_right rosenbrock_real x v.
Proof.
  exact (fun W write now fmt np32 np64 LM dbg fuel r w x v s' u' t Hw Hn => @genetic_rosenbrock_true W write now fmt np32 np64 LM dbg Hw Hn fuel r w x v s' u' t).
Qed.
Print Assumptions C105_genetic_rosenbrock.
Theorem C105_particleswarm_paraboloid :
  forall (W : Type) (write : string -> comp W bool) (now : comp W Z) (fmt : formatter f32)
    (np32 : nan_policy 24 128) (np64 : nan_policy 53 1024) (dbg : bool) fuel r (w : W) x v s' u' t,
    accepts write -> ticks now ->
    (3000 < fuel)%nat -> pso_main np32 (@particleswarm_paraboloid W write now fmt np32 np64 dbg) fuel r w = (Ret (Some (x, v), s'), u', t) -> right_to_six paraboloid_real x v.
Proof.
  exact (fun W write now fmt np32 np64 dbg fuel r w x v s' u' t Hw Hn => @particleswarm_paraboloid_true W write now fmt np32 np64 dbg Hw Hn fuel r w x v s' u' t).
Qed.
Print Assumptions C105_particleswarm_paraboloid.
Theorem C105_particleswarm_rastrigin :
  forall (W : Type) (write : string -> comp W bool) (now : comp W Z) (fmt : formatter f32)
    (np32 : nan_policy 24 128) (np64 : nan_policy 53 1024) (LM : Libm f32) (dbg : bool) fuel r (w : W) x v s' u' t,
    accepts write -> ticks now ->
    trig_near cos (1 / 10 ^ 6) 48 (@fcos f32 LM) -> (3000 < fuel)%nat -> pso_main np32 (@particleswarm_rastrigin W write now fmt np32 np64 LM dbg) fuel r w = (Ret (Some (x, v), s'), u', t) -> off_by (1 / 2000) rastrigin_doc x v.
Proof.
  exact (fun W write now fmt np32 np64 LM dbg fuel r w x v s' u' t Hw Hn => @particleswarm_rastrigin_true W write now fmt np32 np64 LM dbg Hw Hn fuel r w x v s' u' t).
Qed.
Print Assumptions C105_particleswarm_rastrigin.
Theorem C105_particleswarm_schwefel :
  forall (W : Type) (write : string -> comp W bool) (now : comp W Z) (fmt : formatter f32)
    (np32 : nan_policy 24 128) (np64 : nan_policy 53 1024) (LM : Libm f32) (dbg : bool) fuel r (w : W) x v s' u' t,
    accepts write -> ticks now ->
    trig_near sin (1 / 10 ^ 6) 500 (@fsin f32 LM) -> (3000 < fuel)%nat -> pso_main np32 (@particleswarm_schwefel W write now fmt np32 np64 LM dbg) fuel r w = (Ret (Some (x, v), s'), u', t) -> off_by (1 / 200) schwefel_doc x v.
Proof.
  exact (fun W write now fmt np32 np64 LM dbg fuel r w x v s' u' t Hw Hn => @particleswarm_schwefel_true W write now fmt np32 np64 LM dbg Hw Hn fuel r w x v s' u' t).
Qed.
Print Assumptions C105_particleswarm_schwefel.
Theorem C105_particleswarm_rosenbrock :
  forall (W : Type) (write : string -> comp W bool) (now : comp W Z) (fmt : formatter f32)
    (np32 : nan_policy 24 128) (np64 : nan_policy 53 1024) (dbg : bool) fuel r (w : W) x v s' u' t,
    accepts write -> ticks now ->
    (3000 < fuel)%nat -> pso_main np32 (@particleswarm_rosenbrock W write now fmt np32 np64 dbg) fuel r w = (Ret (Some (x, v), s'), u', t) -> root_right rosenbrock_real x v.
Proof.
  exact (fun W write now fmt np32 np64 dbg fuel r w x v s' u' t Hw Hn => @particleswarm_rosenbrock_true W write now fmt np32 np64 dbg Hw Hn fuel r w x v s' u' t).
Qed.
Print Assumptions C105_particleswarm_rosenbrock.

(** ** The hypotheses are met *)
Example C105_paraboloid_met :
  is_finite (@paraboloid f64 (FloatIEEE np64_default) ToF64_64 point64) = true /\
  ltb (b_of_Z 0) (@paraboloid f64 (FloatIEEE np64_default) ToF64_64 point64) = true /\
  is_finite (@paraboloid f32 (FloatIEEE np32_default) (ToF64_32 np64_default) point32) = true /\
  ltb (b_of_Z 0) (@paraboloid f32 (FloatIEEE np32_default) (ToF64_32 np64_default) point32) = true.
Proof. vm_compute. auto. Qed.
Example C105_rosenbrock_met : exists r s,
  @rosenbrock f64 (FloatIEEE np64_default) ToF64_64 point64 = Ret r /\ is_finite r = true /\ ltb (b_of_Z 0) r = true /\
  @rosenbrock f32 (FloatIEEE np32_default) (ToF64_32 np64_default) point32 = Ret s /\ is_finite s = true /\ ltb (b_of_Z 0) s = true.
Proof. do 2 eexists. refine (conj eq_refl _). split; [vm_compute; reflexivity|]. split; [vm_compute; reflexivity|]. refine (conj eq_refl _). split; vm_compute; reflexivity. Qed.
Example C105_points_met : Forall (within 2) point64 /\ Forall (within 2) point32.
Proof. exact points_within. Qed.
Example C105_trig_met :
  trig_near cos (1 / 10 ^ 6) (8 * 2) (fine (prec := 53) (emax := 1024) np64_default cos) /\
  trig_near sin (1 / 10 ^ 6) 2 (fine (prec := 53) (emax := 1024) np64_default sin) /\
  trig_near cos (1 / 10 ^ 6) 48 (@fcos f32 (fine_libm np32_default)) /\
  trig_near sin (1 / 10 ^ 6) 500 (@fsin f32 (fine_libm np32_default)).
Proof. exact (conj (proj1 (fine_64_near _)) (conj (proj2 (fine_64_near _)) (fine_libm_near _))). Qed.
(** A run that ends, for every stream. *)
Example C105_programs_met : forall r, exists x v p' u' t,
  ga_main (@genetic_schwefel unit discard (cret 0%Z) blank np32_default np64_default (fine_libm np32_default) true) 3001 r tt
    = (Ret (Some (x, v), p'), u', t) /\ off_by (1 / 25) schwefel_doc x v.
Proof. exact schwefel_run_met. Qed.
