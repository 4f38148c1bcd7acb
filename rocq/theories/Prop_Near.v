(** * Property C106: low values are found only near the documented minimum *)

From Coq Require Import List Arith ZArith Bool String Permutation Reals Lia Lra.
From Flocq Require Import Core IEEE754.BinarySingleNaN IEEE754.Binary.
From Verif Require Import Base FloatModel Rng GaModel PsoModel StopModel LogModel TestFuncModel ExampleModel StatProgramModel
  SpecReal SpecMean SpecSpeed SpecBox SpecTest SpecExample SpecStat SpecStatProgram SpecAccuracy SpecNear
  ExampleAsserts AccTest NearTest DemoTrig DemoFloats DemoExample DemoNear.
Import ListNotations.
Local Open Scope R_scope.

Notation parab np32 np64 := (fun x => Ret (@paraboloid f32 (FloatIEEE np32) (ToF64_32 np64) x)).
Notation schwef np32 np64 LM := (fun x => Ret (@schwefel f32 (FloatIEEE np32) LM (ToF64_32 np64) x)).
Notation rastr np32 np64 LM := (fun x => Ret (@rastrigin f32 (FloatIEEE np32) LM (ToF64_32 np64) x)).
Notation rosen np32 np64 := (@rosenbrock f32 (FloatIEEE np32) (ToF64_32 np64)).

(** ** Points of the boxes with low values *)
Theorem C106_paraboloid :
  forall (np32 : nan_policy 24 128) (np64 : nan_policy 53 1024) x v k,
    solves (parab np32 np64) (int_cube 5 (-100) 100) x v -> 0 <= k -> R64 v <= k² ->
    all_near (k + k / 10 ^ 6 + 1 / 10 ^ 19) staircase x.
Proof. exact paraboloid_box_low. Qed.
Print Assumptions C106_paraboloid.
Theorem C106_rosenbrock :
  forall (np32 : nan_policy 24 128) (np64 : nan_policy 53 1024) x v k,
    solves (rosen np32 np64) (int_cube 3 (-2) 2) x v -> 0 <= k <= 1 / 10 -> R64 v <= k² ->
    all_near (23 / 10 * (k + 1 / 10 ^ 5)) (everywhere 1) x.
Proof. exact rosenbrock_box_low. Qed.
Print Assumptions C106_rosenbrock.
Theorem C106_rastrigin :
  forall (np32 : nan_policy 24 128) (np64 : nan_policy 53 1024) (LM : Libm f32) d e x v s,
    trig_near cos (1 / 10 ^ 6) 48 (@fcos f32 LM) ->
    (d = 3%nat /\ e = 1 / 2000 \/ d = 30%nat /\ e = 1 / 100) ->
    solves (rastr np32 np64 LM) (cube d (decimal32 (-512) 2) (decimal32 512 2)) x v -> 0 <= s <= 1 / 2 -> R64 v <= s² - e ->
    all_near (s / 9) (everywhere 0) x.
Proof. exact (fun np32 np64 LM => @rastrigin_box_low np32 np64 LM). Qed.
Print Assumptions C106_rastrigin.
Theorem C106_schwefel :
  forall (np32 : nan_policy 24 128) (np64 : nan_policy 53 1024) (LM : Libm f32) d e x v s,
    trig_near sin (1 / 10 ^ 6) 500 (@fsin f32 LM) ->
    (d = 3%nat /\ e = 1 / 200 \/ d = 5%nat /\ e = 1 / 100 \/ d = 15%nat /\ e = 1 / 25) ->
    solves (schwef np32 np64 LM) (int_cube d (-500) 500) x v -> 0 <= s <= 1 -> R64 v <= s² - e ->
    all_near (313 / 100 * s + 1 / 10 ^ 4) (everywhere schwefel_answer) x.
Proof. exact (fun np32 np64 LM => @schwefel_box_low np32 np64 LM). Qed.
Print Assumptions C106_schwefel.

(** ** What the example programs report *)
Theorem C106_genetic_paraboloid :
  forall (W : Type) (write : string -> comp W bool) (now : comp W Z) (fmt : formatter f32)
    (np32 : nan_policy 24 128) (np64 : nan_policy 53 1024) (LM : Libm f32) (dbg : bool) fuel r (w : W) x v s' u' t,
    accepts write -> ticks now ->
    (3000 < fuel)%nat -> ga_main (@genetic_paraboloid W write now fmt np32 np64 LM dbg) fuel r w = (Ret (Some (x, v), s'), u', t) -> forall k, 0 <= k -> R64 v <= k² -> all_near (k + k / 10 ^ 6 + 1 / 10 ^ 19) staircase x.
Proof.
  exact (fun W write now fmt np32 np64 LM dbg fuel r w x v s' u' t Hw Hn => @genetic_paraboloid_low W write now fmt np32 np64 LM dbg Hw Hn fuel r w x v s' u' t).
Qed.
Print Assumptions C106_genetic_paraboloid.
Theorem C106_genetic_rastrigin :
  forall (W : Type) (write : string -> comp W bool) (now : comp W Z) (fmt : formatter f32)
    (np32 : nan_policy 24 128) (np64 : nan_policy 53 1024) (LM : Libm f32) (dbg : bool) fuel r (w : W) x v s' u' t,
    accepts write -> ticks now ->
    trig_near cos (1 / 10 ^ 6) 48 (@fcos f32 LM) -> (3000 < fuel)%nat -> ga_main (@genetic_rastrigin W write now fmt np32 np64 LM dbg) fuel r w = (Ret (Some (x, v), s'), u', t) -> forall s, 0 <= s <= 1 / 2 -> R64 v <= s² - 1 / 100 -> all_near (s / 9) (everywhere 0) x.
Proof.
  exact (fun W write now fmt np32 np64 LM dbg fuel r w x v s' u' t Hw Hn => @genetic_rastrigin_low W write now fmt np32 np64 LM dbg Hw Hn fuel r w x v s' u' t).
Qed.
Print Assumptions C106_genetic_rastrigin.
Theorem C106_genetic_schwefel :
  forall (W : Type) (write : string -> comp W bool) (now : comp W Z) (fmt : formatter f32)
    (np32 : nan_policy 24 128) (np64 : nan_policy 53 1024) (LM : Libm f32) (dbg : bool) fuel r (w : W) x v s' u' t,
    accepts write -> ticks now ->
    trig_near sin (1 / 10 ^ 6) 500 (@fsin f32 LM) -> (3000 < fuel)%nat -> ga_main (@genetic_schwefel W write now fmt np32 np64 LM dbg) fuel r w = (Ret (Some (x, v), s'), u', t) -> forall s, 0 <= s <= 1 -> R64 v <= s² - 1 / 25 -> all_near (313 / 100 * s + 1 / 10 ^ 4) (everywhere schwefel_answer) x.
Proof.
  exact (fun W write now fmt np32 np64 LM dbg fuel r w x v s' u' t Hw Hn => @genetic_schwefel_low W write now fmt np32 np64 LM dbg Hw Hn fuel r w x v s' u' t).
Qed.
Print Assumptions C106_genetic_schwefel.
Theorem C106_genetic_rosenbrock :
  forall (W : Type) (write : string -> comp W bool) (now : comp W Z) (fmt : formatter f32)
    (np32 : nan_policy 24 128) (np64 : nan_policy 53 1024) (LM : Libm f32) (dbg : bool) fuel r (w : W) x v s' u' t,
    accepts write -> ticks now ->
    ga_main (@genetic_rosenbrock W write now fmt np32 np64 LM dbg) fuel r w = (Ret (Some (x, v), s'), u', t) -> forall k, 0 <= k <= 1 / 10 -> R64 v <= k² -> all_near (23 / 10 * (k + 1 / 10 ^ 5)) (everywhere 1) x.
Proof.
  exact (fun W write now fmt np32 np64 LM dbg fuel r w x v s' u' t Hw Hn => @genetic_rosenbrock_low W write now fmt np32 np64 LM dbg Hw Hn fuel r w x v s' u' t).
Qed.
Print Assumptions C106_genetic_rosenbrock.
Theorem C106_particleswarm_paraboloid :
  forall (W : Type) (write : string -> comp W bool) (now : comp W Z) (fmt : formatter f32)
    (np32 : nan_policy 24 128) (np64 : nan_policy 53 1024) (dbg : bool) fuel r (w : W) x v s' u' t,
    accepts write -> ticks now ->
    (3000 < fuel)%nat -> pso_main np32 (@particleswarm_paraboloid W write now fmt np32 np64 dbg) fuel r w = (Ret (Some (x, v), s'), u', t) -> forall k, 0 <= k -> R64 v <= k² -> all_near (k + k / 10 ^ 6 + 1 / 10 ^ 19) staircase x.
Proof.
  exact (fun W write now fmt np32 np64 dbg fuel r w x v s' u' t Hw Hn => @particleswarm_paraboloid_low W write now fmt np32 np64 dbg Hw Hn fuel r w x v s' u' t).
Qed.
Print Assumptions C106_particleswarm_paraboloid.
Theorem C106_particleswarm_rastrigin :
  forall (W : Type) (write : string -> comp W bool) (now : comp W Z) (fmt : formatter f32)
    (np32 : nan_policy 24 128) (np64 : nan_policy 53 1024) (LM : Libm f32) (dbg : bool) fuel r (w : W) x v s' u' t,
    accepts write -> ticks now ->
    trig_near cos (1 / 10 ^ 6) 48 (@fcos f32 LM) -> (3000 < fuel)%nat -> pso_main np32 (@particleswarm_rastrigin W write now fmt np32 np64 LM dbg) fuel r w = (Ret (Some (x, v), s'), u', t) -> forall s, 0 <= s <= 1 / 2 -> R64 v <= s² - 1 / 2000 -> all_near (s / 9) (everywhere 0) x.
Proof.
  exact (fun W write now fmt np32 np64 LM dbg fuel r w x v s' u' t Hw Hn => @particleswarm_rastrigin_low W write now fmt np32 np64 LM dbg Hw Hn fuel r w x v s' u' t).
Qed.
Print Assumptions C106_particleswarm_rastrigin.
Theorem C106_particleswarm_schwefel :
  forall (W : Type) (write : string -> comp W bool) (now : comp W Z) (fmt : formatter f32)
    (np32 : nan_policy 24 128) (np64 : nan_policy 53 1024) (LM : Libm f32) (dbg : bool) fuel r (w : W) x v s' u' t,
    accepts write -> ticks now ->
    trig_near sin (1 / 10 ^ 6) 500 (@fsin f32 LM) -> (3000 < fuel)%nat -> pso_main np32 (@particleswarm_schwefel W write now fmt np32 np64 LM dbg) fuel r w = (Ret (Some (x, v), s'), u', t) -> forall s, 0 <= s <= 1 -> R64 v <= s² - 1 / 200 -> all_near (313 / 100 * s + 1 / 10 ^ 4) (everywhere schwefel_answer) x.
Proof.
  exact (fun W write now fmt np32 np64 LM dbg fuel r w x v s' u' t Hw Hn => @particleswarm_schwefel_low W write now fmt np32 np64 LM dbg Hw Hn fuel r w x v s' u' t).
Qed.
Print Assumptions C106_particleswarm_schwefel.
Theorem C106_particleswarm_rosenbrock :
  forall (W : Type) (write : string -> comp W bool) (now : comp W Z) (fmt : formatter f32)
    (np32 : nan_policy 24 128) (np64 : nan_policy 53 1024) (dbg : bool) fuel r (w : W) x v s' u' t,
    accepts write -> ticks now ->
    (3000 < fuel)%nat -> pso_main np32 (@particleswarm_rosenbrock W write now fmt np32 np64 dbg) fuel r w = (Ret (Some (x, v), s'), u', t) -> forall k, 0 <= k <= 1 / 10 -> R64 v <= k² -> all_near (23 / 10 * (k + 1 / 10 ^ 5)) (everywhere 1) x.
Proof.
  exact (fun W write now fmt np32 np64 dbg fuel r w x v s' u' t Hw Hn => @particleswarm_rosenbrock_low W write now fmt np32 np64 dbg Hw Hn fuel r w x v s' u' t).
Qed.
Print Assumptions C106_particleswarm_rosenbrock.

(** ** Runs with low values count as successful *)
Theorem C106_genetic_schwefel_count :
  forall (np32 : nan_policy 24 128) (np64 : nan_policy 53 1024) (LM : Libm f32) (dbg : bool) fuel,
    trig_near sin (1 / 10 ^ 6) 500 (@fsin f32 LM) -> (3000 < fuel)%nat -> always_counts_low np64 (decimal64 9 2) 1000 (@genetic_schwefel_statistics np32 np64 LM dbg fuel).
Proof. exact (fun np32 np64 LM dbg => @genetic_schwefel_count np32 np64 LM dbg). Qed.
Print Assumptions C106_genetic_schwefel_count.
Theorem C106_genetic_rosenbrock_count :
  forall (np32 : nan_policy 24 128) (np64 : nan_policy 53 1024) (LM : Libm f32) (dbg : bool) fuel,
    always_counts_low np64 (decimal64 1 5) 100 (@genetic_rosenbrock_statistics np32 np64 LM dbg fuel).
Proof. exact (fun np32 np64 LM dbg => @genetic_rosenbrock_count np32 np64 LM dbg). Qed.
Print Assumptions C106_genetic_rosenbrock_count.
Theorem C106_particleswarm_schwefel_count :
  forall (np32 : nan_policy 24 128) (np64 : nan_policy 53 1024) (LM : Libm f32) fuel,
    trig_near sin (1 / 10 ^ 6) 500 (@fsin f32 LM) -> (3000 < fuel)%nat -> always_counts_low np64 (decimal64 9 2) 1000 (@particleswarm_schwefel_statistics np32 np64 LM fuel).
Proof. exact (fun np32 np64 LM => @particleswarm_schwefel_count np32 np64 LM). Qed.
Print Assumptions C106_particleswarm_schwefel_count.
Theorem C106_particleswarm_rosenbrock_count :
  forall (np32 : nan_policy 24 128) (np64 : nan_policy 53 1024) (dbg : bool),
    exists B, forall fuel, (B < fuel)%nat ->
    always_counts_low np64 (decimal64 1 5) 1000 (@particleswarm_rosenbrock_statistics np32 np64 dbg fuel).
Proof. exact (fun np32 np64 dbg => @particleswarm_rosenbrock_count np32 np64 dbg). Qed.
Print Assumptions C106_particleswarm_rosenbrock_count.
Theorem C106_particleswarm_full_count :
  forall (np32 : nan_policy 24 128) (np64 : nan_policy 53 1024) (LM : Libm f32) (dbg : bool) fuel,
    trig_near sin (1 / 10 ^ 6) 500 (@fsin f32 LM) -> (1000 < fuel)%nat -> always_counts_low np64 (decimal64 9 2) 1000 (@particleswarm_schwefel_statistics_full np32 np64 LM dbg fuel).
Proof. exact (fun np32 np64 LM dbg => @particleswarm_full_count np32 np64 LM dbg). Qed.
Print Assumptions C106_particleswarm_full_count.
Theorem C106_schwefel_inertia_count :
  forall (np32 : nan_policy 24 128) (np64 : nan_policy 53 1024) (LM : Libm f32) (dbg : bool) fuel,
    trig_near sin (1 / 10 ^ 6) 500 (@fsin f32 LM) -> (400 < fuel)%nat -> always_counts_low np64 (decimal64 9 2) 1000 (@particleswarm_schwefel_statistics_inertia np32 np64 LM dbg fuel).
Proof. exact (fun np32 np64 LM dbg => @schwefel_inertia_count np32 np64 LM dbg). Qed.
Print Assumptions C106_schwefel_inertia_count.
Theorem C106_rastrigin_inertia_count :
  forall (np32 : nan_policy 24 128) (np64 : nan_policy 53 1024) (LM : Libm f32) (dbg : bool) fuel,
    trig_near cos (1 / 10 ^ 6) 48 (@fcos f32 LM) -> (400 < fuel)%nat -> always_counts_low np64 (decimal64 2 1) 1000 (@particleswarm_rastrigin_statistics_inertia np32 np64 LM dbg fuel).
Proof. exact (fun np32 np64 LM dbg => @rastrigin_inertia_count np32 np64 LM dbg). Qed.
Print Assumptions C106_rastrigin_inertia_count.
(** A swarm that stops before the last iteration has found the answer. *)
Theorem C106_early :
  forall (np32 : nan_policy 24 128) (np64 : nan_policy 53 1024) (LM : Libm f32) calls r,
    trig_near sin (1 / 10 ^ 6) 500 (@fsin f32 LM) ->
    good_run (schwef np32 np64 LM) (int_cube 3 (-500) 500) [Below (decimal64 1 8); After 3000] calls r ->
    (List.length (sr_row r) < 3000)%nat -> SpecStatProgram.near np32 (decimal32 4209687 4) (b_of_Z 1) r = true.
Proof. exact (fun np32 np64 LM => @early_success np32 np64 LM). Qed.
Print Assumptions C106_early.

(** ** The hypotheses are met *)
Example C106_paraboloid_met : exists v, solves (parab np32_default np64_default) (int_cube 5 (-100) 100) (map b_of_Z [1; 2; 3; 4; 6]%Z) v /\ R64 v <= 1².
Proof. exact paraboloid_low_met. Qed.
Example C106_rosenbrock_met :
  solves (rosen np32_default np64_default) (int_cube 3 (-2) 2) ones_near ones_value /\
  ltb (b_of_Z 0) ones_value = true /\ R64 ones_value <= (1 / 10)².
Proof. exact rosenbrock_low_met. Qed.
Example C106_rastrigin_met : exists v,
  solves (rastr np32_default np64_default (fine_libm np32_default)) (cube 3 (decimal32 (-512) 2) (decimal32 512 2)) [b_of_Z 0; b_of_Z 0; b_of_Z 0] v /\
  R64 v <= (4 / 100)² - 1 / 2000.
Proof. exact rastrigin_low_met. Qed.
Example C106_schwefel_met : exists v,
  solves (schwef np32_default np64_default (fine_libm np32_default)) (int_cube 3 (-500) 500) [answer32; answer32; answer32] v /\
  R64 v <= (15 / 100)² - 1 / 200.
Proof. exact schwefel_low_met. Qed.
(** The cosine and the sine of [fine_libm]. *)
Example C106_trig_met :
  trig_near cos (1 / 10 ^ 6) 48 (@fcos f32 (fine_libm np32_default)) /\ trig_near sin (1 / 10 ^ 6) 500 (@fsin f32 (fine_libm np32_default)).
Proof. exact (fine_libm_near _). Qed.
(** A run of an example program, for every stream. *)
Example C106_programs_met : forall r, exists x v s' u' t k,
  ga_main (@genetic_paraboloid unit discard (cret 0%Z) blank np32_default np64_default (fine_libm np32_default) true) 3001 r tt
    = (Ret (Some (x, v), s'), u', t) /\ 0 <= k /\ R64 v <= k².
Proof. exact paraboloid_run_met. Qed.
(** A run with a low value, and one that stopped early at a point with the computed value 0. *)
Example C106_run_met : exists r,
  good_run (schwef np32_default np64_default (fine_libm np32_default)) (int_cube 3 (-500) 500) [Quiet 50; After 400] (fun i c => c = (50 * (i + 1))%nat) r /\
  low (decimal64 9 2) r = true.
Proof. exact schwefel_early_met. Qed.
Example C106_early_met : exists r,
  good_run (schwef np32_default np64_default (fine_libm np32_default)) (int_cube 3 (-500) 500) [Below (decimal64 1 8); After 3000] (fun i c => c = (30 * (i + 1))%nat) r /\
  (List.length (sr_row r) < 3000)%nat.
Proof. exact early_met. Qed.
