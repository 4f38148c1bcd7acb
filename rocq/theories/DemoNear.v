(** * Solutions with low values *)

From Coq Require Import List Arith ZArith Bool Lia Reals Lra String.
From Flocq Require Import Core IEEE754.BinarySingleNaN IEEE754.Binary.
From Verif Require Import Base FloatModel FloatFacts ArithFacts Rng GaModel PsoModel StopModel LogModel TestFuncModel ExampleModel StatProgramModel
  SpecReal SpecMean SpecSpeed SpecBox SpecTest SpecExample SpecStat SpecStatProgram SpecAccuracy SpecNear
  SchwefelFacts StatFacts TestFacts RangeFacts ExampleFacts ExampleRuns ExampleAsserts AccFacts AccTest DemoFloats DemoExample DemoTrig DemoStatProgram.
Import ListNotations.
Local Open Scope R_scope.

Notation schwef_fine := (fun x => Ret (@schwefel f32 (FloatIEEE np32_default) (fine_libm np32_default) (ToF64_32 np64_default) x)).
Notation rastr_fine := (fun x => Ret (@rastrigin f32 (FloatIEEE np32_default) (fine_libm np32_default) (ToF64_32 np64_default) x)).

Definition answer32 : f32 := decimal32 4209687 4.
Lemma answer32_value : R32 answer32 = 13794302 / 32768.
Proof.
  assert (E : Binary.B2FF 24 128 answer32 = Binary.F754_finite false 13794302 (-15)) by (vm_compute; reflexivity).
  rewrite <- Binary.FF2R_B2FF, E. unfold Binary.FF2R, F2R. cbn [Fnum Fexp cond_Zopp].
  change (bpow radix2 (-15)) with (/ IZR (2 ^ 15)). simpl Z.pow. lra.
Qed.
Lemma peak_value32 : 4189829 / 10 ^ 4 - 1 / 10 ^ 3 <= 13794302 / 32768 * sin (sqrt (13794302 / 32768)).
Proof.
  pose proof pi_bounds as PB.
  set (t := sqrt (13794302 / 32768)). assert (T2 : t * t = 13794302 / 32768) by (apply sqrt_sqrt; lra).
  assert (T0 : 0 <= t) by apply sqrt_pos.
  assert (T : 20517521 / 10 ^ 6 <= t <= 20517522 / 10 ^ 6) by (split; apply le_of_squares; lra).
  set (d := t - 13 * (PI / 2)).
  replace t with (13 * (PI / 2) + d) by (unfold d; lra). rewrite sin_shift.
  assert (D : 97168 / 10 ^ 6 <= d <= 97171 / 10 ^ 6) by (unfold d; lra).
  pose proof (cos_lower d ltac:(lra)) as L.
  assert (D2 := square_between (97168 / 10 ^ 6) (97171 / 10 ^ 6) d ltac:(lra) D).
  assert (D4 := square_between (97168 / 10 ^ 6 * (97168 / 10 ^ 6)) (97171 / 10 ^ 6 * (97171 / 10 ^ 6)) (d * d) ltac:(lra) D2).
  assert (D6 := Rmult_le_compat (d * d * (d * d)) _ (d * d) _ ltac:(lra) ltac:(lra) (proj2 D4) (proj2 D2)).
  lra.
Qed.
Lemma schwefel_low_met : exists v, solves schwef_fine (int_cube 3 (-500) 500) [answer32; answer32; answer32] v /\
  R64 v <= (15 / 100)² - 1 / 200.
Proof.
  destruct (fine_libm_near np32_default) as [_ N].
  assert (B : in_box (int_cube 3 (-500) 500) [answer32; answer32; answer32]) by (repeat constructor; vm_compute; reflexivity).
  destruct (@ExampleRuns.schwefel_box np32_default np64_default (fine_libm np32_default) 3 _ ltac:(lia) (proj1 N) B) as (v & E & F).
  assert (S : solves schwef_fine (int_cube 3 (-500) 500) [answer32; answer32; answer32] v) by (exact (conj B (conj E F))).
  exists v.
  refine (conj S _). pose proof (schwefel_true np32_default np64_default 3 (1 / 200) _ _ N ltac:(auto) S) as T.
  unfold off_by in T. apply Rabs_le_inv in T.
  assert (D : schwefel_doc (map R32 [answer32; answer32; answer32]) <= 3 / 10 ^ 3).
  { cbn [map]. rewrite answer32_value. unfold schwefel_doc, real_sum. cbn [map fold_left fold_right]. rewrite Rabs_pos_eq by lra. pose proof peak_value32. lra. }
  unfold Rsqr. lra.
Qed.
Lemma rastrigin_low_met : exists v, solves rastr_fine (cube 3 (decimal32 (-512) 2) (decimal32 512 2)) [b_of_Z 0; b_of_Z 0; b_of_Z 0] v /\
  R64 v <= (4 / 100)² - 1 / 2000.
Proof.
  destruct (fine_libm_near np32_default) as [N _].
  assert (B : in_box (cube 3 (decimal32 (-512) 2) (decimal32 512 2)) [b_of_Z 0; b_of_Z 0; b_of_Z 0]) by (repeat constructor; vm_compute; reflexivity).
  destruct (@ExampleRuns.rastrigin_box np32_default np64_default (fine_libm np32_default) 3 _ ltac:(lia) (proj1 N) B) as (v & E & F).
  assert (S : solves rastr_fine (cube 3 (decimal32 (-512) 2) (decimal32 512 2)) [b_of_Z 0; b_of_Z 0; b_of_Z 0] v) by (exact (conj B (conj E F))).
  exists v.
  refine (conj S _). pose proof (rastrigin_true np32_default np64_default 3 (1 / 2000) _ _ N ltac:(auto) S) as T.
  unfold off_by in T. apply Rabs_le_inv in T.
  assert (D : rastrigin_doc (map R32 [b_of_Z 0; b_of_Z 0; b_of_Z 0]) = 0).
  { cbn [map]. destruct (of_Z_exact (prec := 24) (emax := 128) 0 ltac:(lia)) as [_ Z0]. rewrite Z0.
    unfold rastrigin_doc, real_sum. cbn [map fold_left fold_right]. rewrite Rmult_0_r, cos_0. unfold Rsqr. lra. }
  unfold Rsqr. lra.
Qed.

Definition ones_near : list f32 := [b_of_Z 1; b_of_Z 1; decimal32 1001 3].
Definition ones_value : f64 :=
  match @rosenbrock f32 (FloatIEEE np32_default) (ToF64_32 np64_default) ones_near with Ret v => v | _ => b_of_Z 0 end.
Lemma rosenbrock_low_met :
  solves (@rosenbrock f32 (FloatIEEE np32_default) (ToF64_32 np64_default)) (int_cube 3 (-2) 2) ones_near ones_value /\
  ltb (b_of_Z 0) ones_value = true /\ R64 ones_value <= (1 / 10)².
Proof.
  assert (F : is_finite ones_value = true) by (vm_compute; reflexivity).
  split; [|split; [vm_compute; reflexivity|]].
  - split; [repeat constructor; vm_compute; reflexivity|]. split; [|exact F]. unfold ones_value.
    assert (R : match @rosenbrock f32 (FloatIEEE np32_default) (ToF64_32 np64_default) ones_near with Ret _ => true | _ => false end = true) by (vm_compute; reflexivity).
    revert R. destruct (@rosenbrock f32 (FloatIEEE np32_default) (ToF64_32 np64_default) ones_near); [reflexivity|discriminate|discriminate].
  - assert (L : leb ones_value (decimal64 1 3) = true) by (vm_compute; reflexivity).
    apply leb_key in L. destruct L as (_ & _ & L). rewrite !key_finite in L; [|vm_compute; reflexivity|exact F].
    assert (K : R64 (decimal64 1 3) <= 11 / 10 ^ 4).
    { rewrite (B2R_of_FF (decimal64 1 3) 4611686018427388 (-62)) by (vm_compute; reflexivity).
      change (bpow radix2 (-62)) with (/ IZR (2 ^ 62)). simpl Z.pow. lra. }
    unfold Rsqr. lra.
Qed.
(** For every stream. *)
Lemma paraboloid_run_met r : exists x v s' u' t k,
  ga_main (@genetic_paraboloid unit discard (cret 0%Z) blank np32_default np64_default (fine_libm np32_default) true) 3001 r tt
    = (Ret (Some (x, v), s'), u', t) /\ 0 <= k /\ R64 v <= k².
Proof.
  destruct (@genetic_paraboloid_ends unit discard (cret 0%Z) blank np32_default np64_default (fine_libm np32_default) true
    discard_accepts zero_ticks 3001 r tt ltac:(lia)) as (x & v & p' & u' & t & Run & _).
  exists x, v, p', u', t, (sqrt (Rabs (R64 v))). refine (conj Run _). split; [apply sqrt_pos|].
  rewrite Rsqr_sqrt by apply Rabs_pos. apply Rle_abs.
Qed.
(** The paraboloid near its minimum. *)
Lemma paraboloid_low_met : exists v, solves (fun x => Ret (@paraboloid f32 (FloatIEEE np32_default) (ToF64_32 np64_default) x)) (int_cube 5 (-100) 100)
  (map b_of_Z [1; 2; 3; 4; 6]%Z) v /\ R64 v <= 1².
Proof.
  assert (B : in_box (int_cube 5 (-100) 100) (map b_of_Z [1; 2; 3; 4; 6]%Z)) by (repeat constructor; vm_compute; reflexivity).
  assert (F : is_finite (@paraboloid f32 (FloatIEEE np32_default) (ToF64_32 np64_default) (map b_of_Z [1; 2; 3; 4; 6]%Z)) = true) by (vm_compute; reflexivity).
  assert (L : leb (@paraboloid f32 (FloatIEEE np32_default) (ToF64_32 np64_default) (map b_of_Z [1; 2; 3; 4; 6]%Z)) (b_of_Z 1) = true) by (vm_compute; reflexivity).
  exists (@paraboloid f32 (FloatIEEE np32_default) (ToF64_32 np64_default) (map b_of_Z [1; 2; 3; 4; 6]%Z)).
  split; [exact (conj B (conj eq_refl F))|]. apply leb_key in L. destruct L as (_ & _ & L). rewrite !key_finite in L; [|vm_compute; reflexivity|exact F].
  destruct (of_Z_exact (prec := 53) (emax := 1024) 1 ltac:(lia)) as [_ E]. rewrite E in L. unfold Rsqr. lra.
Qed.
(** A run of the Schwefel program that stopped early. *)
Lemma schwefel_early_met : exists r, good_run schwef_fine (int_cube 3 (-500) 500) [Quiet 50; After 400] (fun i c => c = (50 * (i + 1))%nat) r /\
  low (decimal64 9 2) r = true.
Proof.
  destruct schwefel_low_met as (v & S & L).
  exists (StatRun ([answer32; answer32; answer32], v) (repeat ([answer32; answer32; answer32], v) 60) 3050).
  split; [|unfold low; cbn [sr_point snd]].
  - split; [exact S|]. split; [left; cbn; lia|]. split; [|split; reflexivity].
    intros k [E|[E|[]]]; [discriminate E|]. injection E as <-. cbn. lia.
  - apply leb_key. destruct S as (_ & _ & Fv). split; [now apply finite_not_nan|]. split; [vm_compute; reflexivity|].
    rewrite !key_finite; [|vm_compute; reflexivity|exact Fv].
    assert (K : 899 / 10 ^ 4 <= R64 (decimal64 9 2)).
    { rewrite (B2R_of_FF (decimal64 9 2) 6485183463413514 (-56)) by (vm_compute; reflexivity).
      change (bpow radix2 (-56)) with (/ IZR (2 ^ 56)). simpl Z.pow. lra. }
    unfold Rsqr in L. lra.
Qed.

(** A point at which the computed Schwefel function is 0. *)
Definition zero32 : f32 := b_div np32_default (b_of_Z 13794205) (b_of_Z 32768).
Lemma zero_root : Binary.B2R 24 128 (@fsqrt f32 (FloatIEEE np32_default) (@fabs f32 (FloatIEEE np32_default) zero32)) = 10757052 / 524288.
Proof.
  assert (E : Binary.B2FF 24 128 (@fsqrt f32 (FloatIEEE np32_default) (@fabs f32 (FloatIEEE np32_default) zero32)) = Binary.F754_finite false 10757052 (-19)) by (vm_compute; reflexivity).
  rewrite <- Binary.FF2R_B2FF, E. unfold Binary.FF2R, F2R. cbn [Fnum Fexp cond_Zopp].
  change (bpow radix2 (-19)) with (/ IZR (2 ^ 19)). simpl Z.pow. lra.
Qed.
Lemma zero_sine : Zfloor (4194304 * sin (10757052 / 524288)) = 4174548%Z.
Proof.
  pose proof pi_bounds as PB. set (d := 10757052 / 524288 - 13 * (PI / 2)).
  replace (10757052 / 524288) with (13 * (PI / 2) + d) by (unfold d; lra). rewrite sin_shift.
  assert (D : 970961 / 10 ^ 7 <= d <= 970963 / 10 ^ 7) by (unfold d; lra).
  pose proof (cos_lower d ltac:(lra)) as L. pose proof (cos_upper d ltac:(lra)) as U.
  assert (D2 := square_between (970961 / 10 ^ 7) (970963 / 10 ^ 7) d ltac:(lra) D).
  assert (D4 := square_between (970961 / 10 ^ 7 * (970961 / 10 ^ 7)) (970963 / 10 ^ 7 * (970963 / 10 ^ 7)) (d * d) ltac:(lra) D2).
  assert (D6 := Rmult_le_compat (d * d * (d * d)) _ (d * d) _ ltac:(lra) ltac:(lra) (proj2 D4) (proj2 D2)).
  apply Zfloor_imp. rewrite plus_IZR. lra.
Qed.
Lemma zero_value : @schwefel f32 (FloatIEEE np32_default) (fine_libm np32_default) (ToF64_32 np64_default) [zero32; zero32; zero32] = b_of_Z 0.
Proof.
  assert (E : @fsin f32 (fine_libm np32_default) (@fsqrt f32 (FloatIEEE np32_default) (@fabs f32 (FloatIEEE np32_default) zero32)) = b_div np32_default (b_of_Z 4174548) (b_of_Z 4194304)).
  { unfold fsin, fine_libm, fine. rewrite zero_root, zero_sine. reflexivity. }
  unfold schwefel, schwefel_g. cbn [fold_left List.length]. rewrite E. vm_compute. reflexivity.
Qed.
Lemma early_met : exists r,
  good_run schwef_fine (int_cube 3 (-500) 500) [Below (decimal64 1 8); After 3000] (fun i c => c = (30 * (i + 1))%nat) r /\
  (List.length (sr_row r) < 3000)%nat.
Proof.
  exists (StatRun ([zero32; zero32; zero32], b_of_Z 0) [([b_of_Z 0; b_of_Z 0; b_of_Z 0], b_of_Z 1000); ([zero32; zero32; zero32], b_of_Z 0)] 90).
  split; [|cbn; lia]. split; [|split; [|split; [|split; reflexivity]]].
  - split; [repeat constructor; vm_compute; reflexivity|]. split; [|vm_compute; reflexivity]. exact (f_equal Ret zero_value).
  - left. vm_compute. reflexivity.
  - intros k [E|[E|[]]]; [discriminate E|]. injection E as <-. cbn. lia.
Qed.
