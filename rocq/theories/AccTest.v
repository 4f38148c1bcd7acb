(** * Accuracy of the computed test functions in f64 and f32, and in the example programs *)

From Coq Require Import List Arith ZArith Bool String Reals Lia Lra Psatz Machin.
From Flocq Require Import Core IEEE754.BinarySingleNaN IEEE754.Binary.
From Verif Require Import Base FloatModel Rng GaModel PsoModel StopModel LogModel TestFuncModel ExampleModel
  FloatFacts ArithFacts SatFacts SpecReal SpecStat SpecMean SpecSpeed SpecBox SpecTest
  SpecExample SpecAccuracy StatFacts CreateFacts TestFacts RangeFacts SumFacts SpeedFacts AccFacts SchwefelFacts ExampleRuns ExampleAsserts.
Import ListNotations.
Local Open Scope R_scope.

(** ** The constants *)
Lemma wave_exact_64 (np : nan_policy 53 1024) :
  Binary.B2R 53 1024 (b_mul np (b_of_Z 2) (@fof_f64 f64 (FloatIEEE np) pi_const)) = 2 * Binary.B2R 53 1024 pi_const.
Proof.
  rewrite (B2R_of_FF _ 7074237752028433 (-50)) by (vm_compute; reflexivity).
  rewrite (B2R_of_FF pi_const 7074237752028433 (-51)) by (vm_compute; reflexivity).
  change (bpow radix2 (-50)) with (/ IZR (2 ^ 50)). change (bpow radix2 (-51)) with (/ IZR (2 ^ 51)). simpl Z.pow. lra.
Qed.
Lemma wave_near_32 (np : nan_policy 24 128) :
  Rabs (Binary.B2R 24 128 (b_mul np (b_of_Z 2) (@fof_f64 f32 (FloatIEEE np) pi_const)) - 2 * Binary.B2R 53 1024 pi_const) <= 8 * bpow radix2 (- 24).
Proof.
  assert (E : Binary.B2FF 24 128 (b_mul np (b_of_Z 2) (@fof_f64 f32 (FloatIEEE np) pi_const)) =
              Binary.F754_finite false 13176795 (-21)) by (vm_compute; reflexivity).
  rewrite <- Binary.FF2R_B2FF, E. unfold Binary.FF2R, F2R. cbn [Fnum Fexp cond_Zopp].
  rewrite (B2R_of_FF pi_const 7074237752028433 (-51)) by (vm_compute; reflexivity).
  change (bpow radix2 (-21)) with (/ IZR (2 ^ 21)). change (bpow radix2 (-51)) with (/ IZR (2 ^ 51)).
  change (bpow radix2 (- 24)) with (/ IZR (2 ^ 24)). simpl Z.pow. apply Rabs_le. lra.
Qed.
Lemma schwefel_exact_64 (np : nan_policy 53 1024) : @fof_f64 f64 (FloatIEEE np) schwefel_const = schwefel_const.
Proof. same_float. Qed.
Lemma schwefel_near_32 (np : nan_policy 24 128) :
  Rabs (Binary.B2R 24 128 (@fof_f64 f32 (FloatIEEE np) schwefel_const) - Binary.B2R 53 1024 schwefel_const) <= 419 * bpow radix2 (- 24).
Proof.
  assert (E : Binary.B2FF 24 128 (@fof_f64 f32 (FloatIEEE np) schwefel_const) =
              Binary.F754_finite false 13729232 (-15)) by (vm_compute; reflexivity).
  rewrite <- Binary.FF2R_B2FF, E. unfold Binary.FF2R, F2R. cbn [Fnum Fexp cond_Zopp].
  rewrite (B2R_of_FF schwefel_const 7370825126228944 (-44)) by (vm_compute; reflexivity).
  change (bpow radix2 (-15)) with (/ IZR (2 ^ 15)). change (bpow radix2 (-44)) with (/ IZR (2 ^ 44)).
  change (bpow radix2 (- 24)) with (/ IZR (2 ^ 24)). simpl Z.pow. apply Rabs_le. lra.
Qed.
Lemma conv_finite (np : f32 -> a_nan 53 1024) (x : f32) : is_finite (fconv np x : f64) = true -> is_finite x = true.
Proof.
  intros H. destruct x as [s|s|s pl h|s m e h]; try reflexivity; [discriminate|].
  pose proof (fconv_nan np (B754_nan s pl h)) as N. destruct (fconv np (B754_nan s pl h)); discriminate.
Qed.


(** ** The two types *)
Notation R64 := (Binary.B2R 53 1024).
Notation R32 := (Binary.B2R 24 128).
Lemma paraboloid_close_64 (np : nan_policy 53 1024) (x : list f64) :
  let r := @paraboloid f64 (FloatIEEE np) ToF64_64 x in
  (Z.of_nat (List.length x) <= 2 ^ 53)%Z -> is_finite r = true ->
  0 <= R64 r /\ close 53 (List.length x + 3) (INR (List.length x) * tiny 53 1024) (R64 r) (paraboloid_real (map R64 x)).
Proof. intros r L H. apply (paraboloid_close np ltac:(lia) (lit_64 np) ltac:(lia) x L H). Qed.
Lemma paraboloid_close_32 (np : nan_policy 24 128) (np64 : nan_policy 53 1024) (x : list f32) :
  let r := @paraboloid f32 (FloatIEEE np) (ToF64_32 np64) x in
  (Z.of_nat (List.length x) <= 2 ^ 24)%Z -> is_finite r = true ->
  0 <= R64 r /\ close 24 (List.length x + 3) (INR (List.length x) * tiny 24 128) (R64 r) (paraboloid_real (map R32 x)).
Proof.
  intros r L H. apply conv_finite in H. destruct (fconv_32_64 (np_of32 np64) _ H) as [_ E].
  change (R64 r = R32 (@paraboloid_g f32 (FloatIEEE np) x)) in E. rewrite E.
  apply (paraboloid_close np ltac:(lia) (lit_32 np) ltac:(lia) x L H).
Qed.
Lemma rosenbrock_close_64 (np : nan_policy 53 1024) (x : list f64) b r :
  @rosenbrock f64 (FloatIEEE np) ToF64_64 x = Ret r -> Forall (fun v => Rabs (R64 v) <= b) x -> is_finite r = true ->
  0 <= R64 r /\ close 53 (List.length x + 1) (rosenbrock_slack 53 1024 (List.length x - 1) b) (sqrt (R64 r)) (sqrt (rosenbrock_real (map R64 x))).
Proof.
  intros E Hb H. assert (Nx : x <> []) by (intros ->; discriminate).
  unfold rosenbrock in E. destruct (@rosenbrock_g f64 (FloatIEEE np) x) as [g| |] eqn:G; try discriminate. injection E as <-.
  apply (rosenbrock_close np ltac:(lia) (lit_64 np) ltac:(lia) x g b Nx Hb G H).
Qed.
Lemma rosenbrock_close_32 (np : nan_policy 24 128) (np64 : nan_policy 53 1024) (x : list f32) b r :
  @rosenbrock f32 (FloatIEEE np) (ToF64_32 np64) x = Ret r -> Forall (fun v => Rabs (R32 v) <= b) x -> is_finite r = true ->
  0 <= R64 r /\ close 24 (List.length x + 1) (rosenbrock_slack 24 128 (List.length x - 1) b) (sqrt (R64 r)) (sqrt (rosenbrock_real (map R32 x))).
Proof.
  intros E Hb H. assert (Nx : x <> []) by (intros ->; discriminate).
  unfold rosenbrock in E. destruct (@rosenbrock_g f32 (FloatIEEE np) x) as [g| |] eqn:G; try discriminate. injection E as <-.
  apply conv_finite in H. destruct (fconv_32_64 (np_of32 np64) _ H) as [_ E].
  change (R64 (to_f64 (ToF64 := ToF64_32 np64) g) = R32 g) in E. rewrite E.
  apply (rosenbrock_close np ltac:(lia) (lit_32 np) ltac:(lia) x g b Nx Hb G H).
Qed.
Lemma rastrigin_literal_64 (np : nan_policy 53 1024) (LM : Libm f64) (b : Z) e (x : list f64) :
  trig_near cos e (8 * IZR b) (@fcos f64 LM) -> Forall (within b) x -> (0 <= b)%Z ->
  (8 * b <= 2 ^ 53)%Z -> (Z.of_nat (List.length x) * (b ^ 2 + 20) <= 2 ^ 53)%Z ->
  Rabs (R64 (@rastrigin f64 (FloatIEEE np) LM ToF64_64 x) - rastrigin_real (map R64 x)) <= rastrigin_rounding 53 1024 (List.length x) (IZR b) e.
Proof.
  intros C H B L1 L2. apply (rastrigin_accurate np ltac:(lia) (lit_64 np) ltac:(lia) b e B (wave_64 np)); auto.
  rewrite wave_exact_64, Rminus_diag_eq, Rabs_R0 by reflexivity. apply Rmult_le_pos; [lra|apply bpow_ge_0].
Qed.
Lemma rastrigin_literal_32 (np : nan_policy 24 128) (np64 : nan_policy 53 1024) (LM : Libm f32) (b : Z) e (x : list f32) :
  trig_near cos e (8 * IZR b) (@fcos f32 LM) -> Forall (within b) x -> (0 <= b)%Z ->
  (8 * b <= 2 ^ 24)%Z -> (Z.of_nat (List.length x) * (b ^ 2 + 20) <= 2 ^ 24)%Z ->
  Rabs (R64 (@rastrigin f32 (FloatIEEE np) LM (ToF64_32 np64) x) - rastrigin_real (map R32 x)) <= rastrigin_rounding 24 128 (List.length x) (IZR b) e.
Proof.
  intros C H B L1 L2.
  pose proof (rastrigin_within np (lit_32 np) ltac:(lia) b x (wave_32 np) (proj1 C) H L1 L2) as [W _].
  destruct (fconv_32_64 (np_of32 np64) _ W) as [_ E].
  change (R64 (@rastrigin f32 (FloatIEEE np) LM (ToF64_32 np64) x) = R32 (@rastrigin_g f32 (FloatIEEE np) LM x)) in E. rewrite E.
  apply (rastrigin_accurate np ltac:(lia) (lit_32 np) ltac:(lia) b e B (wave_32 np) (wave_near_32 np)); auto.
Qed.
Lemma schwefel_literal_64 (np : nan_policy 53 1024) (LM : Libm f64) (b : Z) e (x : list f64) :
  trig_near sin e (IZR b) (@fsin f64 LM) -> Forall (within b) x -> (0 <= b)%Z ->
  (Z.of_nat (List.length x) * (b + 419) <= 2 ^ 53)%Z ->
  Rabs (R64 (@schwefel f64 (FloatIEEE np) LM ToF64_64 x) - schwefel_real (map R64 x)) <= schwefel_rounding 53 1024 (List.length x) (IZR b) e.
Proof.
  intros C H B L1. apply (schwefel_accurate np ltac:(lia) ltac:(lia) b e B (schwefel_64_const np)); auto.
  rewrite schwefel_exact_64, Rminus_diag_eq, Rabs_R0 by reflexivity. apply Rmult_le_pos; [lra|apply bpow_ge_0].
Qed.
Lemma schwefel_literal_32 (np : nan_policy 24 128) (np64 : nan_policy 53 1024) (LM : Libm f32) (b : Z) e (x : list f32) :
  trig_near sin e (IZR b) (@fsin f32 LM) -> Forall (within b) x -> (0 <= b)%Z ->
  (Z.of_nat (List.length x) * (b + 419) <= 2 ^ 24)%Z ->
  Rabs (R64 (@schwefel f32 (FloatIEEE np) LM (ToF64_32 np64) x) - schwefel_real (map R32 x)) <= schwefel_rounding 24 128 (List.length x) (IZR b) e.
Proof.
  intros C H B L1.
  pose proof (schwefel_within np ltac:(lia) b x (schwefel_32_const np) (proj1 C) H L1) as [W _].
  destruct (fconv_32_64 (np_of32 np64) _ W) as [_ E].
  change (R64 (@schwefel f32 (FloatIEEE np) LM (ToF64_32 np64) x) = R32 (@schwefel_g f32 (FloatIEEE np) LM x)) in E. rewrite E.
  apply (schwefel_accurate np ltac:(lia) ltac:(lia) b e B (schwefel_32_const np) (schwefel_near_32 np)); auto.
Qed.


(** ** The literals *)
Lemma pi_bounds : 314159265358979 / 10 ^ 14 <= PI <= 314159265358980 / 10 ^ 14.
Proof.
  pose proof (PI_2_3_7_ineq 8) as [L U].
  unfold sum_f_R0, tg_alt, PI_2_3_7_tg, Ratan_seq in L, U.
  cbn [Nat.mul Nat.add] in L, U. rewrite !INR_IZR_INZ in L, U. cbn [Z.of_nat Pos.of_succ_nat Pos.succ] in L, U.
  replace (INR 35) with 35 in * by (simpl; ring).
  split; lra.
Qed.
Lemma pi_literal : Rabs (Binary.B2R 53 1024 pi_const - PI) <= 2 / 10 ^ 14.
Proof.
  rewrite (B2R_of_FF pi_const 7074237752028433 (-51)) by (vm_compute; reflexivity).
  change (bpow radix2 (-51)) with (/ IZR (2 ^ 51)). simpl Z.pow. pose proof pi_bounds. apply Rabs_le. lra.
Qed.
Lemma schwefel_decimal : Rabs (Binary.B2R 53 1024 schwefel_const - 4189829 / 10 ^ 4) <= 1 / 10 ^ 13.
Proof.
  rewrite (B2R_of_FF schwefel_const 7370825126228944 (-44)) by (vm_compute; reflexivity).
  change (bpow radix2 (-44)) with (/ IZR (2 ^ 44)). simpl Z.pow. apply Rabs_le. lra.
Qed.
Lemma abs_via (m a b k l : R) : Rabs (a - m) <= k -> Rabs (m - b) <= l -> Rabs (a - b) <= k + l.
Proof. intros H1 H2. apply Rabs_le_inv in H1. apply Rabs_le_inv in H2. apply Rabs_le. lra. Qed.
Lemma sums_near (f g : R -> R) k (x : list R) : (forall a, In a x -> Rabs (f a - g a) <= k) ->
  Rabs (real_sum (map f x) - real_sum (map g x)) <= INR (List.length x) * k.
Proof.
  induction x as [|a x IH]; intros H; [simpl; rewrite Rminus_diag_eq, Rabs_R0 by reflexivity; lra|].
  cbn [map real_sum fold_right List.length]. rewrite S_INR.
  pose proof (H a (or_introl eq_refl)) as A. specialize (IH (fun b Hb => H b (or_intror Hb))). unfold real_sum in IH.
  apply Rabs_le_inv in A. apply Rabs_le_inv in IH. apply Rabs_le. lra.
Qed.
Lemma rastrigin_doc_near (x : list R) b : Forall (fun a => Rabs a <= b) x ->
  Rabs (rastrigin_real x - rastrigin_doc x) <= INR (List.length x) * (40 * b / 10 ^ 14).
Proof.
  intros H. apply sums_near. intros a Ha. rewrite Forall_forall in H. specialize (H a Ha).
  set (p := Binary.B2R 53 1024 pi_const).
  pose proof (cos_lip (2 * PI * a) (2 * p * a)) as L.
  replace (2 * PI * a - 2 * p * a) with (2 * ((PI - p) * a)) in L by ring.
  rewrite !Rabs_mult, (Rabs_pos_eq 2) in L by lra.
  assert (K : Rabs (PI - p) * Rabs a <= (2 / 10 ^ 14) * b).
  { apply Rmult_le_compat; try apply Rabs_pos; [rewrite Rabs_minus_sym; exact pi_literal|exact H]. }
  apply Rabs_le_inv in L. apply Rabs_le. lra.
Qed.
Lemma schwefel_doc_near (x : list R) b : Forall (fun a => Rabs a <= b) x ->
  Rabs (schwefel_real x - schwefel_doc x) <= INR (List.length x) * (1 / 10 ^ 13).
Proof.
  intros _. apply sums_near. intros a _. pose proof schwefel_decimal as L. apply Rabs_le_inv in L. apply Rabs_le. lra.
Qed.
Lemma within_all {prec emax} b (x : list (bfloat prec emax)) : Forall (within b) x ->
  Forall (fun a => Rabs a <= IZR b) (map (Binary.B2R prec emax) x).
Proof. intros H. rewrite Forall_map. eapply Forall_impl; [|exact H]. intros a [_ A]. exact A. Qed.
Lemma add_share n a c : n * a + n * c = n * (a + c).
Proof. ring. Qed.
Lemma rastrigin_accurate_64 (np : nan_policy 53 1024) (LM : Libm f64) (b : Z) e (x : list f64) :
  trig_near cos e (8 * IZR b) (@fcos f64 LM) -> Forall (within b) x -> (0 <= b)%Z ->
  (8 * b <= 2 ^ 53)%Z -> (Z.of_nat (List.length x) * (b ^ 2 + 20) <= 2 ^ 53)%Z ->
  Rabs (R64 (@rastrigin f64 (FloatIEEE np) LM ToF64_64 x) - rastrigin_doc (map R64 x)) <= rastrigin_error 53 1024 (List.length x) (IZR b) e.
Proof.
  intros C H. intros. unfold rastrigin_error.
  eapply Rle_trans; [apply (abs_via (rastrigin_real (map R64 x))); [apply (rastrigin_literal_64 np LM b e); auto|apply (rastrigin_doc_near _ (IZR b)); apply within_all; exact H]|].
  rewrite map_length. unfold rastrigin_rounding. rewrite add_share. apply Rmult_le_compat_l; [apply pos_INR|]. generalize (roundoff (prec := 24)) (roundoff (prec := 53)). intros; set (q := _ ^ 14); set (y := _ / q). lra.
Qed.
Lemma rastrigin_accurate_32 (np : nan_policy 24 128) (np64 : nan_policy 53 1024) (LM : Libm f32) (b : Z) e (x : list f32) :
  trig_near cos e (8 * IZR b) (@fcos f32 LM) -> Forall (within b) x -> (0 <= b)%Z ->
  (8 * b <= 2 ^ 24)%Z -> (Z.of_nat (List.length x) * (b ^ 2 + 20) <= 2 ^ 24)%Z ->
  Rabs (R64 (@rastrigin f32 (FloatIEEE np) LM (ToF64_32 np64) x) - rastrigin_doc (map R32 x)) <= rastrigin_error 24 128 (List.length x) (IZR b) e.
Proof.
  intros C H. intros. unfold rastrigin_error.
  eapply Rle_trans; [apply (abs_via (rastrigin_real (map R32 x))); [apply (rastrigin_literal_32 np np64 LM b e); auto|apply (rastrigin_doc_near _ (IZR b)); apply within_all; exact H]|].
  rewrite map_length. unfold rastrigin_rounding. rewrite add_share. apply Rmult_le_compat_l; [apply pos_INR|]. generalize (roundoff (prec := 24)) (roundoff (prec := 53)). intros; set (q := _ ^ 14); set (y := _ / q). lra.
Qed.
Lemma schwefel_accurate_64 (np : nan_policy 53 1024) (LM : Libm f64) (b : Z) e (x : list f64) :
  trig_near sin e (IZR b) (@fsin f64 LM) -> Forall (within b) x -> (0 <= b)%Z ->
  (Z.of_nat (List.length x) * (b + 419) <= 2 ^ 53)%Z ->
  Rabs (R64 (@schwefel f64 (FloatIEEE np) LM ToF64_64 x) - schwefel_doc (map R64 x)) <= schwefel_error 53 1024 (List.length x) (IZR b) e.
Proof.
  intros C H. intros. unfold schwefel_error.
  eapply Rle_trans; [apply (abs_via (schwefel_real (map R64 x))); [apply (schwefel_literal_64 np LM b e); auto|apply (schwefel_doc_near _ (IZR b)); apply within_all; exact H]|].
  rewrite map_length. unfold schwefel_rounding. rewrite add_share. apply Rmult_le_compat_l; [apply pos_INR|]. generalize (roundoff (prec := 24)) (roundoff (prec := 53)). generalize (1 / 10 ^ 13). intros. lra.
Qed.
Lemma schwefel_accurate_32 (np : nan_policy 24 128) (np64 : nan_policy 53 1024) (LM : Libm f32) (b : Z) e (x : list f32) :
  trig_near sin e (IZR b) (@fsin f32 LM) -> Forall (within b) x -> (0 <= b)%Z ->
  (Z.of_nat (List.length x) * (b + 419) <= 2 ^ 24)%Z ->
  Rabs (R64 (@schwefel f32 (FloatIEEE np) LM (ToF64_32 np64) x) - schwefel_doc (map R32 x)) <= schwefel_error 24 128 (List.length x) (IZR b) e.
Proof.
  intros C H. intros. unfold schwefel_error.
  eapply Rle_trans; [apply (abs_via (schwefel_real (map R32 x))); [apply (schwefel_literal_32 np np64 LM b e); auto|apply (schwefel_doc_near _ (IZR b)); apply within_all; exact H]|].
  rewrite map_length. unfold schwefel_rounding. rewrite add_share. apply Rmult_le_compat_l; [apply pos_INR|]. generalize (roundoff (prec := 24)) (roundoff (prec := 53)). generalize (1 / 10 ^ 13). intros. lra.
Qed.

(** ** The boxes of the example programs *)
Lemma tiny_32_small : tiny 24 128 <= 1 / 10 ^ 42 /\ 0 < tiny 24 128.
Proof.
  unfold tiny. split; [|pose proof (bpow_gt_0 radix2 (3 - 128 - 24)); lra].
  change (bpow radix2 (3 - 128 - 24)) with (/ IZR (2 ^ 149)). simpl Z.pow. lra.
Qed.
Lemma u_32 : bpow radix2 (- (24)) = / 16777216.
Proof. reflexivity. Qed.
Lemma pow8 : (1 + bpow radix2 (- (24))) ^ 8 <= 1 + 5 / 10 ^ 7.
Proof. rewrite u_32. lra. Qed.
Lemma close_gap (c d s a f g h : R) : 1 <= c -> c <= 1 + d -> 0 <= d -> 0 <= s -> 0 <= a -> 0 <= f ->
  a <= c * (f + s) -> f <= c * (a + s) -> d <= g -> s + d * s <= h -> Rabs (a - f) <= f * g + h.
Proof.
  intros C1 C2 D S A F H1 H2 G Hh.
  assert (K1 : c * (f + s) <= (1 + d) * (f + s)) by (apply Rmult_le_compat_r; lra).
  assert (K2 : c * (a + s) <= (1 + d) * (a + s)) by (apply Rmult_le_compat_r; lra).
  assert (K3 : d * f <= f * g) by (rewrite Rmult_comm; apply Rmult_le_compat_l; lra).
  apply Rabs_le. split; [|lra].
  destruct (Rle_or_lt f a) as [L|L]; [assert (0 <= f * g) by (apply Rmult_le_pos; lra); assert (0 <= d * s) by (apply Rmult_le_pos; lra); lra|].
  assert (K4 : d * a <= d * f) by (apply Rmult_le_compat_l; lra). lra.
Qed.
Lemma ret_inj {A} (a b : A) : Ret a = Ret b -> a = b.
Proof. congruence. Qed.
Lemma cube_length d (lo hi : f32) x : in_box (cube d lo hi) x -> List.length x = d.
Proof. intros H. exact (eq_trans (GaStandard.in_box_length _ _ H) (repeat_length (lo, hi) d)). Qed.

Section Boxes.
  Variables (np32 : nan_policy 24 128) (np64 : nan_policy 53 1024).
  Context {LM : Libm f32}.
  Notation parab := (fun x => Ret (@paraboloid f32 (FloatIEEE np32) (ToF64_32 np64) x)).
  Notation schwef := (fun x => Ret (@schwefel f32 (FloatIEEE np32) LM (ToF64_32 np64) x)).
  Notation rastr := (fun x => Ret (@rastrigin f32 (FloatIEEE np32) LM (ToF64_32 np64) x)).
  Notation rosen := (@rosenbrock f32 (FloatIEEE np32) (ToF64_32 np64)).

  Lemma paraboloid_true x v : solves parab (int_cube 5 (-100) 100) x v -> right_to_six paraboloid_real x v.
  Proof.
    intros (Hx & E & Fv). injection E as <-.
    destruct (cube_within 5 _ _ 100 x (within_int32 (-100) 100 ltac:(lia)) (within_int32 100 100 ltac:(lia)) Hx) as [Lx _].
    destruct (paraboloid_close_32 np32 np64 x) as [P0 [P1 P2]]; [rewrite Lx; lia|exact Fv|].
    rewrite Lx in P1, P2. change (5 + 3)%nat with 8%nat in *. replace (INR 5) with 5 in * by (simpl; ring).
    unfold right_to_six, off_by. set (v := R64 (paraboloid x)) in *. set (f := paraboloid_real (map R32 x)) in *.
    pose proof pow8 as K. pose proof tiny_32_small as [T0 T1].
    pose proof (pow_u (prec := 24) 8) as K1. set (c := (1 + bpow radix2 (- (24))) ^ 8) in *. set (s := 5 * tiny 24 128) in *.
    assert (S0 : 0 <= s <= 5 / 10 ^ 42) by (unfold s; lra).
    assert (F0 : 0 <= f) by (unfold f; rewrite (paraboloid_real_sq (prec := 24) (emax := 128)); apply sq_nonneg).
    apply (close_gap c (5 / 10 ^ 7) s v f); [exact K1|exact K|lra|apply S0|exact P0|exact F0|exact P1|exact P2|lra|lra].
  Qed.
  Lemma rosenbrock_true x v : solves rosen (int_cube 3 (-2) 2) x v -> root_right rosenbrock_real x v.
  Proof.
    intros (Hx & E & Fv).
    destruct (cube_within 3 _ _ 2 x (within_int32 (-2) 2 ltac:(lia)) (within_int32 2 2 ltac:(lia)) Hx) as [Lx Wx].
    destruct (rosenbrock_close_32 np32 np64 x 2 v E) as [P0 [P1 P2]]; [|exact Fv|].
    { eapply Forall_impl; [|exact Wx]. intros a [_ A]. exact A. }
    rewrite Lx in P1, P2. change (3 + 1)%nat with 4%nat in *. change (3 - 1)%nat with 2%nat in *.
    unfold root_right. set (a := sqrt (R64 v)) in *. set (f := sqrt (rosenbrock_real (map R32 x))) in *.
    pose proof tiny_32_small as [T0 T1].
    assert (S : 0 <= rosenbrock_slack 24 128 2 2 <= 49 / 10 ^ 7).
    { unfold rosenbrock_slack, roundoff. rewrite u_32. replace (INR (2 * 2)) with (2 * 2) by (simpl; ring). rewrite sqrt_square by lra.
      replace (INR 2) with 2 by (simpl; ring).
      assert (Q : 0 <= sqrt (2 * (102 * tiny 24 128)) <= 1 / 10 ^ 19).
      { split; [apply sqrt_pos|]. rewrite <- (sqrt_square (1 / 10 ^ 19)) by lra. apply sqrt_le_1_alt. lra. }
      set (q := sqrt _) in *. unfold Rsqr. lra. }
    set (s := rosenbrock_slack 24 128 2 2) in *.
    assert (F0 : 0 <= f) by apply sqrt_pos. assert (A0 : 0 <= a) by apply sqrt_pos.
    assert (K : (1 + bpow radix2 (- (24))) ^ 4 <= 1 + 25 / 10 ^ 8) by (rewrite u_32; lra).
    pose proof (pow_u (prec := 24) 4) as K1. set (c := (1 + bpow radix2 (- (24))) ^ 4) in *.
    apply (close_gap c (25 / 10 ^ 8) s a f); [exact K1|exact K|lra|apply S|exact A0|exact F0|exact P1|exact P2|lra|lra].
  Qed.
  Lemma rastrigin_true d k x v : trig_near cos (1 / 10 ^ 6) 48 (@fcos f32 LM) ->
    (d = 3%nat /\ k = 1 / 2000 \/ d = 30%nat /\ k = 1 / 100) ->
    solves rastr (cube d (decimal32 (-512) 2) (decimal32 512 2)) x v -> off_by k rastrigin_doc x v.
  Proof.
    intros C D (Hx & E & Fv). injection E as <-.
    assert (W : forall z, (z = 512 \/ z = -512)%Z -> within 6 (decimal32 z 2)).
    { intros z Hz. split; [destruct Hz as [-> | ->]; vm_compute; reflexivity|].
      assert (E : Binary.B2FF 24 128 (decimal32 z 2) = Binary.F754_finite (z <? 0)%Z 10737418 (-21))
        by (destruct Hz as [-> | ->]; vm_compute; reflexivity).
      rewrite <- Binary.FF2R_B2FF, E. unfold Binary.FF2R, F2R. cbn [Fnum Fexp cond_Zopp].
      change (bpow radix2 (-21)) with (/ IZR (2 ^ 21))%R. simpl Z.pow.
      destruct (z <? 0)%Z; cbn [cond_Zopp]; [rewrite Rabs_left|rewrite Rabs_pos_eq]; simpl Z.opp; lra. }
    destruct (cube_within d _ _ 6 x (W (-512)%Z ltac:(auto)) (W 512%Z ltac:(auto)) Hx) as [Lx Wx].
    unfold off_by. eapply Rle_trans; [apply (rastrigin_accurate_32 np32 np64 LM 6 (1 / 10 ^ 6) x)|].
    - replace (8 * IZR 6) with 48 by lra. exact C.
    - exact Wx.
    - lia.
    - lia.
    - rewrite Lx. destruct D as [[-> _]|[-> _]]; vm_compute; discriminate.
    - rewrite Lx. unfold rastrigin_error, roundoff. rewrite u_32. pose proof tiny_32_small as [T0 T1].
      destruct D as [[-> ->]|[-> ->]].
      + replace (INR 3) with 3 by (simpl; ring). replace (INR (2 * 3 + 2)) with 8 by (simpl; ring). unfold Rsqr. lra.
      + replace (INR 30) with 30 by (simpl; ring). replace (INR (2 * 30 + 2)) with 62 by (simpl; ring). unfold Rsqr. lra.
  Qed.
  Lemma schwefel_true d k x v : trig_near sin (1 / 10 ^ 6) 500 (@fsin f32 LM) ->
    (d = 3%nat /\ k = 1 / 200 \/ d = 5%nat /\ k = 1 / 100 \/ d = 15%nat /\ k = 1 / 25) ->
    solves schwef (int_cube d (-500) 500) x v -> off_by k schwefel_doc x v.
  Proof.
    intros C D (Hx & E & Fv). apply ret_inj in E. rewrite <- E. clear Fv E.
    destruct (cube_within d _ _ 500 x (within_int32 (-500) 500 ltac:(lia)) (within_int32 500 500 ltac:(lia)) Hx) as [Lx Wx].
    unfold off_by. eapply Rle_trans; [apply (schwefel_accurate_32 np32 np64 LM 500 (1 / 10 ^ 6) x)|].
    - exact C.
    - exact Wx.
    - lia.
    - rewrite Lx. destruct D as [[-> _]|[[-> _]|[-> _]]]; vm_compute; discriminate.
    - rewrite Lx. unfold schwefel_error, roundoff. rewrite u_32. pose proof tiny_32_small as [T0 T1].
      assert (Q : 0 <= sqrt 500 <= 23).
      { split; [apply sqrt_pos|]. rewrite <- (sqrt_square 23) by lra. apply sqrt_le_1_alt. lra. }
      set (q := sqrt _) in *.
      destruct D as [[-> ->]|[[-> ->]|[-> ->]]].
      + replace (INR 3) with 3 by (simpl; ring). replace (INR (3 + 2)) with 5 by (simpl; ring). lra.
      + replace (INR 5) with 5 by (simpl; ring). replace (INR (5 + 2)) with 7 by (simpl; ring). lra.
      + replace (INR 15) with 15 by (simpl; ring). replace (INR (15 + 2)) with 17 by (simpl; ring). lra.
  Qed.
  (** No value is far below the documented minimum 0. *)
  Lemma schwefel_floor d k x v : trig_near sin (1 / 10 ^ 6) 500 (@fsin f32 LM) ->
    (d = 3%nat /\ k = 1 / 200 \/ d = 5%nat /\ k = 1 / 100 \/ d = 15%nat /\ k = 1 / 25) ->
    solves schwef (int_cube d (-500) 500) x v -> - k <= R64 v.
  Proof.
    intros C D S. pose proof (schwefel_true d k x v C D S) as T. unfold off_by in T. apply Rabs_le_inv in T.
    destruct S as (Hx & _).
    destruct (cube_within d _ _ 500 x (within_int32 (-500) 500 ltac:(lia)) (within_int32 500 500 ltac:(lia)) Hx) as [_ Wx].
    assert (0 <= schwefel_doc (map R32 x)).
    { unfold schwefel_doc. apply sum_nonneg. rewrite Forall_map, Forall_map. eapply Forall_impl; [|exact Wx].
      intros a [_ A]. apply schwefel_term in A. lra. }
    lra.
  Qed.
End Boxes.

(** ** The programs *)
Lemma same_point {S U T : Type} (x y : list f32) (v w : f64) (s s' : S) (u u' : U) (t t' : T) :
  (Ret (Some (x, v), s), u, t) = (Ret (Some (y, w), s'), u', t') -> x = y /\ v = w.
Proof. intros H. split; congruence. Qed.

Section Programs.
  Context {W : Type}.
  Variables (write : string -> comp W bool) (now : comp W Z).
  Variable fmt : formatter f32.
  Variables (np32 : nan_policy 24 128) (np64 : nan_policy 53 1024).
  Context {LM : Libm f32}.
  Variable dbg : bool.
  Hypothesis Hwrite : accepts write.
  Hypothesis Hnow : ticks now.
  Lemma genetic_paraboloid_true fuel r (w : W) x v s' u' t : (3000 < fuel)%nat -> ga_main (@genetic_paraboloid W write now fmt np32 np64 LM dbg) fuel r w = (Ret (Some (x, v), s'), u', t) -> right_to_six paraboloid_real x v.
  Proof.
    intros Hf H. destruct (genetic_paraboloid_ends write now fmt np32 np64 dbg Hwrite Hnow fuel r w) as (x' & v' & p & u1 & t1 & E & S & _); [exact Hf|].
    pose proof (same_point _ _ _ _ _ _ _ _ _ _ (eq_trans (eq_sym E) H)) as [-> ->]. apply (paraboloid_true np32 np64). exact S.
  Qed.
  Lemma genetic_rastrigin_true fuel r (w : W) x v s' u' t : trig_near cos (1 / 10 ^ 6) 48 (@fcos f32 LM) -> (3000 < fuel)%nat -> ga_main (@genetic_rastrigin W write now fmt np32 np64 LM dbg) fuel r w = (Ret (Some (x, v), s'), u', t) -> off_by (1 / 100) rastrigin_doc x v.
  Proof.
    intros C Hf H. destruct (genetic_rastrigin_ends write now fmt np32 np64 dbg Hwrite Hnow fuel r w) as (x' & v' & p & u1 & t1 & E & S & _); [exact (proj1 C)|exact Hf|].
    pose proof (same_point _ _ _ _ _ _ _ _ _ _ (eq_trans (eq_sym E) H)) as [-> ->]. apply (rastrigin_true np32 np64 30); [exact C|auto|]. exact S.
  Qed.
  Lemma genetic_schwefel_true fuel r (w : W) x v s' u' t : trig_near sin (1 / 10 ^ 6) 500 (@fsin f32 LM) -> (3000 < fuel)%nat -> ga_main (@genetic_schwefel W write now fmt np32 np64 LM dbg) fuel r w = (Ret (Some (x, v), s'), u', t) -> off_by (1 / 25) schwefel_doc x v.
  Proof.
    intros C Hf H. destruct (genetic_schwefel_ends write now fmt np32 np64 dbg Hwrite Hnow fuel r w) as (x' & v' & p & u1 & t1 & E & S & _); [exact (proj1 C)|exact Hf|].
    pose proof (same_point _ _ _ _ _ _ _ _ _ _ (eq_trans (eq_sym E) H)) as [-> ->]. apply (schwefel_true np32 np64 15); [exact C|auto|]. exact S.
  Qed.
  Lemma genetic_rosenbrock_true fuel r (w : W) x v s' u' t : ga_main (@genetic_rosenbrock W write now fmt np32 np64 LM dbg) fuel r w = (Ret (Some (x, v), s'), u', t) -> root_right rosenbrock_real x v.
  Proof.
    intros H. destruct (genetic_rosenbrock_runs write now fmt np32 np64 dbg Hwrite Hnow fuel r w) as [_ K].
    destruct (K _ _ _ _ H) as (x' & v' & E & S & _). injection E as <- <-. apply (rosenbrock_true np32 np64). exact S.
  Qed.
  Lemma particleswarm_paraboloid_true fuel r (w : W) x v s' u' t : (3000 < fuel)%nat -> pso_main np32 (@particleswarm_paraboloid W write now fmt np32 np64 dbg) fuel r w = (Ret (Some (x, v), s'), u', t) -> right_to_six paraboloid_real x v.
  Proof.
    intros Hf H. destruct (particleswarm_paraboloid_ends write now fmt np32 np64 dbg Hwrite Hnow fuel r w) as (x' & v' & p & u1 & t1 & E & S & _); [exact Hf|].
    pose proof (same_point _ _ _ _ _ _ _ _ _ _ (eq_trans (eq_sym E) H)) as [-> ->]. apply (paraboloid_true np32 np64). exact S.
  Qed.
  Lemma particleswarm_rastrigin_true fuel r (w : W) x v s' u' t : trig_near cos (1 / 10 ^ 6) 48 (@fcos f32 LM) -> (3000 < fuel)%nat -> pso_main np32 (@particleswarm_rastrigin W write now fmt np32 np64 LM dbg) fuel r w = (Ret (Some (x, v), s'), u', t) -> off_by (1 / 2000) rastrigin_doc x v.
  Proof.
    intros C Hf H. destruct (particleswarm_rastrigin_ends write now fmt np32 np64 dbg Hwrite Hnow fuel r w) as (x' & v' & p & u1 & t1 & E & S & _); [exact (proj1 C)|exact Hf|].
    pose proof (same_point _ _ _ _ _ _ _ _ _ _ (eq_trans (eq_sym E) H)) as [-> ->]. apply (rastrigin_true np32 np64 3); [exact C|auto|]. exact S.
  Qed.
  Lemma particleswarm_schwefel_true fuel r (w : W) x v s' u' t : trig_near sin (1 / 10 ^ 6) 500 (@fsin f32 LM) -> (3000 < fuel)%nat -> pso_main np32 (@particleswarm_schwefel W write now fmt np32 np64 LM dbg) fuel r w = (Ret (Some (x, v), s'), u', t) -> off_by (1 / 200) schwefel_doc x v.
  Proof.
    intros C Hf H. destruct (particleswarm_schwefel_ends write now fmt np32 np64 dbg Hwrite Hnow fuel r w) as (x' & v' & p & u1 & t1 & E & S & _); [exact (proj1 C)|exact Hf|].
    pose proof (same_point _ _ _ _ _ _ _ _ _ _ (eq_trans (eq_sym E) H)) as [-> ->]. apply (schwefel_true np32 np64 3); [exact C|auto|]. exact S.
  Qed.
  Lemma particleswarm_rosenbrock_true fuel r (w : W) x v s' u' t : (3000 < fuel)%nat -> pso_main np32 (@particleswarm_rosenbrock W write now fmt np32 np64 dbg) fuel r w = (Ret (Some (x, v), s'), u', t) -> root_right rosenbrock_real x v.
  Proof.
    intros Hf H. destruct (particleswarm_rosenbrock_ends write now fmt np32 np64 dbg Hwrite Hnow fuel r w) as (x' & v' & p & u1 & t1 & E & S & _); [exact Hf|].
    pose proof (same_point _ _ _ _ _ _ _ _ _ _ (eq_trans (eq_sym E) H)) as [-> ->]. apply (rosenbrock_true np32 np64). exact S.
  Qed.
End Programs.
