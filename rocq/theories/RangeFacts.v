(** * The range of the test functions *)

From Coq Require Import List Arith ZArith Bool Lia Reals Lra Psatz.
From Flocq Require Import Core IEEE754.BinarySingleNaN IEEE754.Binary.
From Verif Require Import Base Logic FloatModel TestFuncModel FloatFacts ArithFacts SatFacts SpecStat SpecReal SpecTest
  StatFacts CreateFacts TestFacts.
Import ListNotations.

Section Range.
  Context {prec emax : Z} {Hp : Prec_gt_0 prec} {He : Prec_lt_emax prec emax}.
  Variable np : nan_policy prec emax.
  Notation F := (bfloat prec emax).
  Notation B2R := (Binary.B2R prec emax).
  #[local] Hint Extern 0 (FloatTrait (bfloat prec emax)) => exact (FloatIEEE np) : typeclass_instances.
  Notation zero := (Binary.B754_zero false : F).
  Notation rnd := (round radix2 (SpecFloat.fexp prec emax) (round_mode mode_NE)).
  Implicit Types (x y : F) (a b c z : Z).

  Lemma rnd_within (r : R) z : (0 <= z <= 2 ^ prec)%Z -> (Rabs r <= IZR z)%R ->
    (Rabs (rnd r) <= IZR z)%R /\ (Rabs (rnd r) < bpow radix2 emax)%R.
  Proof.
    intros Hz H.
    assert (B : (Rabs (rnd r) <= IZR z)%R).
    { apply (abs_round_le_generic radix2 (SpecFloat.fexp prec emax)); auto.
      - apply (valid_rnd_round_mode mode_NE).
      - apply format_IZR. lia. }
    split; auto. eapply Rle_lt_trans; [exact B|].
    pose proof (IZR_bound (prec := prec) (emax := emax) z ltac:(lia)) as K.
    rewrite Rabs_pos_eq in K; auto. apply IZR_le. lia.
  Qed.
  Lemma within_weaken a b x : within a x -> (a <= b)%Z -> within b x.
  Proof. intros [Fx Bx] H. split; auto. eapply Rle_trans; [exact Bx|now apply IZR_le]. Qed.
  Lemma within_pos a x : within a x -> (0 <= a)%Z.
  Proof. intros [_ H]. apply le_IZR. eapply Rle_trans; [apply Rabs_pos|exact H]. Qed.
  Lemma within_zero : within 0 zero.
  Proof. split; [reflexivity|]. simpl. rewrite Rabs_R0. lra. Qed.
  Lemma within_int z : (0 <= z <= 2 ^ prec)%Z -> within z (b_of_Z z : F).
  Proof.
    intros H. destruct (of_Z_exact (prec := prec) (emax := emax) z ltac:(lia)) as [Fz Vz].
    split; auto. rewrite Vz, Rabs_pos_eq; [lra|apply IZR_le; lia].
  Qed.
  Lemma within_add a b x y : within a x -> within b y -> (a + b <= 2 ^ prec)%Z -> within (a + b) (b_add np x y).
  Proof.
    intros Hx Hy L. pose proof (within_pos _ _ Hx). pose proof (within_pos _ _ Hy).
    destruct Hx as [Fx Bx], Hy as [Fy By].
    destruct (rnd_within (B2R x + B2R y) (a + b)) as [R1 R2]; [lia| |].
    - eapply Rle_trans; [apply Rabs_triang|]. rewrite plus_IZR. lra.
    - destruct (add_correct np x y Fx Fy R2) as [C1 C2]. split; auto. now rewrite C2.
  Qed.
  Lemma within_sub a b x y : within a x -> within b y -> (a + b <= 2 ^ prec)%Z -> within (a + b) (b_sub np x y).
  Proof.
    intros Hx Hy L. pose proof (within_pos _ _ Hx). pose proof (within_pos _ _ Hy).
    destruct Hx as [Fx Bx], Hy as [Fy By].
    destruct (rnd_within (B2R x - B2R y) (a + b)) as [R1 R2]; [lia| |].
    - unfold Rminus. eapply Rle_trans; [apply Rabs_triang|]. rewrite Rabs_Ropp, plus_IZR. lra.
    - destruct (sub_correct np x y Fx Fy R2) as [C1 C2]. split; auto. now rewrite C2.
  Qed.
  Lemma within_mul a b x y : within a x -> within b y -> (a * b <= 2 ^ prec)%Z -> within (a * b) (b_mul np x y).
  Proof.
    intros Hx Hy L. pose proof (within_pos _ _ Hx). pose proof (within_pos _ _ Hy).
    destruct Hx as [Fx Bx], Hy as [Fy By].
    destruct (rnd_within (B2R x * B2R y) (a * b)) as [R1 R2]; [nia| |].
    - rewrite Rabs_mult, mult_IZR. apply Rmult_le_compat; auto using Rabs_pos.
    - destruct (mul_correct np x y Fx Fy R2) as [C1 C2]. split; auto. now rewrite C2.
  Qed.
  Lemma within_square a x : within a x -> (a * a <= 2 ^ prec)%Z -> within (a * a) (fsquare x).
  Proof. intros H L. now apply within_mul. Qed.
  (** A sum of [n] terms within [k]. *)
  Lemma within_fold {A} (f : F -> A -> F) k (l : list A) : (0 <= k)%Z ->
    (forall a s v, In v l -> within a s -> (a + k <= 2 ^ prec)%Z -> within (a + k) (f s v)) ->
    forall a s, within a s -> (a + Z.of_nat (length l) * k <= 2 ^ prec)%Z ->
    within (a + Z.of_nat (length l) * k) (fold_left f l s).
  Proof.
    intros K. induction l as [|v l IH]; intros H a s Hs L.
    - cbn [length fold_left]. eapply within_weaken; [exact Hs|lia].
    - cbn [length fold_left] in *. replace (a + Z.of_nat (S (length l)) * k)%Z with (a + k + Z.of_nat (length l) * k)%Z by lia.
      apply IH; [intros; apply H; auto; now right| |lia].
      apply H; [now left|auto|]. nia.
  Qed.

  Hypothesis Hlit : forall n, In n [0; 1; 10; 100]%Z -> (lit n : F) = b_of_Z n.
  Hypothesis Hprec : (24 <= prec)%Z.
  Lemma pow24 : (2 ^ 24 <= 2 ^ prec)%Z.
  Proof. apply Z.pow_le_mono_r; lia. Qed.
  Lemma within_lit n : In n [0; 1; 10; 100]%Z -> within n (lit n : F).
  Proof.
    intros H. rewrite Hlit by auto. apply within_int. pose proof pow24. simpl in H.
    destruct H as [<-|[<-|[<-|[<-|[]]]]]; simpl in *; lia.
  Qed.

  Lemma paraboloid_within b (x : list F) : Forall (within b) x ->
    (Z.of_nat (length x) * (b + Z.of_nat (length x)) ^ 2 <= 2 ^ prec)%Z ->
    within (Z.of_nat (length x) * (b + Z.of_nat (length x)) ^ 2) (paraboloid_g x).
  Proof.
    intros H L. rewrite (paraboloid_fold np Hlit).
    destruct x as [|x0 x'] eqn:Ex; [apply within_zero|]. rewrite <- Ex in *.
    assert (N0 : (1 <= Z.of_nat (length x))%Z) by (rewrite Ex; simpl; lia).
    assert (B0 : (0 <= b)%Z) by (rewrite Ex in H; inversion H; subst; eapply within_pos; eauto).
    set (n := Z.of_nat (length x)) in *.
    assert (El : length (enumerate x) = length x) by (unfold enumerate; rewrite combine_length, seq_length; lia).
    replace n with (Z.of_nat (length (enumerate x))) at 1 by (now rewrite El).
    rewrite <- (Z.add_0_l (_ * _)).
    assert (Hk : (0 <= (b + n) ^ 2)%Z) by nia.
    assert (Hs : ((b + n) ^ 2 <= 2 ^ prec)%Z) by nia.
    apply within_fold; auto.
    - intros a s [i v] Hin Hs' La. apply within_add; auto. rewrite Z.pow_2_r. apply within_square; [|lia].
      apply in_enumerate in Hin. destruct Hin as [Hi Hv]. rewrite Forall_forall in H.
      unfold gap. cbn [fst snd]. eapply within_weaken; [apply within_sub; [apply H, Hv|apply within_add|]|].
      + apply (within_int (Z.of_nat i)). nia.
      + apply within_int. nia.
      + nia.
      + nia.
      + lia.
    - apply within_zero.
    - rewrite El. fold n. lia.
  Qed.

  Lemma rosenbrock_within b (x : list F) : x <> [] -> Forall (within b) x ->
    (Z.of_nat (length x - 1) * (100 * (b + b ^ 2) ^ 2 + (1 + b) ^ 2) <= 2 ^ prec)%Z ->
    exists r, rosenbrock_g x = Ret r /\
      within (Z.of_nat (length x - 1) * (100 * (b + b ^ 2) ^ 2 + (1 + b) ^ 2)) r.
  Proof.
    intros Nx H L. rewrite (rosenbrock_float np Hlit x Nx). eexists. split; [reflexivity|].
    assert (B0 : (0 <= b)%Z) by (destruct x; [congruence|]; inversion H; subst; eapply within_pos; eauto).
    assert (El : length (combine x (tl x)) = length x - 1).
    { rewrite combine_length. destruct x; cbn [length tl]; lia. }
    rewrite <- El in *. set (k := (100 * (b + b ^ 2) ^ 2 + (1 + b) ^ 2)%Z) in *.
    rewrite <- (Z.add_0_l (_ * _)).
    assert (K0 : (0 <= k)%Z) by (unfold k; nia).
    apply within_fold; auto; [|apply within_zero].
    intros a s [u v] Hin Hs La. unfold rose. cbn [fst snd].
    rewrite Forall_forall in H.
    assert (Hu : within b u) by (apply H; eapply in_combine_l; eauto).
    assert (Hv : within b v).
    { apply H. apply in_combine_r in Hin. destruct x; [destruct Hin|now right]. }
    pose proof (within_pos _ _ Hs) as A0.
    set (q := (b + b * b)%Z). replace k with (100 * (q * q) + (1 + b) * (1 + b))%Z in * by (unfold k, q; ring).
    assert (Q0 : (0 <= q)%Z) by (unfold q; nia).
    assert (Q1 : (q <= q * q \/ q = 0)%Z) by nia.
    rewrite Z.add_assoc. apply within_add; [apply within_add; auto|apply within_square|].
    - apply within_mul; [apply within_lit; simpl; auto| |nia].
      apply within_square; [|nia]. unfold q in *. apply within_sub; auto; [apply within_mul; auto; nia|nia].
    - nia.
    - apply within_sub; auto; [apply within_lit; simpl; auto|nia].
    - nia.
    - nia.
  Qed.

  Context {LM : Libm F}.
  Notation w := (b_mul np (b_of_Z 2) (fof_f64 pi_const) : F).
  Lemma rastrigin_within b (x : list F) : within 8 w -> cos_bounded fcos -> Forall (within b) x ->
    (8 * b <= 2 ^ prec)%Z -> (Z.of_nat (length x) * (b ^ 2 + 20) <= 2 ^ prec)%Z ->
    within (Z.of_nat (length x) * (b ^ 2 + 20)) (rastrigin_g x).
  Proof.
    intros W C H Lb L. rewrite (rastrigin_fold np Hlit).
    destruct x as [|x0 x'] eqn:Ex.
    { cbn [length]. change (Z.of_nat 0 * (b ^ 2 + 20))%Z with (10 * 0 + 0)%Z. pose proof pow24 as P24.
      simpl (2 ^ 24)%Z in P24. apply within_add; [apply within_mul; [apply within_int; lia|apply within_int; lia|lia]|apply within_zero|lia]. }
    rewrite <- Ex in *.
    assert (N0 : (1 <= Z.of_nat (length x))%Z) by (rewrite Ex; simpl; lia).
    assert (B0 : (0 <= b)%Z) by (rewrite Ex in H; inversion H; subst; eapply within_pos; eauto).
    set (n := Z.of_nat (length x)) in *. pose proof pow24 as P24. simpl (2 ^ 24)%Z in P24.
    replace (n * (b ^ 2 + 20))%Z with (10 * n + n * (b * b + 10))%Z in * by ring.
    apply within_add; [apply within_mul; [apply within_int; nia|apply within_int; nia|nia]| |lia].
    rewrite <- (Z.add_0_l (n * _)). unfold n.
    apply within_fold; [nia| |apply within_zero|fold n; nia].
    intros a s v Hv Hs La. rewrite Forall_forall in H. pose proof (within_pos _ _ Hs). specialize (H v Hv).
    unfold wave. rewrite Z.add_assoc. apply within_sub; [apply within_add; auto; [apply within_mul; auto; nia|nia]| |nia].
    change 10%Z with (10 * 1)%Z at 1. apply within_mul; [apply within_int; lia| |lia].
    destruct (C (b_mul np w v)) as [C1 C2]; [|split; auto].
    apply (within_mul 8 b w v W H). lia.
  Qed.

  Lemma schwefel_within b (x : list F) : within 419 (fof_f64 schwefel_const : F) -> cos_bounded fsin -> Forall (within b) x ->
    (Z.of_nat (length x) * (b + 419) <= 2 ^ prec)%Z ->
    within (Z.of_nat (length x) * (b + 419)) (schwefel_g x).
  Proof.
    intros W C H L. unfold schwefel_g.
    destruct x as [|x0 x'] eqn:Ex.
    { cbn [length]. change (Z.of_nat 0 * (b + 419))%Z with (0 + 0)%Z. change (0 + 0)%Z with (419 * 0 + 0)%Z at 1.
      apply within_sub; [apply within_mul; [exact W|apply within_int; lia|lia]|apply within_zero|lia]. }
    rewrite <- Ex in *.
    assert (N0 : (1 <= Z.of_nat (length x))%Z) by (rewrite Ex; simpl; lia).
    assert (B0 : (0 <= b)%Z) by (rewrite Ex in H; inversion H; subst; eapply within_pos; eauto).
    set (n := Z.of_nat (length x)) in *.
    replace (n * (b + 419))%Z with (419 * n + n * b)%Z in * by ring.
    apply within_sub; [apply within_mul; [exact W|apply within_int; nia|nia]| |lia].
    rewrite <- (Z.add_0_l (n * _)). unfold n.
    apply within_fold; [nia| |apply within_zero|fold n; nia].
    intros a s v Hv Hs La. rewrite Forall_forall in H. pose proof (within_pos _ _ Hs). specialize (H v Hv).
    apply within_add; auto. rewrite <- (Z.mul_1_r b). apply within_mul; [auto| |nia].
    destruct (C (fsqrt (fabs v))) as [C1 C2]; [|split; auto].
    destruct H as [Fv _]. change (is_finite (b_sqrt np (b_abs v)) = true).
    destruct v as [s'|s'|s' pl h|s' m e h]; try discriminate; [reflexivity|].
    unfold b_sqrt. pose proof (Binary.Bsqrt_correct prec emax Hp He (np_sqrt np) mode_NE (b_abs (B754_finite s' m e h))) as [_ [Q _]].
    unfold is_finite. exact Q.
  Qed.
End Range.

(** ** The two float types *)
Lemma within_conv (np : f32 -> a_nan 53 1024) z (x : f32) : within z x -> within z (fconv np x : f64).
Proof. intros [H B]. destruct (fconv_32_64 np x H) as [H' E]. split; auto. now rewrite E. Qed.
Lemma schwefel_64_const (np : nan_policy 53 1024) : within 419 (@fof_f64 f64 (FloatIEEE np) schwefel_const).
Proof.
  split; [vm_compute; reflexivity|].
  assert (E : Binary.B2FF 53 1024 (@fof_f64 f64 (FloatIEEE np) schwefel_const) =
              Binary.F754_finite false 7370825126228944 (-44)) by (vm_compute; reflexivity).
  rewrite <- Binary.FF2R_B2FF, E. unfold Binary.FF2R, F2R. cbn [Fnum Fexp cond_Zopp].
  change (bpow radix2 (-44)) with (/ IZR (2 ^ 44))%R. rewrite Rabs_pos_eq; simpl Z.pow; lra.
Qed.
Lemma schwefel_32_const (np : nan_policy 24 128) : within 419 (@fof_f64 f32 (FloatIEEE np) schwefel_const).
Proof.
  split; [vm_compute; reflexivity|].
  assert (E : Binary.B2FF 24 128 (@fof_f64 f32 (FloatIEEE np) schwefel_const) =
              Binary.F754_finite false 13729232 (-15)) by (vm_compute; reflexivity).
  rewrite <- Binary.FF2R_B2FF, E. unfold Binary.FF2R, F2R. cbn [Fnum Fexp cond_Zopp].
  change (bpow radix2 (-15)) with (/ IZR (2 ^ 15))%R. rewrite Rabs_pos_eq; simpl Z.pow; lra.
Qed.

Section Types.
  Implicit Types (b : Z).
  Lemma paraboloid_64_within (np : nan_policy 53 1024) b (x : list f64) : Forall (within b) x ->
    let top := (Z.of_nat (length x) * (b + Z.of_nat (length x)) ^ 2)%Z in
    (top <= 2 ^ 53)%Z -> within top (@paraboloid f64 (FloatIEEE np) ToF64_64 x).
  Proof. intros H top L. apply (paraboloid_within np (lit_64 np)); auto; lia. Qed.
  Lemma paraboloid_32_within (np : nan_policy 24 128) (np64 : nan_policy 53 1024) b (x : list f32) : Forall (within b) x ->
    let top := (Z.of_nat (length x) * (b + Z.of_nat (length x)) ^ 2)%Z in
    (top <= 2 ^ 24)%Z -> within top (@paraboloid f32 (FloatIEEE np) (ToF64_32 np64) x).
  Proof. intros H top L. apply within_conv. apply (paraboloid_within np (lit_32 np)); auto; lia. Qed.
  Lemma rosenbrock_64_within (np : nan_policy 53 1024) b (x : list f64) : x <> [] -> Forall (within b) x ->
    let top := (Z.of_nat (length x - 1) * (100 * (b + b ^ 2) ^ 2 + (1 + b) ^ 2))%Z in
    (top <= 2 ^ 53)%Z -> exists r, @rosenbrock f64 (FloatIEEE np) ToF64_64 x = Ret r /\ within top r.
  Proof.
    intros N H top L. destruct (rosenbrock_within np (lit_64 np) ltac:(lia) b x N H L) as [r [E W]].
    exists r. split; [|exact W].
    unfold rosenbrock. change (@rosenbrock_g f64 (FloatIEEE np) x = Ret r) in E. now rewrite E.
  Qed.
  Lemma rosenbrock_32_within (np : nan_policy 24 128) (np64 : nan_policy 53 1024) b (x : list f32) : x <> [] -> Forall (within b) x ->
    let top := (Z.of_nat (length x - 1) * (100 * (b + b ^ 2) ^ 2 + (1 + b) ^ 2))%Z in
    (top <= 2 ^ 24)%Z -> exists r, @rosenbrock f32 (FloatIEEE np) (ToF64_32 np64) x = Ret r /\ within top r.
  Proof.
    intros N H top L. destruct (rosenbrock_within np (lit_32 np) ltac:(lia) b x N H L) as [r [E W]].
    exists (to_f64 (ToF64 := ToF64_32 np64) r). split; [|now apply within_conv].
    unfold rosenbrock. change (@rosenbrock_g f32 (FloatIEEE np) x = Ret r) in E. now rewrite E.
  Qed.
  Lemma rastrigin_64_within (np : nan_policy 53 1024) (LM : Libm f64) b (x : list f64) : cos_bounded fcos -> Forall (within b) x ->
    let top := (Z.of_nat (length x) * (b ^ 2 + 20))%Z in
    (8 * b <= 2 ^ 53)%Z -> (top <= 2 ^ 53)%Z -> within top (@rastrigin f64 (FloatIEEE np) LM ToF64_64 x).
  Proof. intros C H top L1 L2. apply (rastrigin_within np (lit_64 np)); auto; try lia. apply wave_64. Qed.
  Lemma rastrigin_32_within (np : nan_policy 24 128) (np64 : nan_policy 53 1024) (LM : Libm f32) b (x : list f32) :
    cos_bounded fcos -> Forall (within b) x ->
    let top := (Z.of_nat (length x) * (b ^ 2 + 20))%Z in
    (8 * b <= 2 ^ 24)%Z -> (top <= 2 ^ 24)%Z -> within top (@rastrigin f32 (FloatIEEE np) LM (ToF64_32 np64) x).
  Proof. intros C H top L1 L2. apply within_conv. apply (rastrigin_within np (lit_32 np)); auto; try lia. apply wave_32. Qed.
  Lemma schwefel_64_within (np : nan_policy 53 1024) (LM : Libm f64) b (x : list f64) : cos_bounded fsin -> Forall (within b) x ->
    let top := (Z.of_nat (length x) * (b + 419))%Z in
    (top <= 2 ^ 53)%Z -> within top (@schwefel f64 (FloatIEEE np) LM ToF64_64 x).
  Proof. intros C H top L. apply (schwefel_within np); auto; try lia. apply schwefel_64_const. Qed.
  Lemma schwefel_32_within (np : nan_policy 24 128) (np64 : nan_policy 53 1024) (LM : Libm f32) b (x : list f32) :
    cos_bounded fsin -> Forall (within b) x ->
    let top := (Z.of_nat (length x) * (b + 419))%Z in
    (top <= 2 ^ 24)%Z -> within top (@schwefel f32 (FloatIEEE np) LM (ToF64_32 np64) x).
  Proof. intros C H top L. apply within_conv. apply (schwefel_within np); auto; try lia. apply schwefel_32_const. Qed.
End Types.
