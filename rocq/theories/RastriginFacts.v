(** * A small computed value of the Rastrigin function means a point near the minimum *)

From Coq Require Import List Arith ZArith Bool Lia Reals Lra Psatz.
From Flocq Require Import Core IEEE754.BinarySingleNaN IEEE754.Binary.
From Verif Require Import Base Logic FloatModel TestFuncModel FloatFacts ArithFacts SatFacts SpecStat SpecReal SpecTest
  StatFacts CreateFacts TestFacts.
Import ListNotations.

Lemma cos_away y : (61 / 1024 <= Rabs y <= 3 / 4)%R -> (cos y <= 1 - 17 / 10000)%R.
Proof.
  intros H. assert (P : (61 / 1024 <= y <= 3 / 4 \/ 61 / 1024 <= - y <= 3 / 4)%R).
  { unfold Rabs in H. destruct (Rcase_abs y); lra. }
  assert (G : forall z, (61 / 1024 <= z <= 3 / 4)%R -> (cos z <= 1 - 17 / 10000)%R).
  { intros z Hz. destruct (pre_cos_bound z 0) as [_ B]; [lra|lra|]. eapply Rle_trans; [exact B|].
    unfold cos_approx, sum_f_R0, cos_term. simpl.
    assert ((61 / 1024) * (61 / 1024) <= z * z)%R by nra. assert (z * z <= (3 / 4) * (3 / 4))%R by nra.
    assert (0 <= z * z)%R by nra. nra. }
  destruct P as [P|P]; [now apply G|]. rewrite <- cos_neg. now apply G.
Qed.

Section Float.
  Context {prec emax : Z} {Hp : Prec_gt_0 prec} {He : Prec_lt_emax prec emax}.
  Variable np : nan_policy prec emax.
  Notation F := (bfloat prec emax).
  Notation B2R := (Binary.B2R prec emax).
  #[local] Hint Extern 0 (FloatTrait (bfloat prec emax)) => exact (FloatIEEE np) : typeclass_instances.
  Notation zero := (Binary.B754_zero false : F).
  Notation rnd := (round radix2 (SpecFloat.fexp prec emax) (round_mode mode_NE)).
  Notation satf := (sat (prec := prec) (emax := emax)).
  Hypothesis Hlit : forall n, In n [0; 1; 10; 100]%Z -> (lit n : F) = b_of_Z n.
  Hypothesis Hprec : (24 <= prec)%Z.
  Hypothesis Hemax : (65 < emax)%Z.

  (** Multiples of 1/1024. *)
  Lemma format_1024 n : (Z.abs n <= 2 ^ prec)%Z -> generic_format radix2 (SpecFloat.fexp prec emax) (IZR n / 1024).
  Proof.
    intros H. replace (IZR n / 1024)%R with (IZR n * bpow radix2 (-10))%R by (simpl; lra).
    assert (P : (prec < emax)%Z) by exact He.
    destruct (Z.eq_dec (Z.abs n) (2 ^ prec)) as [E|E].
    - assert (G : generic_format radix2 (SpecFloat.fexp prec emax) (bpow radix2 (prec + -10))).
      { apply generic_format_bpow. unfold SpecFloat.fexp, SpecFloat.emin. lia. }
      rewrite bpow_plus in G.
      assert (B : bpow radix2 prec = IZR (2 ^ prec)) by (rewrite <- (IZR_Zpower radix2) by lia; reflexivity).
      rewrite B in G. destruct (Z.abs_eq_cases n (2 ^ prec)) as [-> | ->]; [rewrite E; lia|exact G|].
      rewrite opp_IZR, <- Ropp_mult_distr_l. now apply generic_format_opp.
    - apply generic_format_FLT. exists (Float radix2 n (-10)).
      + reflexivity.
      + simpl. change (Zpower_pos 2) with (Z.pow_pos 2). change (Z.abs n < 2 ^ prec)%Z. lia.
      + simpl. unfold SpecFloat.emin. lia.
  Qed.
  Lemma sat_1024 n : (Z.abs n <= 2 ^ prec)%Z -> satf (IZR n / 1024) = (IZR n / 1024)%R.
  Proof.
    intros H. rewrite sat_in; rewrite rnd_format by (now apply format_1024); auto.
    eapply Rle_lt_trans; [|apply (IZR_bound (prec := prec) (emax := emax) n H)].
    unfold Rdiv. rewrite Rabs_mult, (Rabs_pos_eq (/ 1024)) by lra. pose proof (Rabs_pos (IZR n)). lra.
  Qed.
  Lemma bound_1024 n : (Z.abs n <= 2 ^ prec)%Z -> (- bpow radix2 emax < IZR n / 1024 < bpow radix2 emax)%R.
  Proof.
    intros H. pose proof (IZR_bound (prec := prec) (emax := emax) n H) as B. apply Rabs_lt_inv in B.
    pose proof (bpow_gt_0 radix2 emax). lra.
  Qed.

  Context {LM : Libm F}.
  Notation w := (b_mul np (b_of_Z 2) (fof_f64 pi_const) : F).
  Notation wave := (wave np).
  (** One coordinate: from at least [a] to at least [a + s - p] (in 1/1024). *)
  Lemma wave_step (acc v : F) a s p :
    (Z.abs a <= 2 ^ prec)%Z -> (Z.abs (a + s) <= 2 ^ prec)%Z -> (Z.abs (a + s - p) <= 2 ^ prec)%Z -> (0 <= s)%Z ->
    is_nan acc = false -> (IZR a / 1024 <= key acc)%R ->
    is_nan (b_mul np v v) = false -> (IZR s / 1024 <= key (b_mul np v v))%R ->
    is_finite (b_mul np (b_of_Z 10) (fcos (b_mul np w v))) = true ->
    (B2R (b_mul np (b_of_Z 10) (fcos (b_mul np w v))) <= IZR p / 1024)%R ->
    is_nan (wave acc v) = false /\ (IZR (a + s - p) / 1024 <= key (wave acc v))%R.
  Proof.
    intros La Las Lp S0 Na Ka S1 S2 Fp Pp. unfold TestFacts.wave. set (q := b_mul np (b_of_Z 10) _) in *. set (sq := b_mul np v v) in *.
    assert (S2' : (0 <= key sq)%R) by (eapply Rle_trans; [|exact S2]; apply IZR_le in S0; lra).
    assert (S : is_nan (b_add np acc sq) = false /\ (IZR (a + s) / 1024 <= key (b_add np acc sq))%R).
    { destruct (inf_cases acc Na) as [Fa|[->| ->]].
      - destruct (inf_cases sq S1) as [F2|[E|E]].
        + destruct (key_add np acc _ Fa F2) as [N ->]. split; auto. rewrite key_finite in Ka, S2 by auto.
          rewrite <- (sat_1024 (a + s)) by lia. apply sat_le. rewrite plus_IZR. lra.
        + rewrite E. replace (b_add np acc (Binary.B754_infinity false)) with (Binary.B754_infinity false : F).
          * split; auto. pose proof (bound_1024 (a + s) Las).
            change (key (Binary.B754_infinity false : F)) with (bpow radix2 emax). lra.
          * destruct acc as [s'|[|]|s' pl h|s' m e h]; try discriminate; reflexivity.
        + rewrite E in S2'. simpl in S2'. pose proof (bpow_gt_0 radix2 emax). lra.
      - replace (b_add np (Binary.B754_infinity false) sq) with (Binary.B754_infinity false : F).
        + split; [reflexivity|]. pose proof (bound_1024 (a + s) Las).
          change (key (Binary.B754_infinity false : F)) with (bpow radix2 emax). lra.
        + destruct sq as [s'|[|]|s' pl h|s' m e h]; try discriminate; try reflexivity.
          simpl in S2'. pose proof (bpow_gt_0 radix2 emax). lra.
      - exfalso. change (key (Binary.B754_infinity true : F)) with (- bpow radix2 emax)%R in Ka.
        pose proof (bound_1024 a La). lra. }
    destruct S as [N K2]. set (t := b_add np acc sq) in *.
    destruct (inf_cases t N) as [Fs|[E|E]].
    - destruct (key_sub np t q Fs Fp) as [N' ->]. split; auto. rewrite key_finite in K2 by auto.
      rewrite <- (sat_1024 (a + s - p)) by lia. apply sat_le. rewrite minus_IZR. lra.
    - rewrite E. replace (b_sub np (Binary.B754_infinity false) q) with (Binary.B754_infinity false : F).
      + split; auto. pose proof (bound_1024 (a + s - p) Lp).
        change (key (Binary.B754_infinity false : F)) with (bpow radix2 emax). lra.
      + destruct q as [s'|[|]|s' pl h|s' m e h]; try discriminate; reflexivity.
    - rewrite E in K2. exfalso. change (key (Binary.B754_infinity true : F)) with (- bpow radix2 emax)%R in K2.
      pose proof (bound_1024 (a + s) Las). lra.
  Qed.
  Lemma ten_cos (c : F) p : is_finite c = true -> (Rabs (B2R c) <= 1)%R -> (Z.abs p <= 2 ^ prec)%Z ->
    (B2R c <= IZR p / 10240)%R ->
    is_finite (b_mul np (b_of_Z 10) c) = true /\ (B2R (b_mul np (b_of_Z 10) c) <= IZR p / 1024)%R.
  Proof.
    intros Fc Bc Lp Hpc.
    assert (P24 : (2 ^ 24 <= 2 ^ prec)%Z) by (apply Z.pow_le_mono_r; lia). simpl (2 ^ 24)%Z in P24.
    destruct (of_Z_exact (prec := prec) (emax := emax) 10 ltac:(simpl; lia)) as [F10 V10].
    apply Rabs_le_inv in Bc.
    assert (B1 : (-10 <= rnd (10 * B2R c) <= 10)%R).
    { split; [apply Rle_trans with (rnd (IZR (-10)))|apply Rle_trans with (rnd (IZR 10))];
        try (rewrite rnd_format by (apply format_IZR; simpl; lia); lra); apply rnd_le; lra. }
    destruct (mul_correct np (b_of_Z 10) c F10 Fc) as [M1 M2].
    - rewrite V10. apply Rle_lt_trans with 10%R; [apply Rabs_le; lra|].
      apply Rle_lt_trans with (bpow radix2 65); [|apply bpow_lt; lia].
      apply Rle_trans with (bpow radix2 4); [simpl; lra|apply bpow_le; lia].
    - split; auto. rewrite M2, V10. rewrite <- (rnd_format (prec := prec) (emax := emax) (IZR p / 1024)) by (now apply format_1024).
      apply rnd_le. lra.
  Qed.

  Hypothesis Hw : is_finite w = true.
  Hypothesis Bw : (628 / 100 <= B2R w <= 63 / 10)%R.
  Hypothesis Cb : cos_bounded fcos.
  Hypothesis Cn : cos_near fcos.
  Notation small := (fun v : F => is_finite v = true /\ (Rabs (B2R v) <= bpow radix2 (emax - 4))%R).

  Lemma wave_keeps (acc v : F) a k : small v -> (0 <= k)%Z -> (0 <= a <= 8)%Z -> (10240 * (k + 1) <= 2 ^ prec)%Z ->
    is_nan acc = false -> (IZR (a - 10240 * k) / 1024 <= key acc)%R ->
    is_nan (wave acc v) = false /\ (IZR (a - 10240 * (k + 1)) / 1024 <= key (wave acc v))%R.
  Proof.
    intros [Fv Bv] K A L N Ka.
    assert (Fz : is_finite (b_mul np w v) = true).
    { apply (scaled_finite np); auto; [lia|]. apply Rabs_le. lra. }
    destruct (Cb _ Fz) as [C1 C2].
    destruct (ten_cos (fcos (b_mul np w v)) 10240 C1 C2) as [Fp Pp]; [lia|apply Rabs_le_inv in C2; lra|].
    pose proof (non_negative_square np v (finite_not_nan v Fv)) as S. apply non_negative_key in S. destruct S as [S1 S2].
    destruct (wave_step acc v (a - 10240 * k) 0 10240) as [R1 R2]; auto; try lia.
    - eapply Rle_trans; [|exact S2]. lra.
    - split; [exact R1|]. replace (a - 10240 * (k + 1))%Z with (a - 10240 * k + 0 - 10240)%Z by lia. exact R2.
  Qed.
  Lemma wave_gains (acc v : F) k : small v -> (99 / 10000 <= Rabs (B2R v))%R -> (0 <= k)%Z -> (10240 * (k + 1) <= 2 ^ prec)%Z ->
    is_nan acc = false -> (IZR (- (10240 * k)) / 1024 <= key acc)%R ->
    is_nan (wave acc v) = false /\ (IZR (8 - 10240 * (k + 1)) / 1024 <= key (wave acc v))%R.
  Proof.
    intros [Fv Bv] Far K L N Ka.
    assert (Fz : is_finite (b_mul np w v) = true).
    { apply (scaled_finite np); auto; [lia|]. apply Rabs_le. lra. }
    destruct (Cb _ Fz) as [C1 C2].
    assert (P24 : (2 ^ 24 <= 2 ^ prec)%Z) by (apply Z.pow_le_mono_r; lia). simpl (2 ^ 24)%Z in P24.
    destruct (key_mul np v v Fv Fv) as [S1 S2].
    pose proof (non_negative_square np v (finite_not_nan v Fv)) as S. apply non_negative_key in S. destruct S as [_ S3].
    destruct (Rle_or_lt (Rabs (B2R v)) (1 / 10)) as [Near|Off].
    - (* the cosine is small enough *)
      assert (Wv : (Rabs (B2R w * B2R v) = B2R w * Rabs (B2R v))%R) by (rewrite Rabs_mult, (Rabs_pos_eq (B2R w)) by lra; reflexivity).
      assert (Bz : (61 / 1024 <= Rabs (B2R (b_mul np w v)) <= 3 / 4)%R).
      { assert (E : B2R (b_mul np w v) = rnd (B2R w * B2R v)).
        { apply mul_correct; auto. apply Rle_lt_trans with (IZR 1024 / 1024)%R.
          - apply (abs_round_le_generic radix2 (SpecFloat.fexp prec emax)).
            + apply (valid_rnd_round_mode mode_NE).
            + apply format_1024. lia.
            + rewrite Wv. nra.
          - apply bound_1024. lia. }
        rewrite E. split.
        - apply (abs_round_ge_generic radix2 (SpecFloat.fexp prec emax)).
          + apply (valid_rnd_round_mode mode_NE).
          + apply format_1024. lia.
          + rewrite Wv. nra.
        - replace (3 / 4)%R with (IZR 768 / 1024)%R by lra. apply (abs_round_le_generic radix2 (SpecFloat.fexp prec emax)).
          + apply (valid_rnd_round_mode mode_NE).
          + apply format_1024. lia.
          + rewrite Wv. nra. }
      pose proof (Cn _ Fz ltac:(lra)) as D. apply Rabs_le_inv in D. pose proof (cos_away _ Bz) as Q.
      destruct (ten_cos (fcos (b_mul np w v)) 10232 C1 C2) as [Fp Pp]; [lia|lra|].
      destruct (wave_step acc v (- (10240 * k)) 0 10232) as [R1 R2]; auto; try lia.
      + eapply Rle_trans; [|exact S3]. lra.
      + split; [exact R1|]. replace (8 - 10240 * (k + 1))%Z with (- (10240 * k) + 0 - 10232)%Z by lia. exact R2.
    - (* the square is large enough *)
      destruct (ten_cos (fcos (b_mul np w v)) 10240 C1 C2) as [Fp Pp]; [lia|apply Rabs_le_inv in C2; lra|].
      destruct (wave_step acc v (- (10240 * k)) 8 10240) as [R1 R2]; auto; try lia.
      + rewrite S2, <- (sat_1024 8) by lia. apply sat_le.
        replace (B2R v * B2R v)%R with (Rabs (B2R v) * Rabs (B2R v))%R by (rewrite <- Rabs_mult; apply Rabs_pos_eq; nra). nra.
      + split; [exact R1|]. replace (8 - 10240 * (k + 1))%Z with (- (10240 * k) + 8 - 10240)%Z by lia. exact R2.
  Qed.
  Lemma fold_keeps a (x : list F) : Forall small x -> (0 <= a <= 8)%Z -> forall acc k, (0 <= k)%Z ->
    (10240 * (k + Z.of_nat (length x)) <= 2 ^ prec)%Z -> is_nan acc = false -> (IZR (a - 10240 * k) / 1024 <= key acc)%R ->
    is_nan (fold_left wave x acc) = false /\ (IZR (a - 10240 * (k + Z.of_nat (length x))) / 1024 <= key (fold_left wave x acc))%R.
  Proof.
    intros H A. induction H as [|v x Hv _ IH]; intros acc k K L N Ka.
    - cbn [length fold_left] in *. replace (k + Z.of_nat 0)%Z with k by lia. auto.
    - cbn [length] in L. cbn [fold_left length]. destruct (wave_keeps acc v a k Hv K A ltac:(lia) N Ka) as [N' K'].
      replace (k + Z.of_nat (S (length x)))%Z with (k + 1 + Z.of_nat (length x))%Z by lia. apply IH; auto; lia.
  Qed.
  Lemma fold_gains (x : list F) : Forall small x -> Exists (fun v => 99 / 10000 <= Rabs (B2R v))%R x -> forall acc k, (0 <= k)%Z ->
    (10240 * (k + Z.of_nat (length x)) <= 2 ^ prec)%Z -> is_nan acc = false -> (IZR (- (10240 * k)) / 1024 <= key acc)%R ->
    is_nan (fold_left wave x acc) = false /\ (IZR (8 - 10240 * (k + Z.of_nat (length x))) / 1024 <= key (fold_left wave x acc))%R.
  Proof.
    intros H E. induction E as [v x Hv|v x _ IH]; intros acc k K L N Ka; inversion H as [|? ? Sv Sx]; subst; cbn [length] in L; cbn [fold_left length];
      replace (k + Z.of_nat (S (length x)))%Z with (k + 1 + Z.of_nat (length x))%Z by lia.
    - destruct (wave_gains acc v k Sv Hv K ltac:(lia) N Ka) as [N' K']. apply fold_keeps; auto; lia.
    - destruct (wave_keeps acc v 0 k Sv K ltac:(lia) ltac:(lia) N Ka) as [N' K']. apply IH; auto; lia.
  Qed.
  Lemma rastrigin_far (x : list F) : Forall small x -> (10240 * Z.of_nat (length x) <= 2 ^ prec)%Z ->
    Exists (fun v => 99 / 10000 <= Rabs (B2R v))%R x ->
    is_nan (rastrigin_g x) = false /\ (1 / 128 <= key (rastrigin_g x))%R.
  Proof.
    intros H L E. rewrite (rastrigin_fold np Hlit).
    destruct (fold_gains x H E zero 0) as [N K]; [lia|lia|reflexivity|simpl; lra|].
    rewrite Z.add_0_l in K.
    assert (P24 : (2 ^ 24 <= 2 ^ prec)%Z) by (apply Z.pow_le_mono_r; lia). simpl (2 ^ 24)%Z in P24.
    rewrite (int_mul np) by lia.
    set (n := Z.of_nat (length x)) in *. set (s := fold_left wave x zero) in *.
    destruct (of_Z_exact (prec := prec) (emax := emax) (10 * n) ltac:(lia)) as [Fn Vn].
    pose proof (bound_1024 (8 - 10240 * n) ltac:(lia)) as Bn.
    replace (1 / 128)%R with (IZR 8 / 1024)%R by lra.
    destruct (inf_cases s N) as [Fs|[Es|Es]].
    - destruct (key_add np (b_of_Z (10 * n)) s Fn Fs) as [N' K']. split; auto.
      rewrite K', Vn. rewrite <- (sat_1024 8) by lia. apply sat_le. rewrite key_finite in K by auto.
      rewrite minus_IZR, mult_IZR in K. rewrite mult_IZR. lra.
    - rewrite Es. pose proof (bound_1024 8 ltac:(lia)).
      replace (b_add np (b_of_Z (10 * n)) (Binary.B754_infinity false)) with (Binary.B754_infinity false : F).
      + split; [reflexivity|]. change (key (Binary.B754_infinity false : F)) with (bpow radix2 emax). lra.
      + destruct (b_of_Z (10 * n) : F) as [s'|s'|s' pl h|s' m e h]; try discriminate; reflexivity.
    - rewrite Es in K. change (key (Binary.B754_infinity true : F)) with (- bpow radix2 emax)%R in K. lra.
  Qed.
End Float.
