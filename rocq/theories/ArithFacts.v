(** * Correctly rounded arithmetic *)

From Coq Require Import List Arith ZArith Bool Reals Lia Lra.
From Flocq Require Import Core IEEE754.BinarySingleNaN IEEE754.Binary.
From Flocq Require Import Plus_error.
From Verif Require Import Base FloatModel SpecGa FloatFacts.
Import ListNotations.

Section Arith.
  Context {prec emax : Z} {Hp : Prec_gt_0 prec} {He : Prec_lt_emax prec emax}.
  Variable np : nan_policy prec emax.
  Notation F := (bfloat prec emax).
  Notation fexp := (SpecFloat.fexp prec emax).
  Notation rnd x := (round radix2 fexp (round_mode mode_NE) x).
  Notation B2R := (Binary.B2R prec emax).

  Lemma prec_pos : (0 < prec)%Z. Proof. exact Hp. Qed.
  Lemma prec_emax : (prec < emax)%Z. Proof. exact He. Qed.
  #[local] Instance vexp : Valid_exp fexp := BinarySingleNaN.fexp_correct prec emax Hp.
  #[local] Instance vrnd : Valid_rnd (round_mode mode_NE) := valid_rnd_round_mode mode_NE.

  Lemma format_B2R (x : F) : generic_format radix2 fexp (B2R x).
  Proof. apply Binary.generic_format_B2R. Qed.
  Lemma rnd_format r : generic_format radix2 fexp r -> rnd r = r.
  Proof. intros H. apply round_generic; auto. exact vrnd. Qed.
  Lemma rnd_B2R (x : F) : rnd (B2R x) = B2R x.
  Proof. apply rnd_format, format_B2R. Qed.
  Lemma B2R_bound (x : F) : (Rabs (B2R x) < bpow radix2 emax)%R.
  Proof. apply Binary.abs_B2R_lt_emax. Qed.

  (** ** Numbers that are represented exactly *)
  Lemma format_IZR n : (Z.abs n <= 2 ^ prec)%Z -> generic_format radix2 fexp (IZR n).
  Proof.
    intros H. pose proof prec_pos. pose proof prec_emax.
    destruct (Z.eq_dec (Z.abs n) (2 ^ prec)) as [E|E].
    - assert (G : generic_format radix2 fexp (bpow radix2 prec)).
      { apply generic_format_bpow. unfold SpecFloat.fexp, SpecFloat.emin. lia. }
      assert (P : bpow radix2 prec = IZR (2 ^ prec)) by (rewrite <- IZR_Zpower by lia; reflexivity).
      destruct (Zabs_spec n) as [[_ Hn]|[_ Hn]]; rewrite Hn in E.
      + now rewrite E, <- P.
      + replace n with (- 2 ^ prec)%Z by lia. rewrite opp_IZR, <- P. now apply generic_format_opp.
    - apply generic_format_FLT with (emin := SpecFloat.emin prec emax) (prec := prec).
      apply FLT_spec with (Float radix2 n 0); unfold F2R; simpl; [ring|lia|unfold SpecFloat.emin; lia].
  Qed.

  Lemma IZR_bound n : (Z.abs n <= 2 ^ prec)%Z -> (Rabs (IZR n) < bpow radix2 emax)%R.
  Proof.
    intros H. pose proof prec_pos. pose proof prec_emax. rewrite <- abs_IZR.
    apply Rle_lt_trans with (bpow radix2 prec); [|apply bpow_lt; auto].
    rewrite <- IZR_Zpower by lia. apply IZR_le. exact H.
  Qed.

  Lemma of_Z_correct n : (Rabs (rnd (IZR n)) < bpow radix2 emax)%R ->
    is_finite (b_of_Z n : F) = true /\ B2R (b_of_Z n) = rnd (IZR n).
  Proof.
    intros H. unfold b_of_Z.
    pose proof (Binary.binary_normalize_correct prec emax Hp He mode_NE n 0 false) as C.
    replace (F2R (Float radix2 n 0)) with (IZR n) in C by (unfold F2R; simpl; ring).
    rewrite Rlt_bool_true in C by exact H. destruct C as [C1 [C2 _]]. split; auto.
  Qed.
  Lemma of_Z_exact n : (Z.abs n <= 2 ^ prec)%Z -> is_finite (b_of_Z n : F) = true /\ B2R (b_of_Z n) = IZR n.
  Proof.
    intros H. pose proof (format_IZR n H) as G. apply rnd_format in G.
    destruct (of_Z_correct n) as [A B]; rewrite G in *; auto using IZR_bound.
  Qed.

  (** ** Operations on finite numbers *)
  Lemma add_correct x y : is_finite x = true -> is_finite y = true ->
    (Rabs (rnd (B2R x + B2R y)) < bpow radix2 emax)%R ->
    is_finite (b_add np x y) = true /\ B2R (b_add np x y) = rnd (B2R x + B2R y).
  Proof.
    intros Hx Hy H.
    pose proof (Binary.Bplus_correct prec emax Hp He (np_add np) mode_NE x y Hx Hy) as C.
    rewrite Rlt_bool_true in C by exact H. destruct C as [C1 [C2 _]]. auto.
  Qed.
  Lemma sub_correct x y : is_finite x = true -> is_finite y = true ->
    (Rabs (rnd (B2R x - B2R y)) < bpow radix2 emax)%R ->
    is_finite (b_sub np x y) = true /\ B2R (b_sub np x y) = rnd (B2R x - B2R y).
  Proof.
    intros Hx Hy H.
    pose proof (Binary.Bminus_correct prec emax Hp He (np_sub np) mode_NE x y Hx Hy) as C.
    rewrite Rlt_bool_true in C by exact H. destruct C as [C1 [C2 _]]. auto.
  Qed.
  Lemma mul_correct x y : is_finite x = true -> is_finite y = true ->
    (Rabs (rnd (B2R x * B2R y)) < bpow radix2 emax)%R ->
    is_finite (b_mul np x y) = true /\ B2R (b_mul np x y) = rnd (B2R x * B2R y).
  Proof.
    intros Hx Hy H.
    pose proof (Binary.Bmult_correct prec emax Hp He (np_mul np) mode_NE x y) as C.
    rewrite Rlt_bool_true in C by exact H. unfold is_finite in *. rewrite Hx, Hy in C.
    destruct C as [C1 [C2 _]]. auto.
  Qed.
  Lemma mul_sign x y : is_finite x = true -> is_finite y = true ->
    (Rabs (rnd (B2R x * B2R y)) < bpow radix2 emax)%R ->
    Binary.Bsign prec emax (b_mul np x y) = xorb (Binary.Bsign prec emax x) (Binary.Bsign prec emax y).
  Proof.
    intros Hx Hy H. destruct (mul_correct x y Hx Hy H) as [Fm _].
    pose proof (Binary.Bmult_correct prec emax Hp He (np_mul np) mode_NE x y) as C.
    rewrite Rlt_bool_true in C by exact H. destruct C as [_ [_ C]]. apply C.
    apply finite_not_nan in Fm. exact Fm.
  Qed.
  Lemma mul_overflow x y : (bpow radix2 emax <= Rabs (rnd (B2R x * B2R y)))%R ->
    b_mul np x y = Binary.B754_infinity (xorb (Binary.Bsign prec emax x) (Binary.Bsign prec emax y)).
  Proof.
    intros H.
    pose proof (Binary.Bmult_correct prec emax Hp He (np_mul np) mode_NE x y) as C.
    rewrite Rlt_bool_false in C by exact H. apply (Binary.B2FF_inj prec emax). exact C.
  Qed.
  Lemma div_correct x y : is_finite x = true -> B2R y <> 0%R ->
    (Rabs (rnd (B2R x / B2R y)) < bpow radix2 emax)%R ->
    is_finite (b_div np x y) = true /\ B2R (b_div np x y) = rnd (B2R x / B2R y).
  Proof.
    intros Hx Hy H.
    pose proof (Binary.Bdiv_correct prec emax Hp He (np_div np) mode_NE x y Hy) as C.
    rewrite Rlt_bool_true in C by exact H. unfold is_finite in *. rewrite Hx in C.
    destruct C as [C1 [C2 _]]. auto.
  Qed.

  Lemma sign_pos (x : F) : (0 < B2R x)%R -> Binary.Bsign prec emax x = false.
  Proof.
    destruct x as [s|s|s pl h|s m e h]; simpl; try lra. destruct s; auto. intros H.
    assert (F2R (Float radix2 (Z.neg m) e) < 0)%R by (apply F2R_lt_0; simpl; lia).
    unfold F2R in *. simpl in *. lra.
  Qed.
  Lemma sign_neg (x : F) : (B2R x < 0)%R -> Binary.Bsign prec emax x = true.
  Proof.
    destruct x as [s|s|s pl h|s m e h]; simpl; try lra. destruct s; auto. intros H.
    assert (0 < F2R (Float radix2 (Z.pos m) e))%R by (apply F2R_gt_0; simpl; lia).
    unfold F2R in *. simpl in *. lra.
  Qed.

  (** A finite sum did not overflow. *)
  Lemma add_finite_bound x y : is_finite x = true -> is_finite y = true ->
    is_finite (b_add np x y) = true -> (Rabs (rnd (B2R x + B2R y)) < bpow radix2 emax)%R.
  Proof.
    intros Hx Hy H. apply Rnot_le_lt. intros G.
    pose proof (Binary.Bplus_correct prec emax Hp He (np_add np) mode_NE x y Hx Hy) as C.
    rewrite Rlt_bool_false in C by exact G. destruct C as [C _].
    assert (E : b_add np x y = Binary.B754_infinity (Binary.Bsign prec emax x)).
    { apply (Binary.B2FF_inj prec emax). exact C. }
    rewrite E in H. discriminate.
  Qed.

  (** ** Halving after rounding *)
  Lemma rnd_half s : (exists x y : F, s = (B2R x + B2R y)%R) -> rnd (rnd s / 2) = rnd (s / 2).
  Proof.
    intros [x [y ->]]. set (s := (B2R x + B2R y)%R).
    pose proof prec_pos. pose proof prec_emax.
    destruct (Rle_or_lt (Rabs s) (bpow radix2 (prec + SpecFloat.emin prec emax))) as [L|L].
    - rewrite (rnd_format s); auto.
      apply (FLT_format_plus_small radix2 (SpecFloat.emin prec emax) prec); auto; apply format_B2R.
    - assert (NZ : s <> 0%R).
      { intros E. rewrite E, Rabs_R0 in L. pose proof (bpow_gt_0 radix2 (prec + SpecFloat.emin prec emax)). lra. }
      assert (M : (prec + SpecFloat.emin prec emax < mag radix2 s)%Z).
      { apply mag_gt_bpow. left. exact L. }
      assert (MH : mag radix2 (s / 2) = (mag radix2 s - 1)%Z :> Z).
      { replace (s / 2)%R with (s * bpow radix2 (-1))%R by (simpl; lra).
        rewrite mag_mult_bpow by exact NZ. lia. }
      assert (E : (rnd s / 2 = rnd (s / 2))%R).
      { unfold round, scaled_mantissa, cexp. rewrite MH.
        unfold SpecFloat.fexp. rewrite !Z.max_l by lia.
        replace (mag radix2 s - 1 - prec)%Z with (mag radix2 s - prec - 1)%Z by lia.
        set (k := (mag radix2 s - prec)%Z).
        replace (s / 2 * bpow radix2 (- (k - 1)))%R with (s * bpow radix2 (- k))%R.
        - unfold F2R. cbn [Fnum Fexp]. rewrite (bpow_plus radix2 k (-1) : bpow radix2 (k - 1) = _).
          simpl (bpow radix2 (-1)). unfold Rdiv. change (Z.pow_pos 2 1) with 2%Z. ring.
        - replace (- (k - 1))%Z with (- k + 1)%Z by lia. rewrite bpow_plus. simpl (bpow radix2 1).
          change (Z.pow_pos 2 1) with 2%Z. field. }
      rewrite E. apply rnd_format. apply generic_format_round; [exact vexp|exact vrnd].
  Qed.

  (** The mean of two finite numbers whose sum does not overflow. *)
  Lemma half_sum_correct x y (t : F) :
    is_finite x = true -> is_finite y = true -> is_finite (b_add np x y) = true ->
    is_finite t = true -> B2R t = rnd (B2R x + B2R y) ->
    let c := b_div np t (b_of_Z 2) in
    is_finite c = true /\ B2R c = rnd ((B2R x + B2R y) / 2) /\
    (Rmin (B2R x) (B2R y) <= B2R c <= Rmax (B2R x) (B2R y))%R.
  Proof.
    intros Hx Hy Ha Ht Et c.
    assert (T2 : (Z.abs 2 <= 2 ^ prec)%Z).
    { pose proof prec_pos. change (Z.abs 2) with (2 ^ 1)%Z. apply Z.pow_le_mono_r; lia. }
    destruct (of_Z_exact 2 T2) as [F2 E2].
    assert (R : rnd (B2R t / B2R (b_of_Z 2)) = rnd ((B2R x + B2R y) / 2)).
    { rewrite Et, E2. apply rnd_half. eauto. }
    assert (Bd : (Rmin (B2R x) (B2R y) <= rnd ((B2R x + B2R y) / 2) <= Rmax (B2R x) (B2R y))%R).
    { split.
      - apply round_ge_generic; [exact vexp|exact vrnd| |].
        + unfold Rmin. destruct (Rle_dec _ _); apply format_B2R.
        + pose proof (Rmin_l (B2R x) (B2R y)). pose proof (Rmin_r (B2R x) (B2R y)). lra.
      - apply round_le_generic; [exact vexp|exact vrnd| |].
        + unfold Rmax. destruct (Rle_dec _ _); apply format_B2R.
        + pose proof (Rmax_l (B2R x) (B2R y)). pose proof (Rmax_r (B2R x) (B2R y)). lra. }
    destruct (div_correct t (b_of_Z 2) Ht) as [C1 C2].
    - rewrite E2. lra.
    - rewrite R. pose proof (B2R_bound x) as B1. pose proof (B2R_bound y) as B2.
      apply Rabs_lt_inv in B1. apply Rabs_lt_inv in B2. apply Rabs_lt.
      unfold Rmin, Rmax in Bd. destruct (Rle_dec (B2R x) (B2R y)); lra.
    - unfold c. rewrite C2, R. auto.
  Qed.
End Arith.
