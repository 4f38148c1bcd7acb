(** * MaxVelocityAbs, CanonicalVelocityCalculator::new and LinearInertia: proofs *)

From Coq Require Import List Arith ZArith Bool Lia Reals Lra.
From Flocq Require Import Core IEEE754.BinarySingleNaN IEEE754.Binary Relative Mult_error.
From Verif Require Import Base FloatModel Rng FloatFacts GaModel PsoModel PsoComponents CreateFacts ArithFacts PostFacts
  SatFacts SpecReal.
Import ListNotations.

(** ** MaxVelocityAbs (C41) *)
Section MaxAbs.
  Context {prec emax : Z} {Hp : Prec_gt_0 prec} {He : Prec_lt_emax prec emax}.
  Variable np : nan_policy prec emax.
  Notation F := (bfloat prec emax).
  Notation fexp := (SpecFloat.fexp prec emax).
  Notation rnd := (round radix2 fexp (round_mode mode_NE)).
  Notation B2R := (Binary.B2R prec emax).
  Notation M := (bpow radix2 emax).
  Notation zero := (Binary.B754_zero false : F).
  Notation norm := (@velocity_norm F (FloatIEEE np)).
  Notation correct := (@max_velocity_abs F (FloatIEEE np)).
  #[local] Instance vexp'' : Valid_exp fexp := BinarySingleNaN.fexp_correct prec emax Hp.
  #[local] Instance vrnd'' : Valid_rnd (round_mode mode_NE) := valid_rnd_round_mode mode_NE.

  Lemma max_abs_within limit v : ltb limit (norm v) = false -> correct limit v = v.
  Proof. intros H. unfold max_velocity_abs. cbn [flt FloatIEEE]. now rewrite H. Qed.
  Lemma max_abs_length limit v : length (correct limit v) = length v.
  Proof.
    unfold max_velocity_abs. cbn [flt FloatIEEE]. destruct (ltb limit (norm v)); auto. apply map_length.
  Qed.

  Lemma sum_finite v acc :
    is_finite (fold_left (fun a vi => b_add np a (b_mul np vi vi)) v acc) = true ->
    is_finite acc = true /\ Forall (fun vi => is_finite (b_mul np vi vi) = true) v.
  Proof.
    revert acc. induction v as [|x v IH]; intros acc; simpl; auto.
    intros H. destruct (IH _ H) as [A B]. apply add_finite_args in A. destruct A. auto.
  Qed.

  Variable h : Z.
  Hypothesis even : emax = (2 * h)%Z.
  Lemma h_pos : (0 < h)%Z.
  Proof. pose proof prec_pos (prec := prec). pose proof prec_emax (prec := prec) (emax := emax). lia. Qed.
  Lemma bpow_hh : (bpow radix2 h * bpow radix2 h = M)%R.
  Proof. rewrite <- bpow_plus. f_equal. lia. Qed.
  Lemma rnd_bpow e : (0 <= e)%Z -> rnd (bpow radix2 e) = bpow radix2 e.
  Proof.
    intros H. apply rnd_format. apply generic_format_bpow.
    pose proof prec_pos (prec := prec). pose proof prec_emax (prec := prec) (emax := emax).
    unfold SpecFloat.fexp, SpecFloat.emin. lia.
  Qed.
  Lemma square_finite (x : F) : is_finite (b_mul np x x) = true ->
    is_finite x = true /\ (Rabs (B2R x) < bpow radix2 h)%R.
  Proof.
    intros H. destruct (mul_finite_args np x x H) as [Fx _]. split; auto.
    apply Rnot_le_lt. intros G. destruct (key_mul np x x Fx Fx) as [_ K].
    pose proof (key_bound _ H) as B. rewrite K in B.
    assert (L : (M <= rnd (B2R x * B2R x))%R).
    { pose proof h_pos. pose proof prec_pos (prec := prec).
      pose proof prec_emax (prec := prec) (emax := emax). rewrite <- (rnd_bpow emax) by lia.
      apply rnd_le. rewrite <- bpow_hh. rewrite <- (Rabs_pos_eq (B2R x * B2R x)) by nra.
      rewrite Rabs_mult. pose proof (bpow_gt_0 radix2 h). nra. }
    rewrite sat_big in B by auto. lra.
  Qed.
  Lemma norm_finite v : is_finite (norm v) = true ->
    Forall (fun vi => is_finite vi = true /\ (Rabs (B2R vi) < bpow radix2 h)%R) v /\
    (0 <= B2R (norm v) <= bpow radix2 h)%R.
  Proof.
    unfold velocity_norm. cbn [fsqrt fadd fmul fzero FloatIEEE]. intros H.
    apply sqrt_finite_args in H. destruct H as [H1 [H2 H3]]. split.
    - apply sum_finite in H1. destruct H1 as [_ H1]. eapply Forall_impl; [|exact H1].
      intros x. apply square_finite.
    - rewrite H3. split.
      + apply rnd_pos, sqrt_pos.
      + rewrite <- (rnd_bpow h) by (pose proof h_pos; lia). apply rnd_le.
        rewrite <- (sqrt_square (bpow radix2 h)) by apply bpow_ge_0. apply sqrt_le_1_alt.
        pose proof (B2R_bound (fold_left (fun a vi => b_add np a (b_mul np vi vi)) v (zero))) as B.
        apply Rabs_lt_inv in B. rewrite bpow_hh. lra.
  Qed.

  (** The product of a component and the limit does not overflow. *)
  Lemma scaled_finite (x m : F) : is_finite x = true -> is_finite m = true ->
    (Rabs (B2R x) < bpow radix2 h)%R -> (0 <= B2R m <= bpow radix2 h)%R ->
    is_finite (b_mul np x m) = true /\ B2R (b_mul np x m) = rnd (B2R x * B2R m).
  Proof.
    intros Fx Fm Bx Bm. apply mul_correct; auto.
    apply Rle_lt_trans with (Rabs (B2R x) * bpow radix2 h)%R.
    - apply abs_round_le_generic; [exact vexp''|exact vrnd''| |].
      + apply (mult_bpow_pos_exact_FLT radix2 (SpecFloat.emin prec emax) prec).
        * apply generic_format_abs, format_B2R.
        * pose proof h_pos. lia.
      + rewrite Rabs_mult. rewrite (Rabs_pos_eq (B2R m)) by lra.
        apply Rmult_le_compat_l; [apply Rabs_pos|lra].
    - rewrite <- bpow_hh. apply Rmult_lt_compat_r; auto. apply bpow_gt_0.
  Qed.

  (** One component. *)
  Lemma scaled_component (x m n : F) :
    is_finite x = true -> is_finite m = true -> is_finite n = true ->
    (Rabs (B2R x) < bpow radix2 h)%R -> (0 <= B2R m < B2R n)%R -> (B2R n <= bpow radix2 h)%R ->
    let y := b_div np (b_mul np x m) n in
    is_nan y = false /\
    (leb zero x = true -> leb zero y = true) /\
    (leb x zero = true -> leb y zero = true) /\
    ((B2R x * B2R m = 0)%R \/ (min_normal prec emax <= Rabs (B2R x * B2R m))%R -> leb (b_abs y) (b_abs x) = true).
  Proof.
    intros Fx Fm Fn Bx Bm Bn.
    destruct (scaled_finite x m Fx Fm Bx) as [Fp Ep]; [lra|].
    set (p := b_mul np x m) in *. intros y.
    destruct (key_div np p n Fp Fn) as [Ny Ky]; [lra|]. fold y in Ny, Ky.
    split; auto.
    assert (Pn : (0 < / B2R n)%R) by (apply Rinv_0_lt_compat; lra).
    assert (K0 : key zero = 0%R) by reflexivity.
    split; [|split].
    - intros H. fkeys. match goal with K : (key _ <= key _)%R |- _ => rewrite K0, (key_finite x) in K by auto end.
      apply leb_key. rewrite K0. split; [auto|split; [auto|]].
      rewrite Ky. apply sat_pos. rewrite Ep. unfold Rdiv. apply Rmult_le_pos; [|lra]. apply rnd_pos. nra.
    - intros H. fkeys. match goal with K : (key _ <= key _)%R |- _ => rewrite K0, (key_finite x) in K by auto end.
      apply leb_key. rewrite K0. split; [auto|split; [auto|]].
      rewrite Ky. apply sat_neg. rewrite Ep. unfold Rdiv.
      assert (R : (rnd (B2R x * B2R m) <= 0)%R) by (apply rnd_neg; nra). nra.
    - intros H.
      assert (A : (Rabs (B2R p) <= Rabs (B2R x) * B2R n)%R).
      { rewrite Ep. destruct H as [H|H].
        - rewrite H, rnd_0, Rabs_R0. apply Rmult_le_pos; [apply Rabs_pos|lra].
        - pose proof (relative_error_N_FLT radix2 (SpecFloat.emin prec emax) prec Hp (fun z => negb (Z.even z))
            (B2R x * B2R m) H) as E.
          change (round radix2 (FLT_exp (SpecFloat.emin prec emax) prec) (Znearest (fun z => negb (Z.even z)))
            (B2R x * B2R m)) with (rnd (B2R x * B2R m)) in E.
          rewrite bpow_plus in E. change (bpow radix2 1) with 2%R in E.
          set (u := bpow radix2 (- prec)) in *.
          assert (Pu : (0 < u)%R) by apply bpow_gt_0.
          assert (S : (B2R m * (1 + u) <= B2R n)%R).
          { apply Rle_trans with (succ radix2 fexp (B2R m)).
            - rewrite succ_eq_pos by lra.
              pose proof (ulp_FLT_gt radix2 (SpecFloat.emin prec emax) prec (B2R m)) as G.
              change (ulp radix2 (FLT_exp (SpecFloat.emin prec emax) prec) (B2R m))
                with (ulp radix2 fexp (B2R m)) in G.
              rewrite Rabs_pos_eq in G by lra. fold u in G. lra.
            - apply succ_le_lt; auto using format_B2R; try exact vexp''. lra. }
          replace (rnd (B2R x * B2R m)) with (B2R x * B2R m + (rnd (B2R x * B2R m) - B2R x * B2R m))%R by ring.
          eapply Rle_trans; [apply Rabs_triang|].
          eapply Rle_trans; [apply Rplus_le_compat_l; exact E|].
          rewrite Rabs_mult, (Rabs_pos_eq (B2R m)) by lra.
          pose proof (Rabs_pos (B2R x)). nra. }
      assert (Q : (Rabs (B2R p / B2R n) <= Rabs (B2R x))%R).
      { unfold Rdiv. rewrite Rabs_mult, (Rabs_pos_eq (/ B2R n)) by lra.
        apply Rmult_le_reg_r with (B2R n); [lra|]. rewrite Rmult_assoc, Rinv_l by lra. lra. }
      assert (QR : (Rabs (rnd (B2R p / B2R n)) <= Rabs (B2R x))%R).
      { apply abs_round_le_generic; auto; [exact vexp''|exact vrnd''|]. apply generic_format_abs, format_B2R. }
      pose proof (B2R_bound x).
      apply leb_key. rewrite !nan_abs, !key_abs. repeat split; auto; [now apply finite_not_nan|].
      rewrite Ky, sat_in by lra. rewrite key_finite by auto. exact QR.
  Qed.

  Lemma max_abs_spec limit v k vk yk :
    is_finite (norm v) = true -> leb zero limit = true -> ltb limit (norm v) = true ->
    nth_error v k = Some vk -> nth_error (correct limit v) k = Some yk ->
    is_finite vk = true /\ is_nan yk = false /\
    (leb zero vk = true -> leb zero yk = true) /\ (leb vk zero = true -> leb yk zero = true) /\
    ((B2R vk * B2R limit = 0)%R \/ (min_normal prec emax <= Rabs (B2R vk * B2R limit))%R ->
       leb (b_abs yk) (b_abs vk) = true).
  Proof.
    intros Fn L0 L1 Hv Hy. unfold max_velocity_abs in Hy. cbn [flt fdiv fmul FloatIEEE] in Hy.
    rewrite L1 in Hy. rewrite nth_error_map, Hv in Hy. injection Hy as <-.
    destruct (norm_finite v Fn) as [Hf Hn]. rewrite Forall_forall in Hf.
    destruct (Hf vk (nth_error_In _ _ Hv)) as [Fv Bv].
    apply leb_key in L0. destruct L0 as [_ [Nl K0]]. apply ltb_key in L1. destruct L1 as [_ [_ K1]].
    change (key zero) with 0%R in K0. pose proof (key_bound _ Fn) as Kb.
    assert (Fm : is_finite limit = true) by (apply finite_key; auto; rewrite Rabs_pos_eq; lra).
    rewrite (key_finite limit) in K0, K1 by auto. rewrite (key_finite (norm v)) in K1 by auto.
    split; auto. apply scaled_component; auto. exact (proj2 Hn).
  Qed.
End MaxAbs.

(** In exact arithmetic the corrected velocity has exactly the maximal length. *)
Lemma norm_exact v : @velocity_norm R FloatR v = length2 v.
Proof.
  unfold velocity_norm, length2. cbn [fsqrt fadd fmul fzero FloatR]. f_equal.
  assert (G : forall a, fold_left (fun acc vi => (acc + vi * vi)%R) v a
                        = (a + fold_right (fun x s => (x * x + s)%R) 0 v)%R).
  { induction v as [|x v IH]; intros a; simpl; [ring|]. rewrite IH. ring. }
  rewrite G. ring.
Qed.
Lemma length2_scale c v : (0 <= c)%R -> length2 (map (fun x => (c * x)%R) v) = (c * length2 v)%R.
Proof.
  intros H. unfold length2.
  assert (G : fold_right (fun x s => (x * x + s)%R) 0%R (map (fun x => (c * x)%R) v)
              = (c * c * fold_right (fun x s => (x * x + s)%R) 0 v)%R).
  { induction v as [|x v IH]; simpl; [ring|]. rewrite IH. ring. }
  rewrite G, sqrt_mult_alt by nra. now rewrite sqrt_square.
Qed.
Lemma max_abs_exact limit v : (0 <= limit)%R ->
  let y := @max_velocity_abs R FloatR limit v in
  ((length2 v <= limit)%R -> y = v) /\
  ((limit < length2 v)%R -> length2 y = limit /\
     exists c, (0 <= c < 1)%R /\ y = map (fun x => (c * x)%R) v).
Proof.
  intros Hl. unfold max_velocity_abs. rewrite norm_exact. cbn [flt fdiv fmul FloatR]. split; intros H.
  - now rewrite Rlt_bool_false.
  - rewrite Rlt_bool_true by auto. set (n := length2 v) in *.
    assert (Pn : (0 < / n)%R) by (apply Rinv_0_lt_compat; lra).
    assert (E : map (fun vi => (vi * limit / n)%R) v = map (fun x => ((limit / n) * x)%R) v).
    { apply map_ext. intros x. field. lra. }
    assert (C : (0 <= limit / n < 1)%R).
    { unfold Rdiv. split; [apply Rmult_le_pos; lra|]. apply Rmult_lt_reg_r with n; [lra|].
      rewrite Rmult_assoc, Rinv_l by lra. lra. }
    rewrite E. split; [|exists (limit / n)%R; auto]. rewrite length2_scale by lra. fold n. field. lra.
Qed.

(** ** CanonicalVelocityCalculator::new (C43) *)
Section Canonical.
  Context {prec emax : Z} {Hp : Prec_gt_0 prec} {He : Prec_lt_emax prec emax}.
  Variable np : nan_policy prec emax.
  Notation F := (bfloat prec emax).
  Notation fexp := (SpecFloat.fexp prec emax).
  Notation rnd := (round radix2 fexp (round_mode mode_NE)).
  Notation B2R := (Binary.B2R prec emax).
  Notation sign := (Binary.Bsign prec emax).
  Notation M := (bpow radix2 emax).
  Notation zero := (Binary.B754_zero false : F).
  Notation new := (@canonical_new F (FloatIEEE np)).
  #[local] Instance vexp3 : Valid_exp fexp := BinarySingleNaN.fexp_correct prec emax Hp.
  #[local] Instance vrnd3 : Valid_rnd (round_mode mode_NE) := valid_rnd_round_mode mode_NE.

  Lemma of_f64_Z n : (Z.abs n <= 2 ^ prec)%Z -> (Z.abs n <= 2 ^ 53)%Z -> (0 < n)%Z ->
    fconv (np_of64 np) (b_of_Z n : f64) = (b_of_Z n : F).
  Proof.
    intros H1 H2 H3. destruct (@of_Z_exact 53 1024 _ _ n H2) as [A1 A2].
    destruct (of_Z_exact (prec := prec) (emax := emax) n H1) as [B1 B2].
    assert (P : (0 < IZR n)%R) by (apply IZR_lt; auto).
    assert (G : round radix2 fexp (round_mode mode_NE) (Binary.B2R 53 1024 (b_of_Z n)) = IZR n).
    { rewrite A2. apply rnd_format. now apply format_IZR. }
    destruct (fconv_correct (np_of64 np) (b_of_Z n : f64) A1) as [C1 C2].
    { rewrite G. now apply IZR_bound. }
    rewrite G in C2. apply Binary.B2R_Bsign_inj; auto.
    - now rewrite B2, C2.
    - rewrite !sign_pos; auto; [now rewrite B2|now rewrite C2].
  Qed.

  Hypothesis two_bits : (2 <= prec)%Z.
  Lemma small_Z n : (0 <= n <= 4)%Z -> (Z.abs n <= 2 ^ prec)%Z.
  Proof. intros H. assert (2 ^ 2 <= 2 ^ prec)%Z by (apply Z.pow_le_mono_r; lia). lia. Qed.
  Notation four := (b_of_Z 4 : F).
  Notation two := (b_of_Z 2 : F).
  Lemma four_eq : fconv (np_of64 np) (b_of_Z 4 : f64) = four.
  Proof. apply of_f64_Z; try lia. apply small_Z; lia. Qed.
  Lemma two_eq : fconv (np_of64 np) (b_of_Z 2 : f64) = two.
  Proof. apply of_f64_Z; try lia. apply small_Z; lia. Qed.

  Lemma canonical_new_panics phi_p phi_g alpha :
    new phi_p phi_g alpha = Panic <->
    ~ (ltb four (b_add np phi_p phi_g) = true /\ ltb zero alpha = true /\ ltb alpha b_one = true).
  Proof.
    unfold canonical_new. cbn [flt fof_f64 fadd fzero fone FloatIEEE]. rewrite four_eq.
    destruct (ltb four (b_add np phi_p phi_g)); simpl; [|intuition discriminate].
    destruct (ltb zero alpha); simpl; [|intuition discriminate].
    destruct (ltb alpha b_one); simpl; intuition discriminate.
  Qed.

  (** The two sums of the constructor have the same value. *)
  Lemma add_comm_key (x y : F) : is_nan (b_add np x y) = false ->
    is_nan (b_add np y x) = false /\ key (b_add np y x) = key (b_add np x y).
  Proof.
    intros N. destruct (is_finite x && is_finite y) eqn:E.
    - apply andb_prop in E. destruct E as [Fx Fy].
      destruct (key_add np x y Fx Fy) as [_ K1]. destruct (key_add np y x Fy Fx) as [N2 K2].
      split; auto. rewrite K1, K2. f_equal. ring.
    - revert N. unfold b_add, Binary.Bplus.
      destruct x as [s|s|s pl h|s m e h], y as [s'|s'|s' pl' h'|s' m' e' h']; try discriminate E; simpl; auto;
        try discriminate; destruct s; try discriminate; destruct s'; simpl; auto; discriminate.
  Qed.

  Lemma canonical_xi phi_p phi_g alpha xi : new phi_p phi_g alpha = Ret xi ->
    leb zero xi = true /\ leb xi alpha = true /\ ltb xi b_one = true /\
    is_finite xi = true.
  Proof.
    intros H. unfold canonical_new in H. cbn [flt fof_f64 fadd fzero fone fdiv fmul fsub FloatIEEE] in H.
    rewrite four_eq, two_eq in H.
    destruct (ltb four (b_add np phi_p phi_g)) eqn:H4; [|discriminate]. cbn [oassert obind] in H.
    destruct (ltb zero alpha) eqn:Ha; [|discriminate]. cbn [oassert obind] in H.
    destruct (ltb alpha b_one) eqn:H1; [|discriminate]. cbn [oassert obind] in H. injection H as H.
    apply ltb_key in H4. destruct H4 as [_ [N K4]].
    destruct (of_Z_exact (prec := prec) (emax := emax) 4) as [F4 E4]; [apply small_Z; lia|].
    destruct (of_Z_exact (prec := prec) (emax := emax) 2) as [F2 E2]; [apply small_Z; lia|].
    rewrite (key_finite four) in K4 by auto. rewrite E4 in K4.
    destruct (add_comm_key _ _ N) as [N' K']. rewrite <- K' in K4.
    set (phi := b_add np phi_g phi_p) in *.
    apply ltb_key in Ha. destruct Ha as [_ [Na K0]]. change (key zero) with 0%R in K0.
    apply ltb_key in H1. destruct H1 as [_ [_ K1]].
    destruct (one_B2R (prec := prec) (emax := emax)) as [F1 [E1 _]].
    rewrite (key_finite b_one), E1 in K1 by auto.
    assert (GM : (4 <= M)%R).
    { change 4%R with (bpow radix2 2). apply bpow_le. pose proof prec_emax (prec := prec) (emax := emax). lia. }
    assert (Fa : is_finite alpha = true) by (apply finite_key; auto; rewrite Rabs_pos_eq; lra).
    rewrite (key_finite alpha) in K0, K1 by auto.
    (* the numerator *)
    assert (Fn : is_finite (b_mul np two alpha) = true /\ B2R (b_mul np two alpha) = (2 * B2R alpha)%R).
    { assert (G : rnd (B2R two * B2R alpha) = (2 * B2R alpha)%R).
      { rewrite E2. apply rnd_format. rewrite Rmult_comm. change 2%R with (bpow radix2 1).
        apply (mult_bpow_pos_exact_FLT radix2 (SpecFloat.emin prec emax) prec); [apply format_B2R|lia]. }
      rewrite <- G. apply mul_correct; auto. rewrite G, Rabs_pos_eq; lra. }
    destruct Fn as [Fn En]. set (num := b_mul np two alpha) in *.
    assert (Main : is_nan xi = false /\ (0 <= key xi <= B2R alpha)%R).
    { destruct (is_finite phi) eqn:Fphi.
      - (* the denominator *)
        assert (Rd : (2 <= rnd (B2R phi - B2R two) <= B2R phi)%R).
        { rewrite (key_finite phi) in K4 by auto. rewrite E2. split.
          - apply Rle_trans with (rnd 2); [|apply rnd_le; lra].
            rewrite rnd_format; [lra|]. apply (format_IZR 2). apply small_Z. lia.
          - rewrite <- (rnd_B2R phi) at 2. apply rnd_le. lra. }
        destruct (sub_correct np phi two Fphi F2) as [Fd Ed].
        { rewrite Rabs_pos_eq by lra. eapply Rle_lt_trans; [apply Rd|].
          pose proof (B2R_bound phi) as B. apply Rabs_lt_inv in B. lra. }
        rewrite <- Ed in Rd. set (den := b_sub np phi two) in *.
        destruct (key_div np num den Fn Fd) as [Nx Kx]; [lra|]. rewrite H in Nx, Kx. split; auto.
        rewrite Kx, En.
        assert (Pd : (0 < / B2R den)%R) by (apply Rinv_0_lt_compat; lra).
        assert (Q : (0 <= 2 * B2R alpha / B2R den <= B2R alpha)%R).
        { unfold Rdiv. split; [apply Rmult_le_pos; lra|]. apply Rmult_le_reg_r with (B2R den); [lra|].
          rewrite Rmult_assoc, Rinv_l by lra. nra. }
        split; [apply sat_pos; lra|]. apply Rle_trans with (sat (prec := prec) (emax := emax) (B2R alpha)); [apply sat_le; lra|].
        rewrite sat_B2R. lra.
      - assert (E : phi = Binary.B754_infinity false).
        { destruct phi as [s|[|]|s pl hh|s m e hh]; auto; try discriminate. exfalso. simpl in K4. lra. }
        assert (Ed : b_sub np phi two = Binary.B754_infinity false).
        { rewrite E. destruct two as [s|s|s pl hh|s m e hh]; try discriminate; reflexivity. }
        rewrite Ed in H.
        destruct num as [s|s|s pl hh|s m e hh]; try discriminate; rewrite <- H; simpl; split; auto; lra. }
    destruct Main as [Nx Kx].
    assert (Fx : is_finite xi = true).
    { apply finite_key; auto. rewrite Rabs_pos_eq; lra. }
    split; [|split; [|split; auto]].
    - apply leb_key. split; [reflexivity|]. split; auto. change (key zero) with 0%R. lra.
    - apply leb_key. split; auto. split; auto. rewrite (key_finite alpha) by auto. lra.
    - apply ltb_key. split; auto. split; [now apply finite_not_nan|]. rewrite (key_finite b_one), E1 by auto. lra.
  Qed.
End Canonical.

(** ** LinearInertia (C44) *)
Section Inertia.
  Context {prec emax : Z} {Hp : Prec_gt_0 prec} {He : Prec_lt_emax prec emax}.
  Variable np : nan_policy prec emax.
  Notation F := (bfloat prec emax).
  Notation fexp := (SpecFloat.fexp prec emax).
  Notation rnd := (round radix2 fexp (round_mode mode_NE)).
  Notation B2R := (Binary.B2R prec emax).
  Notation M := (bpow radix2 emax).
  Notation inertia := (@linear_inertia F (FloatIEEE np)).
  #[local] Instance vexp4 : Valid_exp fexp := BinarySingleNaN.fexp_correct prec emax Hp.
  #[local] Instance vrnd4 : Valid_rnd (round_mode mode_NE) := valid_rnd_round_mode mode_NE.
  Hypothesis wide : (64 < emax)%Z.

  (** Iteration numbers convert to finite floats, in order. *)
  Lemma of_nat_usize (i : nat) : (Z.of_nat i <= 2 ^ 64)%Z ->
    is_finite (b_of_Z (Z.of_nat i) : F) = true /\ B2R (b_of_Z (Z.of_nat i)) = rnd (IZR (Z.of_nat i)) /\
    (0 <= rnd (IZR (Z.of_nat i)))%R.
  Proof.
    intros H. pose proof (prec_pos (prec := prec)). pose proof (prec_emax (prec := prec) (emax := emax)).
    assert (P : (0 <= rnd (IZR (Z.of_nat i)))%R) by (apply rnd_pos, IZR_le; lia).
    destruct (of_Z_correct (prec := prec) (emax := emax) (Z.of_nat i)) as [A B].
    { rewrite Rabs_pos_eq by auto. apply Rle_lt_trans with (bpow radix2 64); [|apply bpow_lt; auto].
      apply Rle_trans with (rnd (bpow radix2 64)).
      - apply rnd_le. change (bpow radix2 64) with (IZR (2 ^ 64)). now apply IZR_le.
      - apply Req_le, rnd_format, generic_format_bpow. unfold SpecFloat.fexp, SpecFloat.emin. lia. }
    auto.
  Qed.
  Lemma of_nat_pos (i : nat) : 0 < i -> (1 <= rnd (IZR (Z.of_nat i)))%R.
  Proof.
    intros H. apply Rle_trans with (rnd 1); [|apply rnd_le, (IZR_le 1); lia].
    rewrite rnd_format; [lra|].
    apply (format_IZR 1). pose proof (prec_pos (prec := prec)).
      assert (2 ^ 0 <= 2 ^ prec)%Z by (apply Z.pow_le_mono_r; lia). simpl in *. lia.
  Qed.

  Lemma inertia_start w_min w_max t_max :
    is_finite w_max = true -> is_finite (b_sub np w_max w_min) = true ->
    0 < t_max -> (Z.of_nat t_max <= 2 ^ 64)%Z ->
    partial_cmp (inertia w_min w_max t_max 0) w_max = Some Eq.
  Proof.
    intros Fw Fd Ht Hl. unfold linear_inertia, fof_nat. cbn [fsub fdiv fmul fof_Z FloatIEEE].
    destruct (of_nat_usize t_max Hl) as [Ft [Et _]]. pose proof (of_nat_pos t_max Ht) as Pt.
    destruct (of_Z_exact (prec := prec) (emax := emax) 0) as [F0 E0]; [simpl; apply Z.pow_nonneg; lia|].
    change (Z.of_nat 0) with 0%Z. set (d := b_sub np w_max w_min) in *.
    destruct (mul_correct np d (b_of_Z 0) Fd F0) as [Fp Ep].
    { rewrite E0, Rmult_0_r, rnd_0, Rabs_R0. apply bpow_gt_0. }
    rewrite E0, Rmult_0_r, rnd_0 in Ep.
    destruct (div_correct np (b_mul np d (b_of_Z 0)) (b_of_Z (Z.of_nat t_max)) Fp) as [Fq Eq].
    { rewrite Et. lra. }
    { rewrite Ep. unfold Rdiv. rewrite Rmult_0_l, rnd_0, Rabs_R0. apply bpow_gt_0. }
    rewrite Ep in Eq. unfold Rdiv in Eq. rewrite Rmult_0_l, rnd_0 in Eq.
    set (q := b_div np (b_mul np d (b_of_Z 0)) (b_of_Z (Z.of_nat t_max))) in *.
    destruct (sub_correct np w_max q Fw Fq) as [Fr Er].
    { rewrite Eq, Rminus_0_r, rnd_B2R. apply B2R_bound. }
    rewrite Eq, Rminus_0_r, rnd_B2R in Er.
    rewrite partial_cmp_key by now apply finite_not_nan. rewrite !key_finite by auto. rewrite Er.
    f_equal. now apply Rcompare_Eq.
  Qed.

  Lemma div_inf_pos (x y : F) : x = Binary.B754_infinity false -> is_finite y = true -> (0 < B2R y)%R ->
    b_div np x y = Binary.B754_infinity false.
  Proof.
    intros -> Fy Py. pose proof (sign_pos y Py) as S.
    destruct y as [s|s|s pl h|s m e h]; try discriminate; simpl in *; [lra|]. now subst s.
  Qed.
  Lemma sub_inf (x y : F) : is_finite x = true -> y = Binary.B754_infinity false ->
    b_sub np x y = Binary.B754_infinity true.
  Proof. intros Fx ->. destruct x as [s|s|s pl h|s m e h]; try discriminate; reflexivity. Qed.
  Lemma not_finite_top (x : F) : is_nan x = false -> is_finite x = false -> (0 <= key x)%R ->
    x = Binary.B754_infinity false.
  Proof.
    pose proof (bpow_gt_0 radix2 emax).
    destruct x as [s|[|]|s pl h|s m e h]; simpl; intros; try discriminate; auto. lra.
  Qed.

  (** The quotient grows with the iteration number. *)
  Lemma inertia_quotient (d : F) t i j : is_finite d = true -> (0 <= B2R d)%R ->
    is_finite t = true -> (0 < B2R t)%R ->
    i <= j -> (Z.of_nat j <= 2 ^ 64)%Z ->
    let q i := b_div np (b_mul np d (b_of_Z (Z.of_nat i))) t in
    is_nan (q i) = false /\ is_nan (q j) = false /\ (0 <= key (q i) <= key (q j))%R.
  Proof.
    intros Fd Pd Ft Pt Hij Hj q.
    destruct (of_nat_usize i) as [Fi [Ei Pi]]; [lia|]. destruct (of_nat_usize j Hj) as [Fj [Ej Pj]].
    assert (Lij : (rnd (IZR (Z.of_nat i)) <= rnd (IZR (Z.of_nat j)))%R) by (apply rnd_le, IZR_le; lia).
    destruct (key_mul np d (b_of_Z (Z.of_nat i)) Fd Fi) as [Ni Ki].
    destruct (key_mul np d (b_of_Z (Z.of_nat j)) Fd Fj) as [Nj Kj].
    rewrite Ei in Ki. rewrite Ej in Kj. unfold q.
    set (pi := b_mul np d (b_of_Z (Z.of_nat i))) in *. set (pj := b_mul np d (b_of_Z (Z.of_nat j))) in *.
    assert (Kij : (0 <= key pi <= key pj)%R).
    { rewrite Ki, Kj. split; [apply sat_pos; nra|]. apply sat_le. nra. }
    assert (Pit : (0 < / B2R t)%R) by now apply Rinv_0_lt_compat.
    destruct (is_finite pj) eqn:Fpj.
    - assert (Fpi : is_finite pi = true).
      { apply finite_key; auto. pose proof (key_bound pj Fpj). rewrite Rabs_pos_eq; lra. }
      destruct (key_div np pi t Fpi Ft) as [Nqi Kqi]; [lra|].
      destruct (key_div np pj t Fpj Ft) as [Nqj Kqj]; [lra|].
      rewrite !key_finite in Kij by auto.
      split; auto. split; auto. rewrite Kqi, Kqj. unfold Rdiv. split; [apply sat_pos; nra|]. apply sat_le. nra.
    - rewrite (div_inf_pos pj t); auto; [|apply not_finite_top; auto; lra].
      destruct (is_finite pi) eqn:Fpi.
      + destruct (key_div np pi t Fpi Ft) as [Nqi Kqi]; [lra|]. split; auto. split; auto. rewrite Kqi. simpl.
        rewrite (key_finite pi) in Kij by auto. split; [|apply sat_range].
        apply sat_pos. unfold Rdiv. apply Rmult_le_pos; lra.
      + rewrite (div_inf_pos pi t); auto; [|apply not_finite_top; auto; lra]. simpl.
        pose proof (bpow_gt_0 radix2 emax). split; auto. split; auto. lra.
  Qed.

  Lemma inertia_decreasing w_min w_max t_max i j :
    is_finite w_min = true -> is_finite w_max = true -> leb w_min w_max = true ->
    is_finite (b_sub np w_max w_min) = true ->
    0 < t_max -> (Z.of_nat t_max <= 2 ^ 64)%Z -> i <= j -> (Z.of_nat j <= 2 ^ 64)%Z ->
    leb (inertia w_min w_max t_max j) (inertia w_min w_max t_max i) = true.
  Proof.
    intros Fm Fw Hle Fd Ht Hl Hij Hj. unfold linear_inertia, fof_nat. cbn [fsub fdiv fmul fof_Z FloatIEEE].
    destruct (of_nat_usize t_max Hl) as [Ft [Et _]]. pose proof (of_nat_pos t_max Ht) as Pt. rewrite <- Et in Pt.
    assert (Pd : (0 <= B2R (b_sub np w_max w_min))%R).
    { rewrite <- key_finite by auto. destruct (key_sub np w_max w_min Fw Fm) as [_ ->].
      apply sat_pos. apply leb_key in Hle. destruct Hle as [_ [_ Hle]]. rewrite !key_finite in Hle by auto. lra. }
    destruct (inertia_quotient (b_sub np w_max w_min) (b_of_Z (Z.of_nat t_max)) i j) as [Ni [Nj K]]; auto; [lra|].
    cbv zeta in Ni, Nj, K.
    set (qi := b_div np (b_mul np (b_sub np w_max w_min) (b_of_Z (Z.of_nat i))) (b_of_Z (Z.of_nat t_max))) in *.
    set (qj := b_div np (b_mul np (b_sub np w_max w_min) (b_of_Z (Z.of_nat j))) (b_of_Z (Z.of_nat t_max))) in *.
    pose proof (bpow_gt_0 radix2 emax).
    destruct (is_finite qj) eqn:Fqj.
    - assert (Fqi : is_finite qi = true).
      { apply finite_key; auto. pose proof (key_bound qj Fqj). rewrite Rabs_pos_eq; lra. }
      destruct (key_sub np w_max qi Fw Fqi) as [N1 K1]. destruct (key_sub np w_max qj Fw Fqj) as [N2 K2].
      apply leb_key. split; auto. split; auto. rewrite K1, K2. rewrite !key_finite in K by auto.
      apply sat_le. lra.
    - rewrite (sub_inf w_max qj); auto; [|apply not_finite_top; auto; lra].
      destruct (is_finite qi) eqn:Fqi.
      + destruct (key_sub np w_max qi Fw Fqi) as [N1 K1].
        apply leb_key. split; auto. split; auto. rewrite K1. apply sat_range.
      + rewrite (sub_inf w_max qi Fw (not_finite_top qi Ni Fqi (proj1 K))).
        apply leb_key. split; auto. split; auto. lra.
  Qed.
End Inertia.

Lemma inertia_exact w_min w_max t_max i : (w_min <= w_max)%R -> 0 < t_max ->
  let get := @linear_inertia R FloatR w_min w_max t_max in
  get 0 = w_max /\ get t_max = w_min /\ (i <= t_max -> (w_min <= get i <= w_max)%R).
Proof.
  intros Hle Ht. unfold linear_inertia, fof_nat. cbn [fsub fdiv fmul fof_Z FloatR].
  assert (P : (1 <= IZR (Z.of_nat t_max))%R) by (apply (IZR_le 1); lia).
  set (t := IZR (Z.of_nat t_max)) in *. cbv zeta.
  split; [simpl; field; lra|]. split; [field; lra|]. intros Hi.
  assert (Pi : (0 <= IZR (Z.of_nat i) <= t)%R) by (split; apply IZR_le; lia).
  set (ri := IZR (Z.of_nat i)) in *.
  assert (Q : (0 <= ri / t <= 1)%R).
  { unfold Rdiv. assert (0 < / t)%R by (apply Rinv_0_lt_compat; lra). split; [apply Rmult_le_pos; lra|].
    apply Rmult_le_reg_r with t; [lra|]. rewrite Rmult_assoc, Rinv_l by lra. lra. }
  replace ((w_max - w_min) * ri / t)%R with ((w_max - w_min) * (ri / t))%R by (field; lra). nra.
Qed.
