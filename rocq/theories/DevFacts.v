(** * Accuracy of standard deviations: proofs *)

From Coq Require Import List Arith ZArith Bool Reals Lia Lra Psatz.
From Flocq Require Import Core IEEE754.BinarySingleNaN IEEE754.Binary.
From Flocq Require Import Relative Plus_error Div_sqrt_error.
From Verif Require Import Base FloatModel FloatFacts ArithFacts SatFacts SpecReal SpecStat SpecMean SpecSpeed SpecDev
  StatModel StatFacts SumFacts VelFacts SpeedFacts.
Import ListNotations.
Local Open Scope R_scope.

Lemma real_sum_sq (f : R -> R) rs : real_sum (map (fun x => Rsqr (f x)) rs) = sq (map f rs).
Proof.
  induction rs as [|x rs IH]; [reflexivity|]. cbn [map]. change (real_sum (?h :: ?t)) with (h + real_sum t).
  cbn [sq fold_right]. fold (sq (map f rs)). rewrite IH. reflexivity.
Qed.
(** Moving the centre moves the length by at most the distance, times sqrt n. *)
Lemma length2_centre a b rs :
  length2 (map (fun x => x - a) rs) <= length2 (map (fun x => x - b) rs) + sqrt (INR (length rs)) * Rabs (a - b).
Proof.
  pose proof (length2_near (map (fun x => x - a) rs) (map (fun x => x - b) rs) 0 (Rabs (a - b)) (Rle_refl 0) (Rabs_pos _)) as H.
  rewrite map_length in H.
  assert (G : Forall2 (fun x y => Rabs (x - y) <= 0 * Rabs y + Rabs (a - b)) (map (fun x => x - a) rs) (map (fun x => x - b) rs)).
  { apply Forall2_maps. intros x _. replace (x - a - (x - b)) with (b - a) by ring.
    rewrite Rabs_minus_sym. lra. }
  specialize (H G). apply Rabs_le_inv in H. lra.
Qed.

Section Dev.
  Context {prec emax : Z} {Hp : Prec_gt_0 prec} {He : Prec_lt_emax prec emax}.
  Variable np : nan_policy prec emax.
  Notation F := (bfloat prec emax).
  Notation fexp := (SpecFloat.fexp prec emax).
  Notation rnd x := (round radix2 fexp (round_mode mode_NE) x).
  Notation B2R := (Binary.B2R prec emax).
  Notation u := (bpow radix2 (- prec)).
  Notation emin := (SpecFloat.emin prec emax).
  Notation eta := (bpow radix2 (emin - 1)).
  Notation zero := (Binary.B754_zero false : F).
  Notation rsum l := (real_sum (map B2R l)).
  Hypothesis Two : (1 < prec)%Z.
  #[local] Instance vexp4 : Valid_exp fexp := BinarySingleNaN.fexp_correct prec emax Hp.
  #[local] Instance vrnd4 : Valid_rnd (round_mode mode_NE) := valid_rnd_round_mode mode_NE.

  Lemma sub_finite_args (x y : F) : is_finite (b_sub np x y) = true -> is_finite x = true /\ is_finite y = true.
  Proof.
    unfold b_sub. destruct x as [|[]| |], y as [|[]| |]; simpl; auto; discriminate.
  Qed.
  (** Differences have no underflow. *)
  Lemma sub_near (x y : F) : is_finite (b_sub np x y) = true ->
    let d := B2R (b_sub np x y) in
    d * d <= (1 + u) ^ 2 * ((B2R x - B2R y) * (B2R x - B2R y)) /\
    (B2R x - B2R y) * (B2R x - B2R y) <= (1 + u) ^ 2 * (d * d).
  Proof.
    intros H d. destruct (sub_finite_args x y H) as [Fx Fy].
    assert (E : d = rnd (B2R x - B2R y)).
    { apply sub_correct; auto. destruct (key_sub np x y Fx Fy) as [_ K]. rewrite key_finite in K by exact H.
      apply sat_finite. rewrite <- K. apply B2R_bound. }
    destruct (FLT_plus_error_N_ex radix2 emin prec (fun z => negb (Z.even z)) (B2R x) (- B2R y)) as [e [E1 E2]];
      [apply format_B2R|apply generic_format_opp, format_B2R|].
    change (rnd (B2R x - B2R y) = (B2R x - B2R y) * (1 + e)) in E2. apply one_eps in E1. rewrite <- E in E2.
    pose proof (bpow_gt_0 radix2 (- prec)) as U.
    assert (I : 0 < / (1 + u)) by (apply Rinv_0_lt_compat; lra).
    assert (K : 1 <= (1 + u) * (1 + e)).
    { replace 1 with ((1 + u) * / (1 + u)) at 1 by (field; lra). apply Rmult_le_compat_l; lra. }
    rewrite E2. set (r := B2R x - B2R y). assert (0 <= r * r) by nra. split.
    - replace (r * (1 + e) * (r * (1 + e))) with ((1 + e) * (1 + e) * (r * r)) by ring.
      apply Rmult_le_compat_r; [lra|]. simpl. rewrite Rmult_1_r. apply Rmult_le_compat; lra.
    - replace ((1 + u) ^ 2 * (r * (1 + e) * (r * (1 + e)))) with (((1 + u) * (1 + e)) * ((1 + u) * (1 + e)) * (r * r)) by ring.
      rewrite <- (Rmult_1_l (r * r)) at 1. apply Rmult_le_compat_r; [lra|]. nra.
  Qed.
  Lemma subs_near (m : F) gs : Forall (fun g => is_finite (b_sub np g m) = true) gs ->
    let V := map B2R (map (fun g => b_sub np g m) gs) in
    let W := map (fun x => x - B2R m) (map B2R gs) in
    sq V <= (1 + u) ^ 2 * sq W /\ sq W <= (1 + u) ^ 2 * sq V.
  Proof.
    induction 1 as [|g gs H _ [I1 I2]]; [cbn; lra|]. cbv zeta in *. cbn [map sq fold_right].
    fold (sq (map B2R (map (fun g => b_sub np g m) gs))) (sq (map (fun x => x - B2R m) (map B2R gs))).
    destruct (sub_near g m H) as [A B]. lra.
  Qed.

  Lemma div_finite_arg (x c : F) : is_finite c = true -> is_finite (b_div np x c) = true -> is_finite x = true.
  Proof. unfold b_div. destruct x as [|[]| |], c as [|[]| |]; simpl; auto; discriminate. Qed.
  Lemma count_value k : (1 <= k)%nat -> (Z.of_nat k <= 2 ^ prec)%Z ->
    is_finite (float_count k : F) = true /\ B2R (float_count k) = INR k.
  Proof.
    intros H1 H2. unfold float_count. destruct (of_Z_exact (prec := prec) (emax := emax) (Z.of_nat k)) as [A B]; [lia|].
    rewrite <- INR_IZR_INZ in B. auto.
  Qed.
  Lemma quotient_near (s : F) k : (1 <= k)%nat -> (Z.of_nat k <= 2 ^ prec)%Z -> is_finite s = true -> 0 <= B2R s ->
    let q := B2R (b_div np s (float_count k)) in
    0 <= q /\ B2R s / INR k <= (1 + u) * q + eta /\ q <= (1 + u) * (B2R s / INR k + eta).
  Proof.
    intros H1 H2 Fs Ps q. destruct (count_value k H1 H2) as [C1 C2].
    assert (K : 1 <= INR k) by (apply (le_INR 1); exact H1).
    assert (I : 0 < / INR k <= 1).
    { split; [apply Rinv_0_lt_compat; lra|]. rewrite <- Rinv_1. apply Rinv_le; lra. }
    assert (P : 0 <= B2R s / INR k) by (unfold Rdiv; nra).
    assert (E : q = rnd (B2R s / INR k)).
    { rewrite <- C2. apply div_correct; auto; rewrite C2; [lra|].
      apply Rle_lt_trans with (Rabs (B2R s)); [|apply B2R_bound].
      apply abs_round_le_generic; [exact vexp4|exact vrnd4|apply generic_format_abs, format_B2R|].
      rewrite !Rabs_pos_eq by lra. unfold Rdiv. nra. }
    rewrite E. now apply rnd_sep.
  Qed.

  (** The deviation about the computed mean [m], from a sum [s] of the squares. *)
  Lemma deviation_near (gs : list F) (m s : F) :
    let n := length gs in
    let qs := sqs np (map (fun g => b_sub np g m) gs) in
    let d := b_sqrt np (b_div np s (float_count (n - 1))) in
    (2 <= n)%nat -> (Z.of_nat n <= 2 ^ prec)%Z ->
    Forall (fun q => is_finite q = true) qs -> is_finite s = true -> 0 <= B2R s ->
    rsum qs <= (1 + u) ^ n * B2R s -> B2R s <= (1 + u) ^ n * rsum qs ->
    is_finite d = true ->
    close prec (n + 5) (2 * Rabs (B2R m - real_mean (map B2R gs)) + 2 * underflow prec emax 1)
      (B2R d) (real_deviation (map B2R gs)).
  Proof.
    intros n qs d N1 N2 Fq Fs Ps S1 S2 Fd.
    unfold qs, sqs in Fq. rewrite Forall_map in Fq.
    destruct (squares np _ Fq) as (_ & Q1 & Q2). rewrite map_length in Q1, Q2. fold n in Q1, Q2.
    change (sqs np (map (fun g => b_sub np g m) gs)) with qs in Q1, Q2.
    rewrite Forall_map in Fq.
    assert (Fv : Forall (fun g => is_finite (b_sub np g m) = true) gs).
    { eapply Forall_impl; [|exact Fq]. intros g Hg. exact (proj1 (mul_finite_args np _ _ Hg)). }
    destruct (subs_near m gs Fv) as [V1 V2]. cbv zeta in V1, V2.
    destruct (quotient_near s (n - 1)) as (D0 & D1 & D2); auto; try lia.
    unfold d in *. clear d. apply sqrt_finite_args in Fd. destruct Fd as (_ & _ & Ed).
    destruct (rnd_sqrt Two _ D0) as (R0 & R1 & R2). rewrite <- Ed in R0, R1, R2. clear Ed.
    set (d := B2R (b_sqrt np (b_div np s (float_count (n - 1))))) in *.
    set (q := B2R (b_div np s (float_count (n - 1)))) in *.
    set (V := sq (map B2R (map (fun g => b_sub np g m) gs))) in *.
    unfold real_deviation. set (mu := real_mean (map B2R gs)). rewrite map_length. fold n.
    rewrite (real_sum_sq (fun x => x - mu)).
    pose proof (length2_centre (B2R m) mu (map B2R gs)) as C1.
    pose proof (length2_centre mu (B2R m) (map B2R gs)) as C2.
    rewrite map_length in C1, C2. fold n in C1, C2. rewrite (Rabs_minus_sym mu) in C2.
    set (W := map (fun x => x - B2R m) (map B2R gs)) in *.
    set (Y := map (fun x => x - mu) (map B2R gs)) in *.
    set (a := Rabs (B2R m - mu)) in *. assert (A0 : 0 <= a) by apply Rabs_pos.
    assert (c1 : 1 <= INR (n - 1)) by (apply (le_INR 1); lia).
    assert (cn : INR n <= 2 * INR (n - 1)).
    { replace 2 with (INR 2) by reflexivity. rewrite <- mult_INR. apply le_INR. lia. }
    set (c := INR (n - 1)) in *. pose proof (pos_INR n) as n0. set (nn := INR n) in *.
    assert (rc : 1 <= sqrt c) by (rewrite <- sqrt_1; apply sqrt_le_1_alt; lra).
    assert (ic : 0 < / sqrt c) by (apply Rinv_0_lt_compat; lra).
    assert (ic2 : 0 < / c) by (apply Rinv_0_lt_compat; lra).
    assert (rn : sqrt nn * / sqrt c <= 2).
    { apply Rmult_le_reg_r with (sqrt c); [lra|]. rewrite Rmult_assoc, Rinv_l, Rmult_1_r by lra.
      replace (2 * sqrt c) with (sqrt 4 * sqrt c).
      - rewrite <- sqrt_mult_alt by lra. apply sqrt_le_1_alt. lra.
      - replace 4 with (2 * 2) by ring. rewrite sqrt_square by lra. reflexivity. }
    (* sqrt (X / c) = length / sqrt c *)
    assert (LW : sqrt (sq W / c) = length2 W * / sqrt c) by (unfold Rdiv; rewrite sqrt_mult_alt by apply sq_nonneg; rewrite sqrt_inv; reflexivity).
    assert (LY : sqrt (sq Y / c) = length2 Y * / sqrt c) by (unfold Rdiv; rewrite sqrt_mult_alt by apply sq_nonneg; rewrite sqrt_inv; reflexivity).
    assert (M1 : sqrt (sq W / c) <= sqrt (sq Y / c) + 2 * a).
    { rewrite LW, LY. apply Rle_trans with ((length2 Y + sqrt nn * a) * / sqrt c); [apply Rmult_le_compat_r; lra|].
      rewrite Rmult_plus_distr_r. apply Rplus_le_compat_l.
      replace (sqrt nn * a * / sqrt c) with (sqrt nn * / sqrt c * a) by ring. apply Rmult_le_compat_r; lra. }
    assert (M2 : sqrt (sq Y / c) <= sqrt (sq W / c) + 2 * a).
    { rewrite LW, LY. apply Rle_trans with ((length2 W + sqrt nn * a) * / sqrt c); [apply Rmult_le_compat_r; lra|].
      rewrite Rmult_plus_distr_r. apply Rplus_le_compat_l.
      replace (sqrt nn * a * / sqrt c) with (sqrt nn * / sqrt c * a) by ring. apply Rmult_le_compat_r; lra. }
    clear LW LY C1 C2 rn ic rc.
    pose proof (bpow_gt_0 radix2 (- prec)) as U. pose proof (eta_pos (prec := prec) (emax := emax)) as Et.
    pose proof (pow_u (prec := prec) n) as Wn. unfold close. rewrite pow_add. set (w := (1 + u) ^ n) in *.
    pose proof (sq_nonneg W) as X0. set (X := sq W) in *.
    assert (Xc : 0 <= X / c) by (unfold Rdiv; nra).
    assert (nc : nn * / c <= 2).
    { apply Rmult_le_reg_r with c; [lra|]. rewrite Rmult_assoc, Rinv_l, Rmult_1_r by lra. exact cn. }
    set (g := underflow prec emax 1). assert (G0 : 0 <= g) by apply sqrt_pos.
    assert (GG : g * g = eta) by (unfold g; rewrite under_sq; simpl; ring).
    assert (U4 : (1 + u) ^ 4 = (1 + u) * (1 + u) ^ 3) by ring.
    assert (U5 : (1 + u) ^ 5 = (1 + u) * (1 + u) ^ 4) by ring.
    assert (U3 : (1 + u) ^ 3 = (1 + u) * (1 + u) ^ 2) by ring.
    pose proof (pow_u (prec := prec) 2) as P2. pose proof (pow_u (prec := prec) 3) as P3. pose proof (pow_u (prec := prec) 4) as P4.
    set (u2 := (1 + u) ^ 2) in *. set (u3 := (1 + u) ^ 3) in *. set (u4 := (1 + u) ^ 4) in *.
    (* the variances *)
    assert (Up : q <= w * u4 * (X / c + 3 * eta)).
    { eapply Rle_trans; [exact D2|].
      apply Rle_trans with ((1 + u) * (w * ((1 + u) * (u2 * X + nn * eta)) * / c + eta)).
      - apply Rmult_le_compat_l; [lra|]. apply Rplus_le_compat_r. unfold Rdiv. apply Rmult_le_compat_r; [lra|].
        eapply Rle_trans; [exact S2|]. apply Rmult_le_compat_l; [lra|].
        eapply Rle_trans; [exact Q2|]. apply Rmult_le_compat_l; lra.
      - assert (E1 : w * ((1 + u) * (u2 * X + nn * eta)) * / c <= w * u3 * (X / c + 2 * eta)).
        { replace (w * ((1 + u) * (u2 * X + nn * eta)) * / c)
            with (w * ((1 + u) * (u2 * (X / c) + (nn * / c) * eta))) by (unfold Rdiv; ring).
          replace (w * u3 * (X / c + 2 * eta)) with (w * ((1 + u) * (u2 * (X / c) + u2 * (2 * eta)))) by (rewrite U3; ring).
          apply Rmult_le_compat_l; [lra|]. apply Rmult_le_compat_l; [lra|]. apply Rplus_le_compat_l.
          apply Rle_trans with (2 * eta); [apply Rmult_le_compat_r; lra|]. nra. }
        apply Rle_trans with ((1 + u) * (w * u3 * (X / c + 2 * eta) + w * u3 * eta)).
        + apply Rmult_le_compat_l; [lra|]. apply Rplus_le_compat; [exact E1|].
          rewrite <- (Rmult_1_l eta) at 1. apply Rmult_le_compat_r; [lra|]. nra.
        + rewrite U4. right. ring. }
    assert (Lo : X / c <= w * u4 * (q + 3 * eta)).
    { apply Rle_trans with (u2 * ((1 + u) * (w * ((1 + u) * q + eta)) + nn * / c * eta)).
      - unfold Rdiv. apply Rle_trans with (u2 * V * / c); [apply Rmult_le_compat_r; lra|]. rewrite Rmult_assoc.
        apply Rmult_le_compat_l; [lra|].
        apply Rle_trans with (((1 + u) * (w * B2R s) + nn * eta) * / c).
        + apply Rmult_le_compat_r; [lra|]. eapply Rle_trans; [exact Q1|]. apply Rplus_le_compat_r.
          apply Rmult_le_compat_l; lra.
        + replace (((1 + u) * (w * B2R s) + nn * eta) * / c)
            with ((1 + u) * (w * (B2R s / c)) + nn * / c * eta) by (unfold Rdiv; ring).
          apply Rplus_le_compat_r. apply Rmult_le_compat_l; [lra|]. apply Rmult_le_compat_l; lra.
      - apply Rle_trans with (u2 * ((1 + u) * (w * ((1 + u) * q + (1 + u) * eta)) + (1 + u) * (w * ((1 + u) * (2 * eta))))).
        + apply Rmult_le_compat_l; [lra|]. apply Rplus_le_compat.
          * apply Rmult_le_compat_l; [lra|]. apply Rmult_le_compat_l; nra.
          * apply Rle_trans with (2 * eta); [apply Rmult_le_compat_r; lra|].
            assert (1 <= (1 + u) * (w * (1 + u))) by nra. nra.
        + rewrite U4, U3. right. ring. }
    assert (SR : forall x k, 0 <= x -> 1 <= k -> sqrt (k * (x + 3 * eta)) <= k * (sqrt x + 2 * g)).
    { intros x k Hx Hk. pose proof (sqrt_pos x) as Sx. pose proof (sqrt_sqrt x Hx) as Sq.
      rewrite <- (sqrt_square (k * (sqrt x + 2 * g))) by nra. apply sqrt_le_1_alt.
      replace (k * (sqrt x + 2 * g) * (k * (sqrt x + 2 * g))) with (k * (k * ((sqrt x + 2 * g) * (sqrt x + 2 * g)))) by ring.
      apply Rmult_le_compat_l; [lra|]. apply Rle_trans with (1 * ((sqrt x + 2 * g) * (sqrt x + 2 * g))); [|apply Rmult_le_compat_r; nra].
      nra. }
    assert (K1 : 1 <= w * u4) by nra.
    assert (sX : sqrt (X / c) <= w * u4 * (sqrt q + 2 * g)).
    { eapply Rle_trans; [apply sqrt_le_1_alt; exact Lo|]. now apply SR. }
    assert (sQ : sqrt q <= w * u4 * (sqrt (X / c) + 2 * g)).
    { eapply Rle_trans; [apply sqrt_le_1_alt; exact Up|]. now apply SR. }
    pose proof (sqrt_pos (sq Y / c)) as Yp. set (sd := sqrt (sq Y / c)) in *.
    split.
    - eapply Rle_trans; [exact R2|].
      apply Rle_trans with ((1 + u) * (w * u4 * (sd + 2 * a + 2 * g))).
      + apply Rmult_le_compat_l; [lra|]. eapply Rle_trans; [exact sQ|]. apply Rmult_le_compat_l; lra.
      + rewrite U5. right. ring.
    - apply Rle_trans with (w * u4 * (sqrt q + 2 * g) + 2 * a); [lra|].
      apply Rle_trans with (w * u4 * ((1 + u) * (d + 2 * g)) + w * ((1 + u) * u4) * (2 * a)).
      + apply Rplus_le_compat.
        * apply Rmult_le_compat_l; [lra|]. nra.
        * assert (1 <= w * ((1 + u) * u4)) by nra. nra.
      + rewrite U5. right. ring.
  Qed.

  Lemma close_weaken k s s' a b : s <= s' -> close prec k s a b -> close prec k s' a b.
  Proof.
    intros H [A B]. pose proof (pow_u (prec := prec) k). unfold close. set (w := (1 + u) ^ k) in *.
    assert (w * s <= w * s') by (apply Rmult_le_compat_l; lra). split; lra.
  Qed.
  (** Either way of summing the squares. *)
  Lemma deviation_sum (gs : list F) (m s : F) :
    let qs := map (fun g => b_mul np (b_sub np g m) (b_sub np g m)) gs in
    let d := b_sqrt np (b_div np s (float_count (length gs - 1))) in
    (2 <= length gs)%nat -> summable gs -> near_mean m gs ->
    s = float_sum np qs \/ s = @sum1 F (FloatIEEE np) qs ->
    is_finite d = true -> near_deviation d gs.
  Proof.
    intros qs d N (S1 & S2 & S3) [Fm Em] Hs Fd.
    assert (Q : qs = sqs np (map (fun g => b_sub np g m) gs)) by (unfold qs, sqs; now rewrite map_map).
    assert (Lq : length qs = length gs) by apply map_length.
    assert (Fs : is_finite s = true).
    { unfold d in Fd. apply sqrt_finite_args in Fd. destruct Fd as [Fd _].
      apply div_finite_arg in Fd; [exact Fd|]. apply (count_value (length gs - 1)); lia. }
    assert (B : Forall (fun q => is_finite q = true) qs /\ 0 <= B2R s /\
                rsum qs <= (1 + u) ^ length qs * B2R s /\ B2R s <= (1 + u) ^ length qs * rsum qs).
    { destruct Hs as [Hs|Hs]; rewrite Hs in *.
      - unfold float_sum in *. destruct (sums np _ _ Fs) as [_ Fq]. split; [exact Fq|].
        rewrite Q in Fq. unfold sqs in Fq. rewrite Forall_map in Fq. destruct (squares np _ Fq) as (P & _).
        rewrite <- Q in P. destruct (sum_bounds np qs zero Fs (Rle_refl 0) P) as (B1 & B2 & B3).
        change (B2R zero) with 0 in B2, B3. rewrite Rplus_0_l in B2, B3. auto.
      - destruct qs as [|x l] eqn:E; [simpl in Lq; lia|]. unfold sum1 in *. cbn [fadd FloatIEEE] in *.
        destruct (sums np _ _ Fs) as [Fx Fl]. assert (Fq : Forall (fun q => is_finite q = true) (x :: l)) by auto.
        split; [exact Fq|]. rewrite Q in Fq. unfold sqs in Fq. rewrite Forall_map in Fq.
        destruct (squares np _ Fq) as (P & _). rewrite <- Q in P. inversion_clear P as [|? ? P1 P2].
        destruct (sum_bounds np l x Fs P1 P2) as (B1 & B2 & B3). cbn [map length pow].
        change (real_sum (?h :: ?t)) with (h + real_sum t).
        pose proof (bpow_gt_0 radix2 (- prec)) as U. pose proof (pow_u (prec := prec) (length l)) as W.
        set (w := (1 + u) ^ length l) in *. set (r := B2R x + rsum l) in *. set (t := B2R (fold_left (b_add np) l x)) in *.
        assert (R0 : 0 <= r).
        { destruct (Rle_or_lt 0 r) as [G|G]; [exact G|]. assert (w * r < 0) by nra. lra. }
        split; [exact B1|]. split.
        + eapply Rle_trans; [exact B2|]. rewrite Rmult_assoc. assert (0 <= w * t) by nra. nra.
        + eapply Rle_trans; [exact B3|]. rewrite Rmult_assoc. assert (0 <= w * r) by nra. nra. }
    destruct B as (Fq & B1 & B2 & B3). rewrite Lq in B2, B3. rewrite Q in Fq, B2, B3.
    unfold near_deviation. eapply close_weaken; [|apply (deviation_near gs m s); auto; lia].
    apply Rplus_le_compat_r. apply Rmult_le_compat_l; [lra|].
    unfold real_mean. rewrite map_length. exact Em.
  Qed.
  Lemma deviation_of_near (l : list F) : (2 <= length l)%nat -> summable l ->
    is_finite (@deviation_of F (FloatIEEE np) l) = true -> near_deviation (@deviation_of F (FloatIEEE np) l) l.
  Proof.
    intros N S Fd. apply (deviation_sum l (@mean_of F (FloatIEEE np) l) _ N S); [|right; reflexivity|exact Fd].
    apply mean_of_near; auto. destruct l; [simpl in N; lia|congruence].
  Qed.
End Dev.

Lemma goal_deviation_near {T} np64 (l : list (option (T * f64))) d :
  get_standard_deviation_goal np64 l = Some d -> summable (goals l) -> is_finite d = true -> near_deviation d (goals l).
Proof.
  intros H S Fd.
  assert (N : (2 <= length (goals l))%nat).
  { unfold goals. rewrite map_length. destruct (le_lt_dec 2 (length (present l))) as [G|G]; [exact G|].
    apply (deviation_none np64) in G. congruence. }
  rewrite (deviation_value np64 l d H) in *.
  apply (deviation_sum np64 eq_refl (goals l) (mean64 np64 (goals l)) _ N S); [|left; reflexivity|exact Fd].
  apply float_mean_near; auto. intros E. rewrite E in N. simpl in N. lia.
Qed.
Lemma vector_deviation_near {prec emax} {Hp : Prec_gt_0 prec} {He : Prec_lt_emax prec emax} (np : nan_policy prec emax) :
  (1 < prec)%Z -> forall np64 (l : list (option (list (bfloat prec emax) * f64))) v goal j d,
  @get_standard_deviation _ (FloatIEEE np) np64 l = Ret (Some (v, goal)) -> nth_error v j = Some d ->
  summable (components j l) -> is_finite d = true -> near_deviation d (components j l).
Proof.
  intros Two np64 l v goal j d H Hd S Fd.
  assert (M : ~ mixed l).
  { intros M. apply (deviation_panic_iff (FT := FloatIEEE np) np64) in M. congruence. }
  destruct (deviation_spec (FT := FloatIEEE np) np64 l M) as [A1 A2].
  destruct (le_lt_dec 2 (length (present l))) as [N|N]; [|rewrite A1 in H by exact N; discriminate].
  destruct (present l) as [|s p] eqn:P; [simpl in N; lia|].
  destruct (A2 N s (or_introl eq_refl)) as [v' [g' [E [_ [L C]]]]]. rewrite H in E. inversion E; subst v' g'.
  assert (J : (j < length v)%nat) by (apply nth_error_Some; congruence).
  rewrite (C j J) in Hd. inversion Hd; subst d. apply deviation_of_near; auto.
  rewrite L in J. clear -M N P J. unfold components. rewrite P.
  assert (K : forall q, In q (s :: p) -> nth_error (fst q) j <> None).
  { intros q Hq. apply nth_error_Some.
    destruct (Nat.eq_dec (length (fst s)) (length (fst q))) as [G|G]; [lia|]. exfalso. apply M.
    exists s, q. rewrite P. split; [now left|]. split; [exact Hq|exact G]. }
  revert N K. generalize (s :: p) as ps. clear. intros ps N K.
  assert (G : length (flat_map (fun xg : list (bfloat prec emax) * f64 => match nth_error (fst xg) j with Some x => [x] | None => [] end) ps)
              = length ps).
  { clear N. induction ps as [|q ps IH]; [reflexivity|]. cbn [flat_map length].
    pose proof (K q (or_introl eq_refl)) as Kq. destruct (nth_error (fst q) j); [|congruence].
    cbn [app length]. f_equal. apply IH. intros r Hr. apply K. now right. }
  lia.
Qed.
