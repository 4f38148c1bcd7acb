(** * Accuracy of MaxVelocityAbs in floats *)

From Coq Require Import List Arith ZArith Bool Reals Lia Lra Psatz.
From Flocq Require Import Core IEEE754.BinarySingleNaN IEEE754.Binary.
From Flocq Require Import Relative Plus_error Div_sqrt_error.
From Verif Require Import Base FloatModel FloatFacts ArithFacts SatFacts SpecReal SpecStat SpecMean SpecSpeed SumFacts
  PsoComponents VelFacts.
Import ListNotations.
Local Open Scope R_scope.

(** ** Euclidean length of real vectors *)
Definition sq (v : list R) : R := fold_right (fun x s => x * x + s) 0 v.
Definition dot (v w : list R) : R := real_sum (map (fun xy => fst xy * snd xy) (combine v w)).
Lemma sq_nonneg v : 0 <= sq v.
Proof. induction v as [|x v IH]; simpl; [lra|nra]. Qed.
Lemma length2_nonneg v : 0 <= length2 v.
Proof. apply sqrt_pos. Qed.
Lemma length2_sq v : length2 v * length2 v = sq v.
Proof. apply sqrt_sqrt, sq_nonneg. Qed.
Lemma length2_le v a : 0 <= a -> sq v <= a * a -> length2 v <= a.
Proof. intros H L. rewrite <- (sqrt_square a H). now apply sqrt_le_1_alt. Qed.

Lemma cauchy v : forall w, dot v w * dot v w <= sq v * sq w.
Proof.
  assert (Z : forall v w, dot v w = 0 -> dot v w * dot v w <= sq v * sq w).
  { intros a b E. rewrite E. pose proof (sq_nonneg a). pose proof (sq_nonneg b). nra. }
  induction v as [|x v IH]; intros w; [apply Z; reflexivity|]. destruct w as [|y w]; [apply Z; reflexivity|].
  unfold dot. cbn [combine map fst snd]. cbn [sq fold_right]. fold (sq v) (sq w). specialize (IH w). pose proof (sq_nonneg v) as A. pose proof (sq_nonneg w) as B.
  change (real_sum (?h :: ?t)) with (h + real_sum t).
  set (D := real_sum (map (fun xy => fst xy * snd xy) (combine v w))) in *.
  change (dot v w) with D in IH. set (P := sq v) in *. set (Q := sq w) in *.
  assert (G : 2 * (x * y) * D <= x * x * Q + y * y * P).
  { apply Rsqr_incr_0_var.
    - unfold Rsqr.
      assert (H1 : (2 * (x * y) * D) * (2 * (x * y) * D) = 4 * ((x * x) * (y * y)) * (D * D)) by ring.
      rewrite H1.
      assert (H2 : 4 * ((x * x) * (y * y)) * (D * D) <= 4 * ((x * x) * (y * y)) * (P * Q)).
      { apply Rmult_le_compat_l; [|exact IH]. pose proof (Rle_0_sqr (x * y)) as R. unfold Rsqr in R. lra. }
      eapply Rle_trans; [exact H2|].
      pose proof (Rle_0_sqr (x * x * Q - y * y * P)) as R. unfold Rsqr in R. lra.
    - pose proof (Rle_0_sqr x) as R1. pose proof (Rle_0_sqr y) as R2. unfold Rsqr in *. nra. }
  nra.
Qed.

Definition vadd (v w : list R) : list R := map (fun xy => fst xy + snd xy) (combine v w).
Lemma sq_vadd v : forall w, length v = length w -> sq (vadd v w) = sq v + 2 * dot v w + sq w.
Proof.
  induction v as [|x v IH]; intros [|y w] L; try discriminate L; unfold vadd, dot; simpl; [lra|].
  injection L as L. specialize (IH w L). unfold vadd, dot in IH. fold (sq v) (sq w).
  change (real_sum (?h :: ?t)) with (h + real_sum t). unfold sq in *. rewrite IH. ring.
Qed.
Lemma triangle v w : length v = length w -> length2 (vadd v w) <= length2 v + length2 w.
Proof.
  intros L. pose proof (length2_nonneg v) as A. pose proof (length2_nonneg w) as B.
  apply length2_le; [lra|]. rewrite sq_vadd by exact L.
  pose proof (length2_sq v) as A2. pose proof (length2_sq w) as B2.
  assert (C : dot v w <= length2 v * length2 w).
  { apply Rsqr_incr_0_var; [|nra]. unfold Rsqr. pose proof (cauchy v w).
    replace (length2 v * length2 w * (length2 v * length2 w))
      with ((length2 v * length2 v) * (length2 w * length2 w)) by ring. rewrite A2, B2. exact H. }
  nra.
Qed.
Lemma sq_mono v : forall w, Forall2 (fun x y => Rabs x <= y) v w -> sq v <= sq w.
Proof.
  induction 1 as [|x y v w H _ IH]; simpl; [lra|].
  pose proof (Rabs_pos x). assert (x * x = Rabs x * Rabs x) by (rewrite <- Rabs_mult, Rabs_pos_eq; nra). nra.
Qed.
Lemma length2_mono v w : Forall2 (fun x y => Rabs x <= y) v w -> length2 v <= length2 w.
Proof. intros H. apply sqrt_le_1_alt. now apply sq_mono. Qed.
Lemma length2_repeat t n : 0 <= t -> length2 (repeat t n) = sqrt (INR n) * t.
Proof.
  intros H. unfold length2. fold (sq (repeat t n)).
  assert (E : sq (repeat t n) = INR n * (t * t)).
  { induction n as [|n IH]; [simpl; ring|]. cbn [repeat]. unfold sq in *. cbn [fold_right]. rewrite IH, S_INR. ring. }
  rewrite E, sqrt_mult_alt by apply pos_INR. now rewrite sqrt_square.
Qed.
Lemma sq_abs v : sq (map Rabs v) = sq v.
Proof.
  induction v as [|x v IH]; simpl; [reflexivity|]. fold (sq v). rewrite <- IH. unfold sq. f_equal.
  rewrite <- Rabs_mult. apply Rabs_pos_eq. nra.
Qed.
(** A perturbation bounded componentwise. *)
Lemma length2_near (y w : list R) (c t : R) : 0 <= c -> 0 <= t ->
  Forall2 (fun a b => Rabs (a - b) <= c * Rabs b + t) y w ->
  Rabs (length2 y - length2 w) <= c * length2 w + sqrt (INR (length w)) * t.
Proof.
  intros Hc Ht H.
  assert (L : length y = length w) by (induction H; simpl; congruence).
  set (e := map (fun ab => fst ab - snd ab) (combine y w)).
  assert (Le : length e = length w) by (unfold e; rewrite map_length, combine_length; lia).
  assert (E : length2 e <= c * length2 w + sqrt (INR (length w)) * t).
  { eapply Rle_trans; [apply (length2_mono e (vadd (map (fun x => c * x) (map Rabs w)) (repeat t (length w))))|].
    - unfold e, vadd. clear L e Le. induction H as [|a b y w H _ IH]; simpl; constructor; auto.
    - eapply Rle_trans; [apply triangle; now rewrite !map_length, repeat_length|].
      rewrite length2_scale by exact Hc. rewrite length2_repeat by exact Ht.
      assert (A : length2 (map Rabs w) = length2 w).
      { change (sqrt (sq (map Rabs w)) = sqrt (sq w)). now rewrite sq_abs. }
      rewrite A. lra. }
  assert (Y : length2 y <= length2 w + length2 e).
  { replace y with (vadd w e) at 1; [apply triangle; lia|].
    unfold e, vadd. clear E Le e. induction H as [|a b y w H _ IH]; simpl; auto.
    injection L as L. f_equal; [ring|auto]. }
  assert (W : length2 w <= length2 y + length2 e).
  { assert (N : length2 (map Ropp e) = length2 e).
    { unfold length2. fold (sq (map Ropp e)) (sq e). f_equal. clear.
      induction e as [|x e IH]; simpl; auto. unfold sq in *. rewrite IH. ring. }
    rewrite <- N. replace w with (vadd y (map Ropp e)) at 1; [apply triangle; rewrite map_length; lia|].
    unfold e, vadd. clear E Le e Y N. induction H as [|a b y w H _ IH]; simpl; auto.
    injection L as L. f_equal; [ring|auto]. }
  apply Rabs_le. lra.
Qed.

Lemma Forall2_maps {A B C} (P : B -> C -> Prop) (f : A -> B) (g : A -> C) l :
  (forall x, In x l -> P (f x) (g x)) -> Forall2 P (map f l) (map g l).
Proof. induction l as [|x l IH]; intros H; simpl; constructor; auto using in_eq, in_cons. Qed.

(** ** Floats *)
Section Speed.
  Context {prec emax : Z} {Hp : Prec_gt_0 prec} {He : Prec_lt_emax prec emax}.
  Variable np : nan_policy prec emax.
  Notation F := (bfloat prec emax).
  Notation fexp := (SpecFloat.fexp prec emax).
  Notation rnd x := (round radix2 fexp (round_mode mode_NE) x).
  Notation B2R := (Binary.B2R prec emax).
  Notation u := (bpow radix2 (- prec)).
  Notation emin := (SpecFloat.emin prec emax).
  Notation eta := (bpow radix2 (emin - 1)).
  Notation zero := (Binary.B754_zero false : F).
  Notation norm := (@velocity_norm F (FloatIEEE np)).
  Notation correct := (@max_velocity_abs F (FloatIEEE np)).
  Hypothesis Two : (1 < prec)%Z.
  #[local] Instance vexp3 : Valid_exp fexp := BinarySingleNaN.fexp_correct prec emax Hp.
  #[local] Instance vrnd3 : Valid_rnd (round_mode mode_NE) := valid_rnd_round_mode mode_NE.

  Lemma eta_pos : 0 < eta. Proof. apply bpow_gt_0. Qed.
  Lemma eta_half : / 2 * bpow radix2 emin = eta.
  Proof. unfold Zminus. rewrite bpow_plus. change (bpow radix2 (- (1))) with (/ 2). ring. Qed.
  Lemma u_small : u <= / 2.
  Proof.
    change (/ 2) with (bpow radix2 (-1)). apply bpow_le. pose proof prec_pos (prec := prec). lia.
  Qed.
  Lemma one_eps e : Rabs e <= u_ro radix2 prec / (1 + u_ro radix2 prec) -> / (1 + u) <= 1 + e <= 1 + u.
  Proof.
    intros H. pose proof (eps_u (prec := prec) e H) as E. rewrite u_ro_is in H. pose proof (bpow_gt_0 radix2 (- prec)) as U.
    apply Rabs_le_inv in H. apply Rabs_le_inv in E. split; [|lra].
    assert (K : / (1 + u) = 1 - u / (1 + u)) by (field; lra). lra.
  Qed.
  (** Rounding of a number that is not negative: relative error, and one underflow. *)
  Lemma rnd_sep x : 0 <= x -> 0 <= rnd x /\ x <= (1 + u) * rnd x + eta /\ rnd x <= (1 + u) * (x + eta).
  Proof.
    intros Hx. pose proof (bpow_gt_0 radix2 (- prec)) as U. pose proof eta_pos as P.
    assert (R : 0 <= rnd x) by now apply rnd_pos.
    destruct (relative_error_N_FLT'_ex_separate radix2 emin prec Hp (fun z => negb (Z.even z)) x)
      as (x' & E0 & (et & B & Ex) & (e & Be & Ee)).
    rewrite E0 in Ee. change (rnd x = x' * (1 + e)) in Ee. apply one_eps in Be.
    rewrite eta_half in B. apply Rabs_le_inv in B.
    assert (I : 0 < / (1 + u)) by (apply Rinv_0_lt_compat; lra).
    assert (X' : 0 <= x') by nra.
    assert (L : x' <= (1 + u) * rnd x).
    { rewrite Ee. assert (K : 1 <= (1 + u) * (1 + e)).
      { replace 1 with ((1 + u) * / (1 + u)) at 1 by (field; lra). apply Rmult_le_compat_l; lra. }
      nra. }
    split; [exact R|]. split; [lra|].
    rewrite Ee. assert (x' <= x + eta) by lra. nra.
  Qed.
  (** Sums of floats have no underflow. *)
  Lemma rnd_plus (a b : F) : 0 <= B2R a -> 0 <= B2R b ->
    let s := rnd (B2R a + B2R b) in 0 <= s /\ B2R a + B2R b <= (1 + u) * s /\ s <= (1 + u) * (B2R a + B2R b).
  Proof.
    intros A B s. pose proof (bpow_gt_0 radix2 (- prec)) as U.
    destruct (FLT_plus_error_N_ex radix2 emin prec (fun z => negb (Z.even z)) (B2R a) (B2R b)) as [e [E1 E2]];
      [apply format_B2R|apply format_B2R|].
    change (s = (B2R a + B2R b) * (1 + e)) in E2. apply one_eps in E1.
    assert (I : 0 < / (1 + u)) by (apply Rinv_0_lt_compat; lra).
    assert (K : 1 <= (1 + u) * (1 + e)).
    { replace 1 with ((1 + u) * / (1 + u)) at 1 by (field; lra). apply Rmult_le_compat_l; lra. }
    rewrite E2. split; [nra|split; nra].
  Qed.
  (** ... nor have square roots. *)
  Lemma rnd_sqrt (a : F) : 0 <= B2R a ->
    let s := rnd (sqrt (B2R a)) in 0 <= s /\ sqrt (B2R a) <= (1 + u) * s /\ s <= (1 + u) * sqrt (B2R a).
  Proof.
    intros A s. pose proof (bpow_gt_0 radix2 (- prec)) as U. pose proof (sqrt_pos (B2R a)) as Q.
    pose proof u_small as U2.
    destruct (sqrt_error_N_FLT_ex radix2 prec (fun z => negb (Z.even z)) Two emin) with (x := B2R a) as [e [E1 E2]].
    - unfold SpecFloat.emin. pose proof He as G. red in G. lia.
    - apply format_B2R.
    - change (s = sqrt (B2R a) * (1 + e)) in E2. rewrite u_ro_is in E1.
      assert (S : 1 < sqrt (1 + 2 * u) <= 1 + u).
      { split.
        - rewrite <- sqrt_1 at 1. apply sqrt_lt_1_alt. lra.
        - rewrite <- (sqrt_square (1 + u)) by lra. apply sqrt_le_1_alt. nra. }
      set (t := sqrt (1 + 2 * u)) in *.
      assert (I : / (1 + u) <= 1 / t) by (unfold Rdiv; rewrite Rmult_1_l; apply Rinv_le; lra).
      apply Rabs_le_inv in E1.
      assert (K : 1 <= (1 + u) * (1 + e)).
      { replace 1 with ((1 + u) * / (1 + u)) at 1 by (field; lra). apply Rmult_le_compat_l; lra. }
      assert (I' : 1 - u <= / (1 + u)).
      { apply (Rmult_le_reg_r (1 + u)); [lra|]. rewrite Rinv_l by lra. nra. }
      rewrite E2. split; [nra|split; nra].
  Qed.

  Definition sqs (v : list F) : list F := map (fun x => b_mul np x x) v.
  Notation rsum l := (real_sum (map B2R l)).
  Lemma sums (l : list F) : forall a : F, is_finite (fold_left (b_add np) l a) = true ->
    is_finite a = true /\ Forall (fun x => is_finite x = true) l.
  Proof.
    induction l as [|x l IH]; intros a H; [auto|]. destruct (IH _ H) as [A B].
    apply add_finite_args in A. destruct A. auto.
  Qed.
  Lemma sum_bounds (l : list F) : forall a : F, is_finite (fold_left (b_add np) l a) = true ->
    0 <= B2R a -> Forall (fun x => 0 <= B2R x) l ->
    let s := B2R (fold_left (b_add np) l a) in
    0 <= s /\ B2R a + rsum l <= (1 + u) ^ length l * s /\ s <= (1 + u) ^ length l * (B2R a + rsum l).
  Proof.
    pose proof (bpow_gt_0 radix2 (- prec)) as U.
    induction l as [|x l IH]; intros a H A B; cbn [fold_left map length pow] in *.
    { unfold real_sum. cbn [fold_right]. cbn. lra. }
    change (real_sum (?h :: ?t)) with (h + real_sum t).
    inversion_clear B as [|? ? B1 B2]. destruct (sums l _ H) as [Fa _].
    pose proof (add_finite_args np a x Fa) as [Fa' Fx].
    pose proof (add_finite_bound np a x Fa' Fx Fa) as Bd.
    destruct (add_correct np a x Fa' Fx Bd) as [_ E].
    destruct (rnd_plus a x A B1) as (P1 & P2 & P3).
    destruct (IH (b_add np a x) H) as (Q1 & Q2 & Q3); [rewrite E; exact P1|exact B2|].
    cbv zeta. set (s := B2R (fold_left (b_add np) l (b_add np a x))) in *.
    rewrite E in Q2, Q3. pose proof (pow_u (prec := prec) (length l)) as W. set (w := (1 + u) ^ length l) in *.
    set (m := rnd (B2R a + B2R x)) in *.
    assert (N : 0 <= rsum l).
    { clear -B2. induction B2 as [|y l H _ IH]; [apply Rle_refl|]. cbn [map].
      change (real_sum (?h :: ?t)) with (h + real_sum t). lra. }
    split; [exact Q1|]. split.
    - replace ((1 + u) * w * s) with ((1 + u) * (w * s)) by ring.
      apply Rle_trans with ((1 + u) * (m + rsum l)); [nra|]. apply Rmult_le_compat_l; lra.
    - eapply Rle_trans; [exact Q3|]. replace ((1 + u) * w * (B2R a + (B2R x + rsum l)))
        with (w * ((1 + u) * (B2R a + B2R x) + (1 + u) * rsum l)) by ring.
      apply Rmult_le_compat_l; [lra|]. nra.
  Qed.

  Lemma squares (v : list F) : Forall (fun x => is_finite (b_mul np x x) = true) v ->
    Forall (fun x => 0 <= B2R x) (sqs v) /\
    sq (map B2R v) <= (1 + u) * rsum (sqs v) + INR (length v) * eta /\
    rsum (sqs v) <= (1 + u) * (sq (map B2R v) + INR (length v) * eta).
  Proof.
    pose proof (bpow_gt_0 radix2 (- prec)) as U. pose proof eta_pos as Et.
    induction 1 as [|x v H _ (I1 & I2 & I3)]; [cbn; split; [constructor|lra]|].
    destruct (mul_finite_args np x x H) as [Fx _].
    assert (E : B2R (b_mul np x x) = rnd (B2R x * B2R x)).
    { apply mul_correct; auto. destruct (key_mul np x x Fx Fx) as [_ K]. rewrite key_finite in K by exact H.
      apply sat_finite. rewrite <- K. apply B2R_bound. }
    destruct (rnd_sep (B2R x * B2R x)) as (R1 & R2 & R3); [nra|]. rewrite <- E in R1, R2, R3.
    unfold sqs in *. cbn [map length]. rewrite S_INR. change (real_sum (?h :: ?t)) with (h + real_sum t).
    cbn [sq fold_right]. fold (sq (map B2R v)). split; [constructor; auto|]. lra.
  Qed.

  Lemma norm_parts v : is_finite (norm v) = true ->
    is_finite (fold_left (b_add np) (sqs v) zero) = true /\
    Forall (fun x => is_finite (b_mul np x x) = true) v /\
    0 <= B2R (fold_left (b_add np) (sqs v) zero) /\
    B2R (norm v) = rnd (sqrt (B2R (fold_left (b_add np) (sqs v) zero))).
  Proof.
    unfold velocity_norm. cbn [fsqrt fadd fmul fzero FloatIEEE]. intros H.
    assert (E : fold_left (fun a vi => b_add np a (b_mul np vi vi)) v zero = fold_left (b_add np) (sqs v) zero).
    { unfold sqs. generalize zero as a. clear. induction v as [|x v IH]; intros a; simpl; auto. }
    rewrite E in *. apply sqrt_finite_args in H. destruct H as (H1 & H2 & H3).
    split; [exact H1|]. split; [|auto].
    destruct (sums _ _ H1) as [_ A]. unfold sqs in A. now rewrite Forall_map in A.
  Qed.

  Notation len v := (length2 (map B2R v)).
  Notation under := (underflow prec emax).
  Lemma eta_is : bpow radix2 (3 - emax - prec) / 2 = eta.
  Proof. rewrite <- eta_half. unfold SpecFloat.emin, Rdiv. ring. Qed.
  Lemma under_nonneg n : 0 <= under n. Proof. apply sqrt_pos. Qed.
  Lemma under_sq n : under n * under n = INR n * eta.
  Proof. unfold underflow. rewrite eta_is. apply sqrt_sqrt. pose proof (pos_INR n). pose proof eta_pos. nra. Qed.

  Lemma norm_near v : is_finite (norm v) = true ->
    len v <= (1 + u) ^ (length v + 3) * B2R (norm v) + under (length v) /\
    B2R (norm v) <= (1 + u) ^ (length v + 3) * (len v + under (length v)).
  Proof.
    intros H. destruct (norm_parts v H) as (H1 & H2 & H3 & H4).
    destruct (squares v H2) as (S1 & S2 & S3).
    destruct (sum_bounds (sqs v) zero H1 (Rle_refl 0) S1) as (_ & B2 & B3).
    destruct (rnd_sqrt _ H3) as (Q1 & Q2 & Q3). rewrite <- H4 in Q1, Q2, Q3.
    change (B2R zero) with 0 in B2, B3. rewrite Rplus_0_l in B2, B3.
    assert (Ls : length (sqs v) = length v) by apply map_length. rewrite Ls in B2, B3.
    set (S := B2R (fold_left (b_add np) (sqs v) zero)) in *. set (N := B2R (norm v)) in *.
    pose proof (bpow_gt_0 radix2 (- prec)) as U. pose proof (pow_u (prec := prec) (length v)) as W.
    rewrite pow_add. set (w := (1 + u) ^ length v) in *. set (n := length v) in *.
    pose proof (under_nonneg n) as Un. pose proof (under_sq n) as Us.
    pose proof (length2_nonneg (map B2R v)) as Ln. pose proof (length2_sq (map B2R v)) as L2.
    set (L := len v) in *. set (b := under n) in *. set (q := sq (map B2R v)) in *. set (r := rsum (sqs v)) in *.
    pose proof (sqrt_sqrt S H3) as SS. set (t := sqrt S) in *. pose proof (sqrt_pos S) as Tp. fold t in Tp.
    assert (C : 1 <= (1 + u) ^ 3) by apply pow_u.
    assert (C1 : 1 + u <= (1 + u) ^ 3).
    { replace ((1 + u) ^ 3) with ((1 + u) * ((1 + u) * (1 + u))) by ring. nra. }
    split.
    - (* L^2 <= (1+u) w S + b^2 <= (w (1+u)^3 N)^2 + b^2 *)
      apply length2_le.
      { apply Rplus_le_le_0_compat; [|exact Un]. apply Rmult_le_pos; [nra|exact Q1]. }
      fold q. eapply Rle_trans; [exact S2|]. rewrite <- Us.
      assert (T2 : S <= (1 + u) * (1 + u) * (N * N)).
      { rewrite <- SS. replace ((1 + u) * (1 + u) * (N * N)) with (((1 + u) * N) * ((1 + u) * N)) by ring.
        apply Rmult_le_compat; lra. }
      assert (X : (1 + u) * r <= (w * (1 + u) ^ 3 * N) * (w * (1 + u) ^ 3 * N)).
      { apply Rle_trans with ((1 + u) * (w * ((1 + u) * (1 + u) * (N * N)))).
        - apply Rmult_le_compat_l; [lra|]. eapply Rle_trans; [exact B2|]. apply Rmult_le_compat_l; lra.
        - replace ((1 + u) * (w * ((1 + u) * (1 + u) * (N * N)))) with ((w * (1 + u) ^ 3 * (N * N)) * 1) by ring.
          replace (w * (1 + u) ^ 3 * N * (w * (1 + u) ^ 3 * N))
            with ((w * (1 + u) ^ 3 * (N * N)) * (w * (1 + u) ^ 3)) by ring.
          apply Rmult_le_compat_l; [|nra]. apply Rmult_le_pos; [nra|]. nra. }
      assert (Y : 0 <= w * (1 + u) ^ 3 * N) by (apply Rmult_le_pos; [nra|exact Q1]).
      nra.
    - (* N <= (1+u) sqrt S, S <= w (1+u) (L^2 + b^2) <= (w (1+u) (L+b))^2 *)
      eapply Rle_trans; [exact Q3|].
      assert (T : t <= w * (1 + u) * (L + b)).
      { apply Rsqr_incr_0_var; [|apply Rmult_le_pos; [nra|lra]]. unfold Rsqr. rewrite SS.
        apply Rle_trans with (w * ((1 + u) * (L * L + b * b))).
        - eapply Rle_trans; [exact B3|]. apply Rmult_le_compat_l; [lra|]. rewrite L2, Us. exact S3.
        - replace (w * (1 + u) * (L + b) * (w * (1 + u) * (L + b)))
            with ((w * (1 + u)) * ((w * (1 + u)) * ((L + b) * (L + b)))) by ring.
          rewrite <- Rmult_assoc. apply Rmult_le_compat_l; [nra|].
          apply Rle_trans with (1 * ((L + b) * (L + b))); [nra|]. apply Rmult_le_compat_r; nra. }
      apply Rle_trans with ((1 + u) * (w * (1 + u) * (L + b))); [apply Rmult_le_compat_l; lra|].
      replace ((1 + u) * (w * (1 + u) * (L + b))) with ((w * (L + b)) * ((1 + u) * (1 + u))) by ring.
      replace (w * (1 + u) ^ 3 * (L + b)) with ((w * (L + b)) * (1 + u) ^ 3) by ring.
      apply Rmult_le_compat_l; [apply Rmult_le_pos; lra|]. nra.
  Qed.

  Lemma norm_accuracy v : is_finite (norm v) = true ->
    close prec (length v + 3) (under (length v)) (B2R (norm v)) (len v).
  Proof.
    intros H. destruct (norm_near v H) as [A B]. split; [exact B|].
    pose proof (pow_u (prec := prec) (length v + 3)). pose proof (under_nonneg (length v)). nra.
  Qed.

  (** A positive norm is not small. *)
  Lemma eta_norm v : is_finite (norm v) = true -> 0 < B2R (norm v) -> eta <= (1 + u) * sqrt (eta / 2) * B2R (norm v).
  Proof.
    intros H P. destruct (norm_parts v H) as (_ & _ & H3 & H4).
    set (S := fold_left (b_add np) (sqs v) zero) in *. destruct (rnd_sqrt S H3) as (_ & Q2 & _). rewrite <- H4 in Q2.
    pose proof eta_pos as Et. pose proof (bpow_gt_0 radix2 (- prec)) as U.
    assert (S2 : 2 * eta <= B2R S).
    { replace (2 * eta) with (bpow radix2 emin) by (rewrite <- eta_half; field).
      assert (S0 : 0 < B2R S).
      { destruct (Req_dec (B2R S) 0) as [E|E]; [|lra]. rewrite E, sqrt_0, rnd_0 in H4. lra. }
      assert (G : succ radix2 fexp 0 <= B2R S).
      { apply succ_le_lt; auto using format_B2R, generic_format_0; exact vexp3. }
      rewrite succ_0 in G. change fexp with (FLT_exp emin prec) in G. rewrite ulp_FLT_0 in G by exact Hp. exact G. }
    assert (R2 : sqrt (2 * eta) * sqrt (eta / 2) = eta).
    { rewrite <- sqrt_mult_alt by lra. replace (2 * eta * (eta / 2)) with (eta * eta) by field. apply sqrt_square. lra. }
    pose proof (sqrt_le_1_alt _ _ S2) as R1. pose proof (sqrt_pos (eta / 2)) as R3.
    apply Rle_trans with (sqrt (B2R S) * sqrt (eta / 2)).
    - rewrite <- R2 at 1. apply Rmult_le_compat_r; lra.
    - replace ((1 + u) * sqrt (eta / 2) * B2R (norm v)) with ((1 + u) * B2R (norm v) * sqrt (eta / 2)) by ring.
      apply Rmult_le_compat_r; lra.
  Qed.
  Lemma u_quarter : u <= / 4.
  Proof. change (/ 4) with (bpow radix2 (-2)). apply bpow_le. lia. Qed.
  Lemma eta_small : eta <= / 4.
  Proof.
    change (/ 4) with (bpow radix2 (-2)). apply bpow_le. pose proof He as G. red in G. unfold SpecFloat.emin. lia.
  Qed.

  (** Rounding of any number. *)
  Lemma rnd_near x : Rabs (rnd x - x) <= u * Rabs x + eta.
  Proof.
    pose proof (error_N_FLT radix2 emin prec Hp (fun z => negb (Z.even z)) x) as (e & et & E1 & E2 & _ & E3).
    change (rnd x = x * (1 + e) + et) in E3. rewrite eta_half in E2.
    rewrite E3. replace (x * (1 + e) + et - x) with (x * e + et) by ring.
    eapply Rle_trans; [apply Rabs_triang|]. rewrite Rabs_mult.
    assert (E : Rabs e <= u).
    { eapply Rle_trans; [exact E1|]. unfold u_ro. replace (- prec + 1)%Z with (1 + - prec)%Z by lia.
      rewrite bpow_plus. change (bpow radix2 1) with 2. lra. }
    pose proof (Rabs_pos x). nra.
  Qed.

  Variable h : Z.
  Hypothesis even : emax = (2 * h)%Z.
  Lemma component limit v x : is_finite (norm v) = true -> leb zero limit = true -> ltb limit (norm v) = true ->
    In x v ->
    let y := b_div np (b_mul np x limit) (norm v) in
    let z := B2R limit / B2R (norm v) * B2R x in
    is_finite y = true /\ Rabs (B2R y - z) <= ((1 + u) ^ 2 - 1) * Rabs z + 2 * sqrt eta.
  Proof.
    intros HN Hl Hm Hx y z. destruct (norm_finite np h even v HN) as [Fv [_ Bn]].
    rewrite Forall_forall in Fv. destruct (Fv x Hx) as [Fx Bx]. clear Fv.
    apply leb_key in Hl. destruct Hl as [_ [Nl K0]]. apply ltb_key in Hm. destruct Hm as [_ [_ K1]].
    change (key zero) with 0 in K0. pose proof (key_bound _ HN) as Kb.
    assert (Fm : is_finite limit = true) by (apply finite_key; auto; rewrite Rabs_pos_eq; lra).
    rewrite (key_finite limit) in K0, K1 by auto. rewrite (key_finite (norm v)) in K1 by auto.
    destruct (scaled_finite np h even x limit Fx Fm Bx) as [Fp Ep]; [lra|].
    pose proof (eta_norm v HN) as EN. unfold y, z. clear y z Kb.
    generalize dependent (norm v). intros N FN BN KN EN. specialize (EN ltac:(lra)).
    set (p := b_mul np x limit) in *. set (m := B2R limit) in *. set (r := B2R x) in *.
    pose proof (rnd_near (r * m)) as R1. rewrite <- Ep in R1.
    pose proof (rnd_near (B2R p / B2R N)) as R2.
    pose proof (bpow_gt_0 radix2 (- prec)) as U. pose proof u_quarter as U4. pose proof eta_small as E4.
    pose proof eta_pos as E0.
    set (g := sqrt eta). assert (G0 : 0 <= g) by apply sqrt_pos.
    assert (GG : g * g = eta) by (apply sqrt_sqrt; lra).
    assert (G2 : g <= / 2) by nra.
    assert (G3 : sqrt (eta / 2) <= 3 / 4 * g).
    { rewrite <- (sqrt_square (3 / 4 * g)) by lra. apply sqrt_le_1_alt. nra. }
    pose proof (sqrt_pos (eta / 2)) as G4.
    assert (I : 0 < / B2R N) by (apply Rinv_0_lt_compat; lra).
    assert (EI : eta * / B2R N <= (1 + u) * (3 / 4 * g)).
    { apply Rle_trans with ((1 + u) * sqrt (eta / 2)); [|apply Rmult_le_compat_l; lra].
      apply Rmult_le_reg_r with (B2R N); [lra|]. rewrite Rmult_assoc, Rinv_l by lra. lra. }
    set (z := m / B2R N * r).
    assert (Z1 : Rabs (B2R p / B2R N - z) <= u * Rabs z + eta * / B2R N).
    { replace (B2R p / B2R N - z) with ((B2R p - r * m) * / B2R N) by (unfold z; field; lra).
      replace (Rabs z) with (Rabs (r * m) * / B2R N).
      - rewrite Rabs_mult, (Rabs_pos_eq (/ B2R N)) by lra.
        replace (u * (Rabs (r * m) * / B2R N) + eta * / B2R N) with ((u * Rabs (r * m) + eta) * / B2R N) by ring.
        apply Rmult_le_compat_r; lra.
      - replace z with (r * m * / B2R N) by (unfold z; field; lra). rewrite (Rabs_mult (r * m)), (Rabs_pos_eq (/ B2R N)) by lra.
        reflexivity. }
    assert (Z2 : Rabs (B2R p / B2R N) <= (1 + u) * Rabs z + eta * / B2R N).
    { replace (B2R p / B2R N) with ((B2R p / B2R N - z) + z) by ring.
      eapply Rle_trans; [apply Rabs_triang|]. lra. }
    assert (Z3 : Rabs (rnd (B2R p / B2R N) - z) <= ((1 + u) ^ 2 - 1) * Rabs z + 2 * g).
    { replace (rnd (B2R p / B2R N) - z) with ((rnd (B2R p / B2R N) - B2R p / B2R N) + (B2R p / B2R N - z)) by ring.
      eapply Rle_trans; [apply Rabs_triang|].
      assert (X : u * Rabs (B2R p / B2R N) <= u * ((1 + u) * Rabs z + eta * / B2R N))
        by (apply Rmult_le_compat_l; lra).
      assert (Y : (1 + u) * (eta * / B2R N) + eta <= 2 * g).
      { apply Rle_trans with ((1 + u) * ((1 + u) * (3 / 4 * g)) + g * / 2).
        - apply Rplus_le_compat; [apply Rmult_le_compat_l; lra|]. rewrite <- GG. apply Rmult_le_compat_l; lra.
        - replace ((1 + u) * ((1 + u) * (3 / 4 * g)) + g * / 2) with (((1 + u) * (1 + u) * (3 / 4) + / 2) * g) by ring.
          apply Rmult_le_compat_r; [exact G0|]. nra. }
      replace (((1 + u) ^ 2 - 1) * Rabs z) with (u * (1 + u) * Rabs z + u * Rabs z) by ring. lra. }
    assert (Zx : Rabs z <= bpow radix2 h).
    { unfold z. rewrite Rabs_mult. apply Rle_trans with (1 * Rabs r); [|lra].
      apply Rmult_le_compat_r; [apply Rabs_pos|]. unfold Rdiv. rewrite Rabs_pos_eq by nra.
      apply Rmult_le_reg_r with (B2R N); [lra|]. rewrite Rmult_assoc, Rinv_l by lra. lra. }
    assert (H4 : 4 * bpow radix2 h <= bpow radix2 emax).
    { change 4 with (bpow radix2 2). rewrite <- bpow_plus. apply bpow_le. pose proof He as G. red in G. lia. }
    assert (H1 : 1 <= bpow radix2 h).
    { change 1 with (bpow radix2 0). apply bpow_le. pose proof He as G. red in G. lia. }
    destruct (div_correct np p N Fp) as [D1 D2].
    - lra.
    - replace (rnd (B2R p / B2R N)) with ((rnd (B2R p / B2R N) - z) + z) by ring.
      eapply Rle_lt_trans; [apply Rabs_triang|].
      assert (((1 + u) ^ 2 - 1) * Rabs z <= Rabs z).
      { rewrite <- (Rmult_1_l (Rabs z)) at 2. apply Rmult_le_compat_r; [apply Rabs_pos|]. nra. }
      lra.
    - split; [exact D1|]. rewrite D2. exact Z3.
  Qed.

  Lemma component_accuracy limit v k vk yk :
    is_finite (norm v) = true -> leb zero limit = true -> ltb limit (norm v) = true ->
    nth_error v k = Some vk -> nth_error (correct limit v) k = Some yk ->
    let z := B2R limit / B2R (norm v) * B2R vk in
    is_finite yk = true /\ Rabs (B2R yk - z) <= ((1 + u) ^ 2 - 1) * Rabs z + 2 * under 1.
  Proof.
    intros HN Hl Hm Hv Hy. unfold max_velocity_abs in Hy. cbn [flt fdiv fmul FloatIEEE] in Hy.
    rewrite Hm, nth_error_map, Hv in Hy. injection Hy as <-.
    unfold underflow. rewrite eta_is, Rmult_1_l. apply component; auto. eapply nth_error_In; eauto.
  Qed.

  Lemma pow_close k : 1 <= (1 + u) ^ k.
  Proof. apply pow_u. Qed.
  Lemma norm_limit limit v : is_finite (norm v) = true -> leb zero limit = true -> ltb limit (norm v) = true ->
    Forall (fun y => is_finite y = true) (correct limit v) /\
    close prec (length v + 7) (4 * under (length v)) (len (correct limit v)) (B2R limit) /\
    len (correct limit v) <= (1 + u) ^ (length v + 5) * (B2R limit + 4 * under (length v)).
  Proof.
    intros HN Hl Hm. pose proof (component limit v) as C.
    unfold max_velocity_abs. cbn [flt fdiv fmul FloatIEEE]. rewrite Hm.
    destruct (norm_near v HN) as [A1 A2].
    split; [rewrite Forall_map; apply Forall_forall; intros x Hx; exact (proj1 (C x HN Hl Hm Hx))|].
    set (c := B2R limit / B2R (norm v)). set (n := length v) in *.
    assert (K : 0 <= B2R limit < B2R (norm v)).
    { apply leb_key in Hl. destruct Hl as [_ [Nl K0]]. apply ltb_key in Hm. destruct Hm as [_ [_ K1]].
      change (key zero) with 0 in K0. pose proof (key_bound _ HN) as Kb.
      assert (Fm : is_finite limit = true) by (apply finite_key; auto; rewrite Rabs_pos_eq; lra).
      rewrite (key_finite limit) in K0, K1 by auto. rewrite (key_finite (norm v)) in K1 by auto. lra. }
    pose proof (length2_nonneg (map B2R v)) as L0. pose proof (under_nonneg n) as B0.
    pose proof (bpow_gt_0 radix2 (- prec)) as U. pose proof u_quarter as U4.
    assert (I : 0 < / B2R (norm v)) by (apply Rinv_0_lt_compat; lra).
    assert (C0 : 0 <= c < 1).
    { unfold c, Rdiv. split; [apply Rmult_le_pos; lra|].
      apply Rmult_lt_reg_r with (B2R (norm v)); [lra|]. rewrite Rmult_assoc, Rinv_l by lra. lra. }
    assert (NR : Rabs (len (map (fun x => b_div np (b_mul np x limit) (norm v)) v)
                       - length2 (map (fun x => c * x) (map B2R v)))
                 <= ((1 + u) ^ 2 - 1) * length2 (map (fun x => c * x) (map B2R v)) + 2 * under n).
    { pose proof (length2_near (map B2R (map (fun x => b_div np (b_mul np x limit) (norm v)) v))
        (map (fun x => c * x) (map B2R v)) ((1 + u) ^ 2 - 1) (2 * sqrt eta)) as LN.
      rewrite !map_length in LN. fold n in LN.
      replace (2 * under n) with (sqrt (INR n) * (2 * sqrt eta)).
      - apply LN; [nra|pose proof (sqrt_pos eta); lra|].
        rewrite !map_map. apply Forall2_maps. intros x Hx. apply (C x HN Hl Hm Hx).
      - unfold underflow. rewrite eta_is, sqrt_mult_alt by apply pos_INR. ring. }
    rewrite length2_scale in NR by lra. set (Y := len (map _ v)) in *. clear C.
    assert (Y0 : 0 <= Y) by apply length2_nonneg.
    set (L := len v) in *. set (N := B2R (norm v)) in *. set (m := B2R limit) in *. set (b := under n) in *.
    assert (cN : c * N = m) by (unfold c; field; lra).
    apply Rabs_le_inv in NR.
    pose proof (pow_close (n + 3)) as W. set (w := (1 + u) ^ (n + 3)) in *.
    assert (P5 : (1 + u) ^ (n + 5) = w * ((1 + u) * (1 + u))).
    { unfold w. rewrite !pow_add. simpl. ring. }
    assert (P7 : (1 + u) ^ (n + 7) = w * ((1 + u) * (1 + u) * ((1 + u) * (1 + u)))).
    { unfold w. rewrite !pow_add. simpl. ring. }
    set (d := (1 + u) * (1 + u)) in *. assert (D : 1 <= d <= 25 / 16) by (unfold d; nra).
    replace ((1 + u) ^ 2) with d in NR by (unfold d; ring).
    assert (cL : c * L <= w * m + b).
    { apply Rle_trans with (c * (w * N + b)); [apply Rmult_le_compat_l; lra|].
      rewrite Rmult_plus_distr_l. replace (c * (w * N)) with (w * (c * N)) by ring. rewrite cN. nra. }
    assert (cM : m <= w * (c * L + b)).
    { rewrite <- cN. apply Rle_trans with (c * (w * (L + b))); [apply Rmult_le_compat_l; lra|].
      replace (c * (w * (L + b))) with (w * (c * L + c * b)) by ring. apply Rmult_le_compat_l; [lra|]. nra. }
    assert (Up : Y <= d * (w * m + b) + 2 * b) by nra.
    assert (Up5 : Y <= w * d * (m + 4 * b)).
    { eapply Rle_trans; [exact Up|]. assert (1 <= w * d) by nra.
      replace (w * d * (m + 4 * b)) with (d * w * m + w * d * (4 * b)) by ring.
      assert (4 * (d * b) <= w * d * (4 * b)).
      { replace (w * d * (4 * b)) with (w * (4 * (d * b))) by ring. rewrite <- (Rmult_1_l (4 * (d * b))) at 1.
        apply Rmult_le_compat_r; nra. }
      nra. }
    rewrite P5. split; [|exact Up5]. unfold close. rewrite P7. split.
    - eapply Rle_trans; [exact Up5|]. apply Rmult_le_compat_r; [lra|]. apply Rmult_le_compat_l; nra.
    - (* m <= w (cL + b), cL <= (Y + 2b) / (2 - d), 1 <= (2 - d) d^2 *)
      assert (D2 : 1 <= (2 - d) * (d * d)).
      { assert (U1 : d = 1 + 2 * u + u * u) by (unfold d; ring).
        replace ((2 - d) * (d * d)) with (1 + (d - 1) * (1 + d - d * d)) by ring.
        assert (0 <= 1 + d - d * d) by nra. nra. }
      assert (E1 : (2 - d) * (c * L) <= Y + 2 * b) by lra.
      assert (E2 : c * L <= d * d * (Y + 2 * b)).
      { apply Rle_trans with ((2 - d) * (d * d) * (c * L)).
        - rewrite <- (Rmult_1_l (c * L)) at 1. apply Rmult_le_compat_r; [nra|lra].
        - replace ((2 - d) * (d * d) * (c * L)) with (d * d * ((2 - d) * (c * L))) by ring.
          apply Rmult_le_compat_l; nra. }
      eapply Rle_trans; [exact cM|]. rewrite Rmult_assoc. apply Rmult_le_compat_l; [lra|].
      assert (1 <= d * d) by nra. nra.
  Qed.

  Lemma norm_bound limit v : is_finite (norm v) = true -> is_finite limit = true -> leb zero limit = true ->
    Forall (fun y => is_finite y = true) (correct limit v) /\
    len (correct limit v) <= (1 + u) ^ (length v + 5) * (B2R limit + 4 * under (length v)).
  Proof.
    intros HN Fl Hl. destruct (ltb limit (norm v)) eqn:E.
    - destruct (norm_limit limit v HN Hl E) as (A & _ & B). auto.
    - rewrite max_abs_within by exact E. split.
      + destruct (norm_finite np h even v HN) as [Fv _]. eapply Forall_impl; [|exact Fv]. intros x [G _]. exact G.
      + destruct (norm_near v HN) as [A _]. eapply Rle_trans; [exact A|].
        assert (K : B2R (norm v) <= B2R limit).
        { apply Rnot_lt_le. intros G. rewrite <- not_true_iff_false in E. apply E. apply ltb_key.
          rewrite !key_finite by auto. split; [|split]; [| |exact G].
          - now destruct limit.
          - generalize dependent (norm v). intros N HN _ _ _. now destruct N. }
        pose proof (pow_close (length v + 3)) as W. pose proof (under_nonneg (length v)) as B0.
        assert (P5 : (1 + u) ^ (length v + 5) = (1 + u) ^ (length v + 3) * ((1 + u) * (1 + u))).
        { rewrite !pow_add. simpl. ring. }
        rewrite P5. set (w := (1 + u) ^ (length v + 3)) in *. pose proof (bpow_gt_0 radix2 (- prec)) as U.
        assert (D : 1 <= (1 + u) * (1 + u)) by nra. set (d := (1 + u) * (1 + u)) in *.
        assert (L0 : 0 <= B2R limit).
        { apply leb_key in Hl. destruct Hl as [_ [_ K0]]. rewrite (key_finite limit) in K0 by auto. exact K0. }
        apply Rle_trans with (w * (B2R limit + 4 * under (length v))).
        * assert (w * B2R (norm v) <= w * B2R limit) by (apply Rmult_le_compat_l; lra). nra.
        * rewrite Rmult_assoc. apply Rmult_le_compat_l; [lra|].
          rewrite <- (Rmult_1_l (B2R limit + _)) at 1. apply Rmult_le_compat_r; lra.
  Qed.
End Speed.
