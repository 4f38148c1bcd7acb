(** * Saturated rounding: the order keys of the results of the float operations *)

From Coq Require Import List Arith ZArith Bool Lia Reals Lra.
From Flocq Require Import Core IEEE754.BinarySingleNaN IEEE754.Binary.
From Verif Require Import Base FloatModel FloatFacts ArithFacts.
Import ListNotations.

Section Sat.
  Context {prec emax : Z} {Hp : Prec_gt_0 prec} {He : Prec_lt_emax prec emax}.
  Variable np : nan_policy prec emax.
  Notation F := (bfloat prec emax).
  Notation fexp := (SpecFloat.fexp prec emax).
  Notation rnd := (round radix2 fexp (round_mode mode_NE)).
  Notation B2R := (Binary.B2R prec emax).
  Notation sign := (Binary.Bsign prec emax).
  Notation M := (bpow radix2 emax).
  #[local] Instance vexp' : Valid_exp fexp := BinarySingleNaN.fexp_correct prec emax Hp.
  #[local] Instance vrnd' : Valid_rnd (round_mode mode_NE) := valid_rnd_round_mode mode_NE.

  Definition sat (r : R) : R := Rmax (- M) (Rmin M (rnd r)).

  Lemma rnd_le a b : (a <= b)%R -> (rnd a <= rnd b)%R.
  Proof. intros H. apply round_le; [exact vexp'|exact vrnd'|exact H]. Qed.
  Lemma rnd_0 : rnd 0 = 0%R.
  Proof. apply round_0. exact vrnd'. Qed.
  Lemma rnd_pos a : (0 <= a)%R -> (0 <= rnd a)%R.
  Proof. intros H. rewrite <- rnd_0. now apply rnd_le. Qed.
  Lemma rnd_neg a : (a <= 0)%R -> (rnd a <= 0)%R.
  Proof. intros H. rewrite <- rnd_0. now apply rnd_le. Qed.
  Lemma sat_le a b : (a <= b)%R -> (sat a <= sat b)%R.
  Proof.
    intros H. apply rnd_le in H. unfold sat. apply Rle_max_compat_l. now apply Rle_min_compat_l.
  Qed.
  Lemma sat_pos a : (0 <= a)%R -> (0 <= sat a)%R.
  Proof.
    intros H. apply rnd_pos in H. pose proof (bpow_gt_0 radix2 emax). unfold sat.
    eapply Rle_trans; [|apply Rmax_r]. apply Rmin_glb; lra.
  Qed.
  Lemma sat_neg a : (a <= 0)%R -> (sat a <= 0)%R.
  Proof.
    intros H. apply rnd_neg in H. pose proof (bpow_gt_0 radix2 emax). unfold sat.
    apply Rmax_lub; [lra|]. eapply Rle_trans; [apply Rmin_r|]. auto.
  Qed.
  Lemma sat_in a : (Rabs (rnd a) < M)%R -> sat a = rnd a.
  Proof.
    intros H. apply Rabs_lt_inv in H. unfold sat. rewrite Rmin_right, Rmax_right; lra.
  Qed.
  Lemma sat_big a : (M <= rnd a)%R -> sat a = M.
  Proof. intros H. pose proof (bpow_gt_0 radix2 emax). unfold sat. rewrite Rmin_left, Rmax_right; lra. Qed.
  Lemma sat_small a : (rnd a <= - M)%R -> sat a = (- M)%R.
  Proof. intros H. pose proof (bpow_gt_0 radix2 emax). unfold sat. rewrite Rmin_right, Rmax_left; lra. Qed.
  Lemma sat_range a : (- M <= sat a <= M)%R.
  Proof.
    pose proof (bpow_gt_0 radix2 emax). unfold sat. split; [apply Rmax_l|].
    apply Rmax_lub; [lra|apply Rmin_l].
  Qed.
  Lemma sat_B2R (x : F) : sat (B2R x) = B2R x.
  Proof.
    pose proof (B2R_bound x). rewrite sat_in; rewrite rnd_B2R; auto.
  Qed.
  Lemma sat_finite a : (Rabs (sat a) < M)%R -> (Rabs (rnd a) < M)%R.
  Proof.
    intros H. apply Rnot_le_lt. intros G. apply Rabs_lt_inv in H.
    destruct (Rle_or_lt 0 (rnd a)) as [P|P].
    - rewrite Rabs_pos_eq in G by auto. rewrite sat_big in H by auto. lra.
    - rewrite Rabs_left in G by auto. rewrite sat_small in H by lra. lra.
  Qed.

  Lemma key_range (x : F) : (- M <= key x <= M)%R.
  Proof.
    pose proof (bpow_gt_0 radix2 emax).
    destruct (is_finite x) eqn:E.
    - pose proof (key_bound x E). lra.
    - destruct x as [s|[|]|s pl h|s m e h]; try discriminate; simpl; lra.
  Qed.
  Lemma finite_key (x : F) : is_nan x = false -> (Rabs (key x) < M)%R -> is_finite x = true.
  Proof.
    pose proof (bpow_gt_0 radix2 emax).
    destruct x as [s|[|]|s pl h|s m e h]; simpl; auto; try discriminate; intros _ G; exfalso;
      rewrite ?Rabs_Ropp, Rabs_pos_eq in G; lra.
  Qed.
  Lemma sign_le (x : F) : sign x = false -> is_nan x = false -> (0 <= key x)%R.
  Proof.
    pose proof (bpow_gt_0 radix2 emax).
    destruct x as [s|[|]|s pl h|s m e h]; simpl; try discriminate; intros; try lra.
    subst. apply F2R_ge_0. simpl. lia.
  Qed.
  Lemma sign_ge (x : F) : sign x = true -> is_nan x = false -> (key x <= 0)%R.
  Proof.
    pose proof (bpow_gt_0 radix2 emax).
    destruct x as [s|[|]|s pl h|s m e h]; simpl; try discriminate; intros; try lra.
    subst. apply F2R_le_0. simpl. lia.
  Qed.

  (** An operation that overflows yields the infinity of the exact result's sign. *)
  Lemma key_overflow (z : F) (s : bool) a : (M <= Rabs (rnd a))%R ->
    Binary.B2FF prec emax z = Binary.binary_overflow prec emax mode_NE s ->
    (s = false -> (0 <= a)%R) -> (s = true -> (a <= 0)%R) ->
    is_nan z = false /\ key z = sat a.
  Proof.
    intros G E P N. assert (Z : z = Binary.B754_infinity s).
    { apply (Binary.B2FF_inj prec emax). exact E. }
    subst z. split; auto. pose proof (bpow_gt_0 radix2 emax). destruct s; simpl.
    - specialize (N eq_refl). apply rnd_neg in N. rewrite sat_small; auto. rewrite Rabs_left1 in G by auto. lra.
    - specialize (P eq_refl). apply rnd_pos in P. rewrite sat_big; auto. rewrite Rabs_pos_eq in G by auto. lra.
  Qed.
  Lemma sign_B2R (x : F) : is_finite x = true ->
    (sign x = false -> (0 <= B2R x)%R) /\ (sign x = true -> (B2R x <= 0)%R).
  Proof.
    intros H. pose proof (finite_not_nan x H). rewrite <- key_finite by auto. auto using sign_le, sign_ge.
  Qed.

  Lemma key_add (x y : F) : is_finite x = true -> is_finite y = true ->
    is_nan (b_add np x y) = false /\ key (b_add np x y) = sat (B2R x + B2R y).
  Proof.
    intros Hx Hy. destruct (Rlt_or_le (Rabs (rnd (B2R x + B2R y))) M) as [L|L].
    - destruct (add_correct np x y Hx Hy L) as [A B]. split; [now apply finite_not_nan|].
      rewrite key_finite, sat_in by auto. exact B.
    - pose proof (Binary.Bplus_correct prec emax Hp He (np_add np) mode_NE x y Hx Hy) as C.
      rewrite Rlt_bool_false in C by exact L. destruct C as [C1 C2].
      destruct (sign_B2R x Hx), (sign_B2R y Hy).
      apply (key_overflow _ (sign x)); auto; intros E; rewrite <- C2 in *; intuition lra.
  Qed.
  Lemma key_sub (x y : F) : is_finite x = true -> is_finite y = true ->
    is_nan (b_sub np x y) = false /\ key (b_sub np x y) = sat (B2R x - B2R y).
  Proof.
    intros Hx Hy. destruct (Rlt_or_le (Rabs (rnd (B2R x - B2R y))) M) as [L|L].
    - destruct (sub_correct np x y Hx Hy L) as [A B]. split; [now apply finite_not_nan|].
      rewrite key_finite, sat_in by auto. exact B.
    - pose proof (Binary.Bminus_correct prec emax Hp He (np_sub np) mode_NE x y Hx Hy) as C.
      rewrite Rlt_bool_false in C by exact L. destruct C as [C1 C2].
      destruct (sign_B2R x Hx), (sign_B2R y Hy).
      apply (key_overflow _ (sign x)); auto; intros E; rewrite C2 in *; destruct (sign y); try discriminate; intuition lra.
  Qed.
  Lemma mul_signs (a b : R) (s t : bool) :
    (s = false -> (0 <= a)%R) -> (s = true -> (a <= 0)%R) ->
    (t = false -> (0 <= b)%R) -> (t = true -> (b <= 0)%R) ->
    (xorb s t = false -> (0 <= a * b)%R) /\ (xorb s t = true -> (a * b <= 0)%R).
  Proof. destruct s, t; simpl; intros; split; intros; try discriminate; intuition nra. Qed.
  Lemma key_mul (x y : F) : is_finite x = true -> is_finite y = true ->
    is_nan (b_mul np x y) = false /\ key (b_mul np x y) = sat (B2R x * B2R y).
  Proof.
    intros Hx Hy. destruct (Rlt_or_le (Rabs (rnd (B2R x * B2R y))) M) as [L|L].
    - destruct (mul_correct np x y Hx Hy L) as [A B]. split; [now apply finite_not_nan|].
      rewrite key_finite, sat_in by auto. exact B.
    - pose proof (Binary.Bmult_correct prec emax Hp He (np_mul np) mode_NE x y) as C.
      rewrite Rlt_bool_false in C by exact L.
      destruct (sign_B2R x Hx) as [X1 X2], (sign_B2R y Hy) as [Y1 Y2].
      destruct (mul_signs _ _ _ _ X1 X2 Y1 Y2). now apply (key_overflow _ _ _ L C).
  Qed.
  Lemma key_div (x y : F) : is_finite x = true -> is_finite y = true -> B2R y <> 0%R ->
    is_nan (b_div np x y) = false /\ key (b_div np x y) = sat (B2R x / B2R y).
  Proof.
    intros Hx Hy H0. destruct (Rlt_or_le (Rabs (rnd (B2R x / B2R y))) M) as [L|L].
    - destruct (div_correct np x y Hx H0 L) as [A B]. split; [now apply finite_not_nan|].
      rewrite key_finite, sat_in by auto. exact B.
    - pose proof (Binary.Bdiv_correct prec emax Hp He (np_div np) mode_NE x y H0) as C.
      rewrite Rlt_bool_false in C by exact L.
      destruct (sign_B2R x Hx) as [X1 X2], (sign_B2R y Hy) as [Y1 Y2].
      assert (Y1' : sign y = false -> (0 <= / B2R y)%R).
      { intros E. left. apply Rinv_0_lt_compat. specialize (Y1 E). lra. }
      assert (Y2' : sign y = true -> (/ B2R y <= 0)%R).
      { intros E. left. apply Rinv_lt_0_compat. specialize (Y2 E). lra. }
      destruct (mul_signs _ _ _ _ X1 X2 Y1' Y2'). now apply (key_overflow _ _ _ L C).
  Qed.

  (** Finite results come from finite arguments. *)
  Lemma add_finite_args (x y : F) : is_finite (b_add np x y) = true -> is_finite x = true /\ is_finite y = true.
  Proof.
    unfold b_add, Binary.Bplus.
    destruct x as [s|s|s pl h|s m e h], y as [s'|s'|s' pl' h'|s' m' e' h']; simpl; auto; try discriminate;
      destruct s; try discriminate; destruct s'; discriminate.
  Qed.
  Lemma mul_finite_args (x y : F) : is_finite (b_mul np x y) = true -> is_finite x = true /\ is_finite y = true.
  Proof.
    unfold b_mul, Binary.Bmult.
    destruct x as [s|s|s pl h|s m e h], y as [s'|s'|s' pl' h'|s' m' e' h']; simpl; auto; discriminate.
  Qed.
  Lemma sqrt_finite_args (x : F) : is_finite (b_sqrt np x) = true ->
    is_finite x = true /\ (0 <= B2R x)%R /\ B2R (b_sqrt np x) = rnd (sqrt (B2R x)).
  Proof.
    intros H. destruct (Binary.Bsqrt_correct prec emax Hp He (np_sqrt np) mode_NE x) as [A [B _]].
    unfold b_sqrt, is_finite in *. rewrite A, H in *.
    destruct x as [s|s|s pl h|s m e h]; try discriminate B.
    - split; auto. split; auto. simpl. lra.
    - destruct s; [discriminate B|]. split; auto. split; auto. simpl. apply F2R_ge_0. simpl. lia.
  Qed.
End Sat.
