(** * Facts about floats *)

From Coq Require Import List Arith ZArith Bool Reals Lia Lra.
From Flocq Require Import Core IEEE754.BinarySingleNaN IEEE754.Binary IEEE754.Bits.
From Verif Require Import Base FloatModel SpecGa.
Import ListNotations.

(** ** The order of non-NaN floats is the order of their keys *)
Section Key.
  Context {prec emax : Z} {Hp : Prec_gt_0 prec} {He : Prec_lt_emax prec emax}.
  Notation F := (bfloat prec emax).

  Definition key (x : F) : R :=
    match x with
    | Binary.B754_infinity false => bpow radix2 emax
    | Binary.B754_infinity true => (- bpow radix2 emax)%R
    | _ => Binary.B2R prec emax x
    end.

  Lemma key_finite (x : F) : is_finite x = true -> key x = Binary.B2R prec emax x.
  Proof. destruct x as [s|s| |]; simpl; try discriminate; auto. Qed.

  Lemma key_bound (x : F) : is_finite x = true -> (- bpow radix2 emax < key x < bpow radix2 emax)%R.
  Proof.
    intros H. rewrite key_finite by auto. apply Rabs_lt_inv.
    apply (Binary.abs_B2R_lt_emax prec emax x).
  Qed.

  Lemma bpow_emax_pos : (0 < bpow radix2 emax)%R.
  Proof. apply bpow_gt_0. Qed.

  Ltac cmp_case :=
    first [ transitivity (Some Lt); [reflexivity|f_equal; symmetry; apply Rcompare_Lt]
          | transitivity (Some Gt); [reflexivity|f_equal; symmetry; apply Rcompare_Gt]
          | transitivity (Some Eq); [reflexivity|f_equal; symmetry; apply Rcompare_Eq] ].

  Lemma partial_cmp_key (x y : F) : is_nan x = false -> is_nan y = false ->
    partial_cmp x y = Some (Rcompare (key x) (key y)).
  Proof.
    intros Hx Hy. unfold partial_cmp.
    destruct (is_finite x) eqn:Fx, (is_finite y) eqn:Fy.
    - rewrite Binary.Bcompare_correct by auto. rewrite !key_finite by auto. reflexivity.
    - pose proof (key_bound x Fx).
      destruct y as [|[]| |]; try discriminate Fy; try discriminate Hy;
        destruct x as [|[]| |[]]; try discriminate Fx; cmp_case; simpl in *; lra.
    - pose proof (key_bound y Fy).
      destruct x as [|[]| |]; try discriminate Fx; try discriminate Hx;
        destruct y as [|[]| |[]]; try discriminate Fy; cmp_case; simpl in *; lra.
    - pose proof bpow_emax_pos.
      destruct x as [|[]| |]; try discriminate Fx; try discriminate Hx;
        destruct y as [|[]| |]; try discriminate Fy; try discriminate Hy;
        cmp_case; simpl; lra.
  Qed.

  Lemma partial_cmp_nan (x y : F) : partial_cmp x y = None <-> is_nan x = true \/ is_nan y = true.
  Proof.
    split.
    - intros H. destruct (is_nan x) eqn:Nx; auto. destruct (is_nan y) eqn:Ny; auto.
      rewrite partial_cmp_key in H by auto. discriminate.
    - unfold partial_cmp. destruct x, y; intros [H|H]; simpl in *; try discriminate; auto;
        destruct s; auto; destruct s0; auto.
  Qed.

  Lemma ltb_key (x y : F) : ltb x y = true <->
    is_nan x = false /\ is_nan y = false /\ (key x < key y)%R.
  Proof.
    unfold ltb. destruct (is_nan x) eqn:Nx; [|destruct (is_nan y) eqn:Ny].
    - destruct (partial_cmp_nan x y) as [_ H]. rewrite H by auto. intuition discriminate.
    - destruct (partial_cmp_nan x y) as [_ H]. rewrite H by auto. intuition discriminate.
    - rewrite partial_cmp_key by auto.
      destruct (Rcompare_spec (key x) (key y)); intuition (try discriminate; lra).
  Qed.

  Lemma leb_key (x y : F) : leb x y = true <->
    is_nan x = false /\ is_nan y = false /\ (key x <= key y)%R.
  Proof.
    unfold leb. destruct (is_nan x) eqn:Nx; [|destruct (is_nan y) eqn:Ny].
    - destruct (partial_cmp_nan x y) as [_ H]. rewrite H by auto. intuition discriminate.
    - destruct (partial_cmp_nan x y) as [_ H]. rewrite H by auto. intuition discriminate.
    - rewrite partial_cmp_key by auto.
      destruct (Rcompare_spec (key x) (key y)); intuition (try discriminate; lra).
  Qed.

  Lemma ltb_false (x y : F) : is_nan x = false -> is_nan y = false ->
    (ltb x y = false <-> (key y <= key x)%R).
  Proof.
    intros Nx Ny. destruct (ltb x y) eqn:E.
    - apply ltb_key in E. split; [discriminate|lra].
    - split; auto. intros _. apply Rnot_lt_le. intros H.
      assert (ltb x y = true) by (apply ltb_key; auto). congruence.
  Qed.

  Lemma leb_false (x y : F) : is_nan x = false -> is_nan y = false ->
    (leb x y = false <-> (key y < key x)%R).
  Proof.
    intros Nx Ny. destruct (leb x y) eqn:E.
    - apply leb_key in E. split; [discriminate|lra].
    - split; auto. intros _. apply Rnot_le_lt. intros H.
      assert (leb x y = true) by (apply leb_key; auto). congruence.
  Qed.

  Lemma finite_not_nan (x : F) : is_finite x = true -> is_nan x = false.
  Proof. destruct x; simpl; auto; discriminate. Qed.
End Key.

(** Converts comparisons of floats into comparisons of real numbers. *)
Ltac fkeys :=
  repeat match goal with
  | H : ltb ?x ?y = true |- _ => apply ltb_key in H; destruct H as [? [? ?]]
  | H : leb ?x ?y = true |- _ => apply leb_key in H; destruct H as [? [? ?]]
  | H : ltb ?x ?y = false |- _ =>
      apply ltb_false in H; [|assumption|assumption]
  | H : leb ?x ?y = false |- _ =>
      apply leb_false in H; [|assumption|assumption]
  end.

(** ** The orders with NaN last / first *)
Lemma le_nan_last_refl x : le_nan_last x x.
Proof.
  unfold le_nan_last. destruct (is_nan x) eqn:N; auto. right. split; auto.
  apply leb_key. repeat split; auto. lra.
Qed.

Lemma le_nan_last_trans x y z : le_nan_last x y -> le_nan_last y z -> le_nan_last x z.
Proof.
  unfold le_nan_last. intros [H|[N1 H1]] [K|[N2 H2]]; auto; try congruence.
  right. split; auto. apply leb_key in H1. apply leb_key in H2. apply leb_key.
  destruct H1 as [? [? ?]], H2 as [? [? ?]]. repeat split; auto. lra.
Qed.

Lemma le_nan_last_total x y : le_nan_last x y \/ le_nan_last y x.
Proof.
  unfold le_nan_last. destruct (is_nan x) eqn:Nx, (is_nan y) eqn:Ny; auto.
  destruct (leb x y) eqn:E; auto. right. right. split; auto.
  apply leb_key. apply leb_false in E; auto. repeat split; auto. lra.
Qed.

Lemma lt_le_nan_last_trans x y z : lt_nan_last x y -> le_nan_last y z -> lt_nan_last x z.
Proof.
  unfold lt_nan_last, le_nan_last. intros [N H] [K|[K1 K2]]; split; auto.
  destruct H as [H|H]; [congruence|]. right. apply ltb_key in H. apply leb_key in K2. apply ltb_key.
  destruct H as [? [? ?]], K2 as [? [? ?]]. repeat split; auto. lra.
Qed.

Lemma le_lt_nan_last_trans x y z : le_nan_last x y -> lt_nan_last y z -> lt_nan_last x z.
Proof.
  unfold lt_nan_last, le_nan_last. intros [K|[K1 K2]] [N H]; [congruence|]. split; auto.
  destruct H as [H|H]; auto. right. apply ltb_key in H. apply leb_key in K2. apply ltb_key.
  destruct H as [? [? ?]], K2 as [? [? ?]]. repeat split; auto. lra.
Qed.

Lemma lt_le_nan_last x y : lt_nan_last x y -> le_nan_last x y.
Proof.
  unfold lt_nan_last, le_nan_last. intros [N [H|H]]; auto. right. split; auto.
  apply ltb_key in H. apply leb_key. destruct H as [? [? ?]]. repeat split; auto. lra.
Qed.

Lemma ge_nan_first_refl x : ge_nan_first x x.
Proof.
  unfold ge_nan_first. destruct (is_nan x) eqn:N; auto. right. split; auto.
  apply leb_key. repeat split; auto. lra.
Qed.

Lemma ge_nan_first_trans x y z : ge_nan_first x y -> ge_nan_first y z -> ge_nan_first x z.
Proof.
  unfold ge_nan_first. intros [H|[N1 H1]] [K|[N2 H2]]; auto; try congruence.
  right. split; auto. apply leb_key in H1. apply leb_key in H2. apply leb_key.
  destruct H1 as [? [? ?]], H2 as [? [? ?]]. repeat split; auto. lra.
Qed.

Lemma ge_gt_nan_first_trans x y z : ge_nan_first x y -> gt_nan_first y z -> gt_nan_first x z.
Proof.
  unfold gt_nan_first, ge_nan_first. intros [K|[K1 K2]] [N H]; [congruence|]. split; auto.
  destruct H as [H|H]; auto. right. apply ltb_key in H. apply leb_key in K2. apply ltb_key.
  destruct H as [? [? ?]], K2 as [? [? ?]]. repeat split; auto. lra.
Qed.

(** ** Bit patterns determine the float *)
Lemma from_to_bits64 (x : f64) : from_bits64 (to_bits64 x) = x.
Proof. exact (Bits.binary_float_of_bits_of_binary_float 52 11 eq_refl eq_refl eq_refl x). Qed.
Lemma from_to_bits32 (x : f32) : from_bits32 (to_bits32 x) = x.
Proof. exact (Bits.binary_float_of_bits_of_binary_float 23 8 eq_refl eq_refl eq_refl x). Qed.
Lemma to_bits64_inj (x y : f64) : to_bits64 x = to_bits64 y -> x = y.
Proof. intros H. rewrite <- (from_to_bits64 x), <- (from_to_bits64 y). now rewrite H. Qed.
Lemma to_bits32_inj (x y : f32) : to_bits32 x = to_bits32 y -> x = y.
Proof. intros H. rewrite <- (from_to_bits32 x), <- (from_to_bits32 y). now rewrite H. Qed.
