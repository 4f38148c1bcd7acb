(** * The Schwefel function on its box: t^2 sin t for 0 <= t <= sqrt 500 *)

From Coq Require Import List Arith ZArith Reals Lra Psatz Machin.
From Flocq Require Import IEEE754.Binary.
Local Open Scope R_scope.

(** 3.14159265 < pi < 3.14159266 *)
Lemma pi_bounds : 314159265 / 10 ^ 8 < PI < 314159266 / 10 ^ 8.
Proof.
  pose proof (PI_2_3_7_ineq 5) as [L U].
  unfold tg_alt, PI_2_3_7_tg, Ratan_seq in *. simpl in L, U. lra.
Qed.
(** sin around 13 pi / 2 *)
Lemma sin_shift d : sin (13 * (PI / 2) + d) = cos d.
Proof.
  replace (13 * (PI / 2) + d) with (PI / 2 + (d + 2 * INR 3 * PI)) by (simpl; lra).
  rewrite <- (cos_period d 3). now rewrite <- cos_sin.
Qed.
Lemma cos_upper d : - (PI / 2) <= d <= PI / 2 -> cos d <= 1 - d * d / 2 + d * d * (d * d) / 24.
Proof.
  intros H. destruct (cos_bound d 0) as [_ U]; [lra|lra|].
  unfold cos_approx, cos_term in U. simpl in U. lra.
Qed.
Lemma cos_lower d : - (PI / 2) <= d <= PI / 2 ->
  1 - d * d / 2 + d * d * (d * d) / 24 - d * d * (d * d) * (d * d) / 720 <= cos d.
Proof.
  intros H. destruct (cos_bound d 1) as [L _]; [lra|lra|].
  unfold cos_approx, cos_term in L. simpl in L. lra.
Qed.

(** The polynomial in the place of the cosine: up to a tiny linear rest it is a
    square times something positive. *)
Lemma poly_bound d : 0 <= d <= 158 / 100 ->
  (204203523 / 10 ^ 7 + d) * (204203523 / 10 ^ 7 + d) * (1 - d * d / 2 + d * d * (d * d) / 24) <=
  4189829 / 10 ^ 4 - 1 / 10 ^ 10.
Proof.
  intros H. set (d0 := 9717073 / 10 ^ 8).
  set (q := 101270233581505308959202710803501043 / 480000000000000000000000000000000 +
            3204854780381942745384379 / 187500000000000000000000 * d +
            -1376520522226047349 / 80000000000000000 * (d * d) +
            -2051752303 / 1200000000 * (d * d * d) + -1 / 24 * (d * d * (d * d))).
  set (r := 49191552901022229016025828410630008630615853 / 4800000000000000000000000000000000000000000000000 +
            -50635131381213432476814023843106843 / 40000000000000000000000000000000000000000 * d).
  assert (E : 4189829 / 10 ^ 4 - 1 / 10 ^ 10 -
    (204203523 / 10 ^ 7 + d) * (204203523 / 10 ^ 7 + d) * (1 - d * d / 2 + d * d * (d * d) / 24) =
    (d - d0) * (d - d0) * q + r) by (unfold q, r, d0; field).
  assert (D2 : d * d <= 158 / 100 * (158 / 100)) by (apply Rmult_le_compat; lra).
  assert (P2 : 0 <= d * d) by (apply Rmult_le_pos; lra).
  assert (D3 : d * d * d <= 158 / 100 * (158 / 100) * (158 / 100)) by (apply Rmult_le_compat; lra).
  assert (D4 : d * d * (d * d) <= 158 / 100 * (158 / 100) * (158 / 100 * (158 / 100))) by (apply Rmult_le_compat; lra).
  assert (Q : 0 <= q) by (unfold q; lra).
  assert (Rr : 0 <= r) by (unfold r; lra).
  assert (Sq : 0 <= (d - d0) * (d - d0) * q) by (apply Rmult_le_pos; [apply Rle_0_sqr|exact Q]).
  lra.
Qed.

Lemma peak t : 0 <= t -> t * t <= 500 -> t * t * sin t <= 4189829 / 10 ^ 4 - 1 / 10 ^ 10.
Proof.
  intros H0 H1. pose proof pi_bounds as PB. pose proof (SIN_bound t) as SB.
  destruct (Rle_or_lt t (13 * (PI / 2))) as [L|L].
  - assert (t * t <= 13 * (PI / 2) * (13 * (PI / 2))) by (apply Rmult_le_compat; lra). nra.
  - set (d := t - 13 * (PI / 2)). assert (Hd : 0 < d) by (unfold d; lra).
    replace t with (13 * (PI / 2) + d) at 3 by (unfold d; lra). rewrite sin_shift.
    assert (Ht : t <= 2237 / 100) by nra.
    destruct (Rle_or_lt d (PI / 2)) as [C|C].
    + pose proof (cos_upper d ltac:(lra)) as U. pose proof (poly_bound d ltac:(lra)) as Pb.
      pose proof (cos_ge_0 d ltac:(lra) ltac:(lra)) as C0.
      assert (t * t <= (204203523 / 10 ^ 7 + d) * (204203523 / 10 ^ 7 + d)).
      { apply Rmult_le_compat; unfold d; lra. }
      apply Rle_trans with ((204203523 / 10 ^ 7 + d) * (204203523 / 10 ^ 7 + d) * cos d); [nra|].
      eapply Rle_trans; [|exact Pb]. apply Rmult_le_compat_l; nra.
    + assert (cos d <= 0) by (apply cos_le_0; unfold d in *; lra). nra.
Qed.

Lemma le_of_squares a b : 0 <= b -> a * a <= b * b -> a <= b.
Proof. intros H0 H. apply Rsqr_incr_0_var; auto. Qed.
Lemma square_between lo hi x : 0 <= lo -> lo <= x <= hi -> lo * lo <= x * x <= hi * hi.
Proof. intros H0 [H1 H2]. split; apply Rmult_le_compat; lra. Qed.

(** At the documented minimum. *)
Lemma peak_value : 4189829 / 10 ^ 4 - 2 / 10 ^ 5 <= 4209687 / 10 ^ 4 * sin (sqrt (4209687 / 10 ^ 4)).
Proof.
  pose proof pi_bounds as PB.
  set (t := sqrt (4209687 / 10 ^ 4)). assert (T2 : t * t = 4209687 / 10 ^ 4) by (apply sqrt_sqrt; lra).
  assert (T0 : 0 <= t) by apply sqrt_pos.
  assert (T : 2051752177 / 10 ^ 8 <= t <= 2051752179 / 10 ^ 8) by (split; apply le_of_squares; lra).
  set (d := t - 13 * (PI / 2)).
  replace t with (13 * (PI / 2) + d) by (unfold d; lra). rewrite sin_shift.
  assert (D : 971694 / 10 ^ 7 <= d <= 971696 / 10 ^ 7) by (unfold d; lra).
  pose proof (cos_lower d ltac:(lra)) as L.
  assert (D2 := square_between (971694 / 10 ^ 7) (971696 / 10 ^ 7) d ltac:(lra) D).
  assert (D4 := square_between (971694 / 10 ^ 7 * (971694 / 10 ^ 7)) (971696 / 10 ^ 7 * (971696 / 10 ^ 7)) (d * d) ltac:(lra) D2).
  assert (D6 := Rmult_le_compat (d * d * (d * d)) _ (d * d) _ ltac:(lra) ltac:(lra) (proj2 D4) (proj2 D2)).
  lra.
Qed.
