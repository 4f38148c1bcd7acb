(** * Low values of the test functions are found only near the documented minimum *)

From Coq Require Import List Arith ZArith Bool Lia Reals Lra Psatz.
From Flocq Require Import Core IEEE754.BinarySingleNaN IEEE754.Binary.
From Verif Require Import Base FloatModel SpecStat SpecTest SpecAccuracy SpecNear SchwefelFacts TestFacts.
Import ListNotations.
Local Open Scope R_scope.

Lemma abs_below a k : 0 <= k -> a² <= k² -> Rabs a <= k.
Proof. intros K H. apply Rsqr_le_abs_0 in H. now rewrite (Rabs_pos_eq k) in H. Qed.
Lemma sum_term {A} (f : A -> R) (l : list A) a : (forall b, In b l -> 0 <= f b) -> In a l -> f a <= real_sum (map f l).
Proof.
  induction l as [|b l IH]; intros P H; [contradiction|]. cbn [map real_sum fold_right].
  assert (0 <= real_sum (map f l)).
  { apply sum_nonneg. rewrite Forall_map, Forall_forall. intros c Hc. apply P. now right. }
  pose proof (P b (or_introl eq_refl)). destruct H as [<-|H]; [unfold real_sum in *; lra|].
  specialize (IH (fun c Hc => P c (or_intror Hc)) H). unfold real_sum in *. lra.
Qed.

(** ** Paraboloid *)
Lemma paraboloid_near (x : list R) i a s : nth_error x i = Some a -> 0 <= s -> paraboloid_real x <= s² -> Rabs (a - INR (i + 1)) <= s.
Proof.
  intros Hi S H. apply abs_below; [exact S|]. eapply Rle_trans; [|exact H]. unfold paraboloid_real.
  apply (sum_term (fun nv => (snd nv - INR (fst nv))²) _ ((i + 1)%nat, a)).
  - intros. apply Rle_0_sqr.
  - clear -Hi. assert (G : forall k, nth_error (combine (seq k (length x)) x) i = Some ((i + k)%nat, a)).
    { revert i Hi. induction x as [|b x IH]; intros i Hi k; destruct i as [|j]; try discriminate.
      - cbn in *. congruence.
      - cbn in *. rewrite (IH j Hi (S k)). do 2 f_equal. lia. }
    eapply nth_error_In. rewrite G. reflexivity.
Qed.

(** ** Rosenbrock *)
Lemma pair_pos p q : 0 <= 100 * (q - p²)² + (1 - p)².
Proof. pose proof (Rle_0_sqr (q - p²)). pose proof (Rle_0_sqr (1 - p)). lra. Qed.
Lemma rosenbrock_near (x : list R) i a s : length x = 3%nat -> nth_error x i = Some a -> 0 <= s <= 1 / 5 ->
  rosenbrock_real x <= s² -> Rabs (a - 1) <= 23 / 10 * s.
Proof.
  intros L Hi S H. destruct x as [|x0 [|x1 [|x2 [|]]]]; try discriminate.
  assert (T : forall p q, In (p, q) (combine [x0; x1; x2] (tl [x0; x1; x2])) -> Rabs (p - 1) <= s /\ Rabs (q - p²) <= s / 10).
  { intros p q I. pose proof (sum_term (fun ab => 100 * (snd ab - (fst ab)²)² + (1 - fst ab)²) _ (p, q)
      (fun b _ => pair_pos (fst b) (snd b)) I) as B.
    cbn [fst snd] in B. fold (rosenbrock_real [x0; x1; x2]) in B.
    pose proof (Rle_0_sqr (q - p²)) as B1. pose proof (Rle_0_sqr (1 - p)) as B2. split; apply abs_below; try lra.
    - rewrite (Rsqr_neg_minus p 1). lra.
    - replace ((s / 10)²) with (s² / 100) by (unfold Rsqr; field). lra. }
  destruct (T x0 x1 ltac:(cbn; auto)) as [A0 A1]. destruct (T x1 x2 ltac:(cbn; auto)) as [B0 B1].
  apply Rabs_le_inv in A0. apply Rabs_le_inv in A1. apply Rabs_le_inv in B0. apply Rabs_le_inv in B1.
  destruct i as [|[|[|i]]]; cbn in Hi.
  - injection Hi as <-. apply Rabs_le. lra.
  - injection Hi as <-. apply Rabs_le. lra.
  - injection Hi as <-. apply Rabs_le.
    assert (- (2 * s) - s * s <= x1² - 1 <= 2 * s + s * s).
    { replace (x1² - 1) with (2 * (x1 - 1) + (x1 - 1)²) by (unfold Rsqr; ring).
      assert (0 <= (x1 - 1)² <= s * s).
      { split; [apply Rle_0_sqr|]. change (s * s) with (s²). apply Rsqr_le_abs_1. rewrite (Rabs_pos_eq s) by lra. apply Rabs_le. lra. }
      assert (0 <= s * s) by (apply Rmult_le_pos; lra). lra. }
    assert (s * s <= s * (1 / 5)) by (apply Rmult_le_compat_l; lra). lra.
  - destruct i; discriminate.
Qed.

(** ** Rastrigin *)
Lemma half_sine a : Rabs a <= 1 / 2 -> 8 * a² <= 1 - cos (2 * PI * a).
Proof.
  assert (P : forall b, 0 <= b <= 1 / 2 -> 8 * b² <= 1 - cos (2 * PI * b)).
  { intros b B. pose proof PI_RGT_0 as PP. replace (2 * PI * b) with (2 * (PI * b)) by ring. rewrite cos_2a_sin.
    assert (J : 2 * b <= sin (PI * b)).
    { destruct (Rle_lt_dec b 0) as [Z|Z]; [assert (b = 0) by lra; subst; rewrite !Rmult_0_r, sin_0; lra|].
      destruct (Rle_lt_or_eq_dec b (1 / 2) (proj2 B)) as [B2|E].
      2: { rewrite E. replace (PI * (1 / 2)) with (PI / 2) by field. rewrite sin_PI2. lra. }
      (* concavity: sin u / u decreases *)
      set (c := PI * b). assert (C : 0 < c < PI / 2) by (unfold c; nra).
      destruct (MVT_cor2 sin cos 0 c ltac:(lra)) as [u [U1 U2]]; [intros; apply derivable_pt_lim_sin|].
      destruct (MVT_cor2 sin cos c (PI / 2) ltac:(lra)) as [v [V1 V2]]; [intros; apply derivable_pt_lim_sin|].
      rewrite sin_0, !Rminus_0_r in U1. rewrite sin_PI2 in V1.
      assert (D : cos v <= cos u) by (apply cos_decr_1; lra).
      assert (W : 1 = cos u * c + cos v * (PI / 2 - c)) by lra.
      assert (cos v * (PI / 2 - c) <= cos u * (PI / 2 - c)) by (apply Rmult_le_compat_r; lra).
      assert (1 <= cos u * (PI / 2)) by lra.
      rewrite U1. replace (2 * b) with (1 * (2 * b)) by ring.
      apply Rle_trans with (cos u * (PI / 2) * (2 * b)); [apply Rmult_le_compat_r; lra|]. right. unfold c. field. }
    assert (4 * b² <= (sin (PI * b))²).
    { replace (4 * b²) with ((2 * b)²) by (unfold Rsqr; ring). apply Rsqr_incr_1; lra. }
    unfold Rsqr in *. lra. }
  intros H. destruct (Rle_or_lt 0 a) as [L|L].
  - apply P. rewrite Rabs_pos_eq in H by exact L. lra.
  - replace (2 * PI * a) with (- (2 * PI * (- a))) by ring. rewrite cos_neg, (Rsqr_neg a). apply P.
    rewrite Rabs_left in H by exact L. lra.
Qed.
Lemma rastrigin_near (x : list R) a s : In a x -> 0 <= s <= 1 / 2 -> rastrigin_doc x <= s² -> Rabs a <= s / 9.
Proof.
  intros I S H.
  assert (B : a² + 10 - 10 * cos (2 * PI * a) <= s²).
  { eapply Rle_trans; [|exact H]. apply (sum_term (fun a => a² + 10 - 10 * cos (2 * PI * a))); [|exact I].
    intros b _. pose proof (COS_bound (2 * PI * b)). pose proof (Rle_0_sqr b). lra. }
  assert (A : Rabs a <= s). { apply abs_below; [lra|]. pose proof (COS_bound (2 * PI * a)). lra. }
  pose proof (half_sine a ltac:(lra)) as Q. apply abs_below; [lra|].
  replace ((s / 9)²) with (s² / 81) by (unfold Rsqr; field). lra.
Qed.

(** ** Schwefel *)
Lemma poly_near d : 0 <= d <= 158 / 100 ->
  (204203523 / 10 ^ 7 + d) * (204203523 / 10 ^ 7 + d) * (1 - d * d / 2 + d * d * (d * d) / 24) <=
  4189829 / 10 ^ 4 - 188 * ((d - 9717073 / 10 ^ 8) * (d - 9717073 / 10 ^ 8)).
Proof.
  intros H. set (d0 := 9717073 / 10 ^ 8).
  set (q := 101270233581505308959202710803501043 / 480000000000000000000000000000000 +
            3204854780381942745384379 / 187500000000000000000000 * d +
            -1376520522226047349 / 80000000000000000 * (d * d) +
            -2051752303 / 1200000000 * (d * d * d) + -1 / 24 * (d * d * (d * d))).
  set (r := 49191552901022229016025828410630008630615853 / 4800000000000000000000000000000000000000000000000 +
            -50635131381213432476814023843106843 / 40000000000000000000000000000000000000000 * d).
  assert (E : 4189829 / 10 ^ 4 - 1 / 10 ^ 10 -
    (204203523 / 10 ^ 7 + d) * (204203523 / 10 ^ 7 + d) * (1 - d * d / 2 + d * d * (d * d) / 24) =
    (d - d0) * (d - d0) * q + r) by (unfold q, r, d0; field).
  assert (D2 : d * d <= 158 / 100 * (158 / 100)) by (apply Rmult_le_compat; lra).
  assert (P2 : 0 <= d * d) by (apply Rmult_le_pos; lra).
  assert (D3 : d * d * d <= 158 / 100 * (d * d)) by (rewrite (Rmult_comm (d * d)); apply Rmult_le_compat_r; lra).
  assert (D4 : d * d * (d * d) <= 158 / 100 * (158 / 100) * (158 / 100 * (158 / 100))) by (apply Rmult_le_compat; lra).
  assert (D1 : d * d <= 158 / 100 * d) by (apply Rmult_le_compat_r; lra).
  assert (Q : 188 <= q) by (unfold q; lra).
  assert (Rr : 0 <= r) by (unfold r; lra).
  assert (Sq : 188 * ((d - d0) * (d - d0)) <= (d - d0) * (d - d0) * q).
  { rewrite Rmult_comm. apply Rmult_le_compat_l; [apply Rle_0_sqr|exact Q]. }
  lra.
Qed.
Lemma peak_near t s : 0 <= t -> t * t <= 500 -> 0 <= s <= 1 -> 4189829 / 10 ^ 4 - s² <= t * t * sin t ->
  188 * (t - 13 * (PI / 2) - 9717073 / 10 ^ 8)² <= s².
Proof.
  intros H0 H1 S H. pose proof pi_bounds as PB. pose proof (SIN_bound t) as SB.
  assert (S1 : s² <= 1) by (replace 1 with (1²) by (unfold Rsqr; ring); apply Rsqr_incr_1; lra).
  destruct (Rle_or_lt t (13 * (PI / 2))) as [L|L].
  - exfalso. assert (t * t <= 13 * (PI / 2) * (13 * (PI / 2))) by (apply Rmult_le_compat; lra).
    assert (13 * (PI / 2) * (13 * (PI / 2)) <= 2042036 / 10 ^ 5 * (2042036 / 10 ^ 5)) by (apply Rmult_le_compat; lra).
    assert (0 <= t * t) by (apply Rmult_le_pos; lra).
    assert (t * t * sin t <= t * t * 1) by (apply Rmult_le_compat_l; lra). lra.
  - set (d := t - 13 * (PI / 2)) in *. assert (Hd : 0 < d) by (unfold d; lra).
    replace t with (13 * (PI / 2) + d) in H at 3 by (unfold d; lra). rewrite sin_shift in H.
    assert (Ht : t <= 2237 / 100) by (apply le_of_squares; lra).
    assert (T2 : 0 <= t * t) by (apply Rmult_le_pos; lra).
    destruct (Rle_or_lt d (PI / 2)) as [C|C].
    + pose proof (cos_upper d ltac:(lra)) as U. pose proof (poly_near d ltac:(lra)) as Pb.
      pose proof (cos_ge_0 d ltac:(lra) ltac:(lra)) as C0.
      assert (t * t <= (204203523 / 10 ^ 7 + d) * (204203523 / 10 ^ 7 + d)) by (apply Rmult_le_compat; unfold d; lra).
      set (w := (204203523 / 10 ^ 7 + d) * (204203523 / 10 ^ 7 + d)) in *.
      assert (t * t * cos d <= w * cos d) by (apply Rmult_le_compat_r; lra).
      assert (w * cos d <= w * (1 - d * d / 2 + d * d * (d * d) / 24)) by (apply Rmult_le_compat_l; lra).
      unfold Rsqr in *. lra.
    + exfalso. assert (cos d <= 0) by (apply cos_le_0; unfold d in *; lra).
      assert (0 <= t * t * - cos d) by (apply Rmult_le_pos; lra). lra.
Qed.
Lemma schwefel_term_near a s : Rabs a <= 500 -> 0 <= s <= 1 -> 4189829 / 10 ^ 4 - a * sin (sqrt (Rabs a)) <= s² ->
  Rabs (a - schwefel_answer) <= 313 / 100 * s + 1 / 10 ^ 4.
Proof.
  intros Ha S H. set (t := sqrt (Rabs a)) in *. assert (T0 : 0 <= t) by apply sqrt_pos.
  assert (T2 : t * t = Rabs a) by (apply sqrt_sqrt, Rabs_pos).
  assert (S1 : s² <= 1) by (replace 1 with (1²) by (unfold Rsqr; ring); apply Rsqr_incr_1; lra).
  destruct (Rle_or_lt 0 a) as [P|N].
  2: { exfalso. rewrite Rabs_left in T2 by exact N. rewrite Rabs_left in Ha by exact N. assert (E : a = - (t * t)) by lra.
       pose proof (trough t T0 ltac:(lra)). rewrite E in H. lra. }
  rewrite Rabs_pos_eq in T2 by exact P. rewrite Rabs_pos_eq in Ha by exact P. rewrite <- T2 in *.
  pose proof (peak_near t s T0 Ha S ltac:(lra)) as Q. pose proof pi_bounds as PB.
  set (t0 := sqrt schwefel_answer). unfold schwefel_answer in *.
  assert (Z2 : t0 * t0 = 4209687 / 10 ^ 4) by (apply sqrt_sqrt; lra).
  assert (Z0 : 0 <= t0) by apply sqrt_pos.
  assert (Z : 2051752177 / 10 ^ 8 <= t0 <= 2051752179 / 10 ^ 8) by (split; apply le_of_squares; lra).
  set (e := t - 13 * (PI / 2) - 9717073 / 10 ^ 8) in *.
  assert (B : Rabs e <= 10 / 137 * s).
  { apply abs_below; [lra|]. replace ((10 / 137 * s)²) with (100 / 18769 * s²) by (unfold Rsqr; field). pose proof (Rle_0_sqr s). lra. }
  apply Rabs_le_inv in B. assert (Ht : t <= 22361 / 1000) by (apply le_of_squares; lra).
  assert (G : Rabs (t - t0) <= 10 / 137 * s + 2 / 10 ^ 6) by (unfold e in B; apply Rabs_le; lra).
  replace (t * t - 4209687 / 10 ^ 4) with ((t + t0) * (t - t0)) by (rewrite <- Z2; ring).
  rewrite Rabs_mult, (Rabs_pos_eq (t + t0)) by lra.
  apply Rle_trans with (4288 / 100 * (10 / 137 * s + 2 / 10 ^ 6)); [apply Rmult_le_compat; [lra|apply Rabs_pos|lra|exact G]|lra].
Qed.
Lemma schwefel_near (x : list R) a s : In a x -> Forall (fun a => Rabs a <= 500) x -> 0 <= s <= 1 -> schwefel_doc x <= s² ->
  Rabs (a - schwefel_answer) <= 313 / 100 * s + 1 / 10 ^ 4.
Proof.
  intros I B S H. rewrite Forall_forall in B. apply schwefel_term_near; [apply B; exact I|exact S|].
  eapply Rle_trans; [|exact H]. apply (sum_term (fun a => 4189829 / 10 ^ 4 - a * sin (sqrt (Rabs a)))); [|exact I].
  intros b Hb. pose proof (schwefel_term b (B b Hb)). lra.
Qed.
