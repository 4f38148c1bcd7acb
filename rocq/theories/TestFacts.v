(** * Facts about the test functions *)

From Coq Require Import List Arith ZArith Bool Lia Reals Lra Psatz Permutation Classical_Prop.
From Flocq Require Import Core IEEE754.BinarySingleNaN IEEE754.Binary.
From Verif Require Import Base Logic FloatModel TestFuncModel FloatFacts ArithFacts SatFacts SpecStat SpecReal SpecTest
  StatFacts CreateFacts SchwefelFacts.
Import ListNotations.

(** ** Exact arithmetic *)
Section Exact.
  Local Open Scope R_scope.
  #[local] Instance RealTrait : FloatTrait R := FloatR.
  #[local] Instance RealLibm : Libm R := LibmR.

  Lemma B2R_of_FF (x : f64) m e : Binary.B2FF 53 1024 x = Binary.F754_finite false m e ->
    Binary.B2R 53 1024 x = IZR (Zpos m) * bpow radix2 e.
  Proof. intros H. rewrite <- Binary.FF2R_B2FF, H. reflexivity. Qed.
  Lemma B2R_of_zero (x : f64) s : Binary.B2FF 53 1024 x = Binary.F754_zero s -> Binary.B2R 53 1024 x = 0.
  Proof. intros H. rewrite <- Binary.FF2R_B2FF, H. reflexivity. Qed.
  Lemma lit_R n : (Z.abs n <= 2 ^ 53)%Z -> (lit n : R) = IZR n.
  Proof. intros H. apply (of_Z_exact (prec := 53) (emax := 1024) n H). Qed.
  Lemma lit0 : (lit 0 : R) = 0. Proof. now rewrite lit_R. Qed.
  Lemma lit1 : (lit 1 : R) = 1. Proof. now rewrite lit_R. Qed.
  Lemma lit10 : (lit 10 : R) = 10. Proof. now rewrite lit_R. Qed.
  Lemma lit100 : (lit 100 : R) = 100. Proof. now rewrite lit_R. Qed.

  Lemma sum_fold {A} (f : A -> R) l a : fold_left (fun s x => s + f x) l a = a + real_sum (map f l).
  Proof. revert a. induction l as [|x l IH]; intros a; simpl; [lra|]. rewrite IH. lra. Qed.
  Lemma sum_nonneg l : Forall (fun r => 0 <= r) l -> 0 <= real_sum l.
  Proof. induction 1; simpl; lra. Qed.
  Lemma sum_zero l : Forall (fun r => 0 <= r) l -> real_sum l = 0 -> Forall (fun r => r = 0) l.
  Proof.
    induction 1 as [|r l Hr Hl IH]; simpl; constructor; pose proof (sum_nonneg l Hl); [lra|]. apply IH. lra.
  Qed.
  Lemma sum_zeros l : Forall (fun r => r = 0) l -> real_sum l = 0.
  Proof. induction 1; simpl; lra. Qed.
  Lemma enumerate_shift {A} (x : list A) :
    map (fun nv => (S (fst nv), snd nv)) (enumerate x) = combine (seq 1 (length x)) x.
  Proof.
    unfold enumerate. rewrite <- seq_shift. generalize (seq 0 (length x)) as l. revert x.
    induction x as [|a x IH]; intros [|n l]; simpl; auto. now rewrite IH.
  Qed.

  (** *** Paraboloid *)
  Lemma paraboloid_exact (x : list R) : paraboloid_g x = paraboloid_real x.
  Proof.
    unfold paraboloid_g, paraboloid_real. rewrite <- enumerate_shift, map_map. rewrite lit0.
    rewrite <- (Rplus_0_l (real_sum _)). rewrite <- sum_fold.
    match goal with |- fold_left ?f _ _ = fold_left ?g _ _ => assert (E : forall l a, fold_left f l a = fold_left g l a) end.
    { induction l as [|nv l IH]; intros a; cbn [fold_left]; auto. rewrite IH. f_equal.
      rewrite lit1. unfold fof_nat, fsquare. simpl. rewrite <- INR_IZR_INZ. unfold Rsqr.
      destruct nv as [[|n] v]; simpl; ring. }
    apply E.
  Qed.
  Lemma combine_points (x : list R) k :
    Forall (fun r => r = 0) (map (fun nv => Rsqr (snd nv - INR (fst nv))) (combine (seq k (length x)) x)) <->
    x = map INR (seq k (length x)).
  Proof.
    revert k. induction x as [|a x IH]; intros k; cbn [length seq combine map fst snd]; [split; auto|].
    split.
    - intros H. inversion H as [|r l H1 H2]; subst. apply Rsqr_0_uniq in H1. apply IH in H2. f_equal; auto. lra.
    - intros H. injection H as H1 H2. constructor; [|now apply IH]. rewrite H1. unfold Rsqr. lra.
  Qed.
  Lemma paraboloid_min (x : list R) :
    0 <= paraboloid_g x /\ (paraboloid_g x = 0 <-> x = map INR (seq 1 (length x))).
  Proof.
    rewrite paraboloid_exact. unfold paraboloid_real.
    set (l := map _ _). assert (H : Forall (fun r => 0 <= r) l).
    { apply Forall_forall. intros r Hr. apply in_map_iff in Hr. destruct Hr as [nv [<- _]]. apply Rle_0_sqr. }
    split; [now apply sum_nonneg|]. rewrite <- combine_points. split; [now apply sum_zero|apply sum_zeros].
  Qed.

  (** *** Rosenbrock *)
  Lemma rosenbrock_fold (pre suf : list R) a s :
    ofold (fun sum n =>
             let! x1 := index (pre ++ a :: suf) (n + 1) in
             let! x0 := index (pre ++ a :: suf) n in
             Ret (fadd (fadd sum (fmul (lit 100) (fsquare (fsub x1 (fmul x0 x0))))) (fsquare (fsub (lit 1) x0))))
          (seq (length pre) (length suf)) s =
    Ret (s + rosenbrock_real (a :: suf)).
  Proof.
    revert pre a s. induction suf as [|b suf IH]; intros pre a s.
    - simpl. unfold rosenbrock_real. simpl. f_equal. lra.
    - cbn [length seq ofold]. unfold index at 1 2.
      rewrite (nth_error_app2 pre) by lia. replace (length pre + 1 - length pre)%nat with 1%nat by lia. cbn [nth_error obind].
      rewrite (nth_error_app2 pre) by lia. rewrite Nat.sub_diag. cbn [nth_error obind].
      specialize (IH (pre ++ [a]) b). rewrite <- app_assoc in IH. cbn [app] in IH.
      rewrite app_length in IH. cbn [length] in IH. rewrite Nat.add_1_r in IH.
      rewrite IH. f_equal. rewrite lit100, lit1. unfold rosenbrock_real. simpl. unfold fsquare, Rsqr. simpl. ring.
  Qed.
  Lemma rosenbrock_exact (x : list R) : x <> [] -> rosenbrock_g x = Ret (rosenbrock_real x).
  Proof.
    destruct x as [|a x]; [congruence|]. intros _. unfold rosenbrock_g. cbn [length].
    rewrite (rosenbrock_fold [] x a). rewrite lit0. f_equal. lra.
  Qed.
  Lemma rosenbrock_nonneg (x : list R) :
    Forall (fun r => 0 <= r) (map (fun ab => 100 * (snd ab - (fst ab)²)² + (1 - fst ab)²) (combine x (tl x))).
  Proof.
    apply Forall_forall. intros r Hr. apply in_map_iff in Hr. destruct Hr as [ab [<- _]].
    pose proof (Rle_0_sqr (snd ab - (fst ab)²)). pose proof (Rle_0_sqr (1 - fst ab)). lra.
  Qed.
  Lemma rosenbrock_zero (a b : R) (x : list R) : rosenbrock_real (a :: b :: x) = 0 <-> Forall (fun r => r = 1) (a :: b :: x).
  Proof.
    split.
    - intros H. apply sum_zero in H; [|apply rosenbrock_nonneg].
      revert a b H. induction x as [|c x IH]; intros a b H; cbn [tl combine map fst snd] in H;
        inversion H as [|r l H1 H2]; subst;
        pose proof (Rle_0_sqr (b - a²)) as S1; pose proof (Rle_0_sqr (1 - a)) as S2;
        assert (E1 : (b - a²)² = 0) by lra; assert (E2 : (1 - a)² = 0) by lra;
        apply Rsqr_0_uniq in E1, E2; assert (a = 1) by lra; subst a; unfold Rsqr in E1.
      + constructor; [auto|]. constructor; [lra|constructor].
      + constructor; [auto|]. now apply IH.
    - intros H. apply sum_zeros. apply Forall_forall. intros r Hr. apply in_map_iff in Hr. destruct Hr as [[u v] [<- Hin]].
      rewrite Forall_forall in H. assert (Hu : u = 1) by (apply H; eapply in_combine_l; eauto).
      assert (Hv : v = 1) by (apply H; right; eapply in_combine_r in Hin; exact Hin).
      subst. simpl. unfold Rsqr. lra.
  Qed.
  Lemma rosenbrock_min (x : list R) : x <> [] -> exists r, rosenbrock_g x = Ret r /\ 0 <= r /\
    (length x = 1%nat -> r = 0) /\ ((2 <= length x)%nat -> (r = 0 <-> Forall (fun a => a = 1) x)).
  Proof.
    intros H. exists (rosenbrock_real x). split; [now apply rosenbrock_exact|].
    split; [apply sum_nonneg, rosenbrock_nonneg|]. split.
    - destruct x as [|a [|b x]]; try discriminate. intros _. reflexivity.
    - destruct x as [|a [|b x]]; simpl; try lia. intros _. apply rosenbrock_zero.
  Qed.

  (** *** Rastrigin *)
  Lemma rastrigin_exact (x : list R) : rastrigin_g x = rastrigin_real x.
  Proof.
    assert (E : forall w l a,
      fold_left (fun acc xi => acc + xi * xi - 10 * cos (2 * w * xi)) l a
      = a + real_sum (map (fun a => a² + 10 - 10 * cos (2 * w * a)) l) - 10 * INR (length l)).
    { intros w. induction l as [|b l IH]; intros a; cbn [fold_left]; [simpl; lra|]. rewrite IH.
      cbn [map real_sum fold_right length]. rewrite S_INR. unfold real_sum, Rsqr. lra. }
    unfold rastrigin_g, rastrigin_real. rewrite !lit10. unfold fof_nat.
    cbn [fadd fmul fsub fof_Z fzero fof_f64 RealTrait FloatR fcos RealLibm LibmR].
    rewrite E, INR_IZR_INZ. lra.
  Qed.
  Lemma rastrigin_min (x : list R) :
    0 <= rastrigin_g x /\ (rastrigin_g x = 0 <-> Forall (fun a => a = 0) x).
  Proof.
    rewrite rastrigin_exact. unfold rastrigin_real. set (f := fun a => _).
    assert (F : forall a, 0 <= f a /\ (f a = 0 <-> a = 0)).
    { intros a. unfold f. pose proof (COS_bound (2 * Binary.B2R 53 1024 pi_const * a)) as B.
      pose proof (Rle_0_sqr a) as S. split; [lra|]. split.
      - intros E. apply Rsqr_0_uniq. lra.
      - intros ->. rewrite Rmult_0_r, cos_0. unfold Rsqr. lra. }
    assert (N : Forall (fun r => 0 <= r) (map f x)).
    { apply Forall_forall. intros r Hr. apply in_map_iff in Hr. destruct Hr as [a [<- _]]. apply F. }
    split; [now apply sum_nonneg|]. split.
    - intros E. apply sum_zero in E; auto. rewrite Forall_map in E. eapply Forall_impl; [|exact E]. intros a. apply F.
    - intros E. apply sum_zeros. rewrite Forall_map. eapply Forall_impl; [|exact E]. intros a. apply F.
  Qed.

  (** *** Schwefel *)
  Lemma schwefel_exact (x : list R) : schwefel_g x = schwefel_real x.
  Proof.
    unfold schwefel_g, schwefel_real, fof_nat.
    cbn [fadd fmul fsub fof_Z fzero fof_f64 fsqrt fabs RealTrait FloatR fsin RealLibm LibmR].
    assert (E : forall k l a,
      k * INR (length l) - fold_left (fun acc xi => acc + xi * sin (sqrt (Rabs xi))) l a
      = real_sum (map (fun a => k - a * sin (sqrt (Rabs a))) l) - a).
    { intros k. induction l as [|b l IH]; intros a; cbn [fold_left]; [simpl; lra|]. cbn [map real_sum fold_right length].
      specialize (IH (a + b * sin (sqrt (Rabs b)))). rewrite S_INR. unfold real_sum in IH. lra. }
    rewrite <- INR_IZR_INZ, E. lra.
  Qed.
  Lemma schwefel_perm (x y : list R) : Permutation x y -> schwefel_g x = schwefel_g y.
  Proof.
    rewrite !schwefel_exact. unfold schwefel_real. generalize (Binary.B2R 53 1024 schwefel_const) as k. intros k.
    induction 1; simpl in *; lra.
  Qed.
  Lemma schwefel_literal : Rabs (Binary.B2R 53 1024 schwefel_const - 4189829 / 10 ^ 4) <= 1 / 10 ^ 13.
  Proof.
    rewrite (B2R_of_FF schwefel_const 7370825126228944 (-44)) by (vm_compute; reflexivity).
    change (bpow radix2 (-44)) with (/ IZR (2 ^ 44)). simpl Z.pow. apply Rabs_le. lra.
  Qed.
  Lemma sin_seven d : sin (7 * PI + d) = - sin d.
  Proof.
    replace (7 * PI + d) with (d + PI + 2 * INR 3 * PI) by (simpl; lra). rewrite sin_period. apply neg_sin.
  Qed.
  Lemma sin_six d : sin (6 * PI + d) = sin d.
  Proof. replace (6 * PI + d) with (d + 2 * INR 3 * PI) by (simpl; lra). apply sin_period. Qed.
  (** For negative arguments the peak is lower. *)
  Lemma trough t : 0 <= t -> t * t <= 500 -> - (t * t * sin t) <= 400.
  Proof.
    intros H0 H1. pose proof pi_bounds as PB. pose proof (SIN_bound t) as SB.
    destruct (Rle_or_lt t (6 * PI)) as [L|L].
    - assert (t * t <= 6 * PI * (6 * PI)) by (apply Rmult_le_compat; lra). assert (PI * PI <= 10) by nra. nra.
    - destruct (Rle_or_lt t (7 * PI)) as [L7|L7].
      + assert (0 <= sin t).
        { replace t with (6 * PI + (t - 6 * PI)) by lra. rewrite sin_six. apply sin_ge_0; lra. }
        nra.
      + set (d := t - 7 * PI). assert (Hd : 0 < d) by (unfold d; lra).
        replace t with (7 * PI + d) at 3 by (unfold d; lra). rewrite sin_seven.
        assert (Ht : t <= 2237 / 100) by (apply le_of_squares; lra).
        pose proof (sin_lt_x d Hd). assert (d <= 4 / 10) by (unfold d; lra).
        assert (0 <= t * t) by nra. assert (t * t * sin d <= 500 * (4 / 10)).
        { destruct (Rle_or_lt (sin d) 0); [nra|]. apply Rmult_le_compat; lra. }
        lra.
  Qed.
  Lemma schwefel_term a : Rabs a <= 500 -> a * sin (sqrt (Rabs a)) <= 4189829 / 10 ^ 4 - 1 / 10 ^ 10.
  Proof.
    intros H. set (t := sqrt (Rabs a)). assert (T0 : 0 <= t) by apply sqrt_pos.
    assert (T2 : t * t = Rabs a) by (apply sqrt_sqrt, Rabs_pos).
    destruct (Rle_or_lt 0 a) as [P|N].
    - rewrite Rabs_pos_eq in T2 by auto. rewrite <- T2. apply peak; auto. rewrite T2. now rewrite Rabs_pos_eq in H by auto.
    - rewrite Rabs_left in * by auto. assert (E : a = - (t * t)) by lra. rewrite E.
      pose proof (trough t T0 ltac:(lra)). lra.
  Qed.
  Lemma schwefel_box (x : list R) : Forall (fun a => Rabs a <= 500) x -> 0 <= schwefel_g x.
  Proof.
    intros H. rewrite schwefel_exact. unfold schwefel_real. apply sum_nonneg. rewrite Forall_map.
    eapply Forall_impl; [|exact H]. intros a Ha. apply schwefel_term in Ha. pose proof schwefel_literal as L.
    apply Rabs_le_inv in L. lra.
  Qed.
  Lemma schwefel_point n : schwefel_g (repeat (4209687 / 10 ^ 4) n) <= INR n * (21 / 10 ^ 6).
  Proof.
    rewrite schwefel_exact. unfold schwefel_real. induction n as [|n IH]; [simpl; lra|].
    cbn [repeat map real_sum fold_right]. rewrite S_INR. unfold real_sum in IH.
    rewrite (Rabs_pos_eq (4209687 / 10 ^ 4)) by lra. pose proof peak_value. pose proof schwefel_literal as L.
    apply Rabs_le_inv in L. lra.
  Qed.
  Lemma schwefel_min (x : list R) : Forall (fun a => Rabs a <= 500) x ->
    0 <= schwefel_g x /\ schwefel_g (repeat (4209687 / 10 ^ 4) (length x)) <= schwefel_g x + INR (length x) * (21 / 10 ^ 6).
  Proof.
    intros H. apply schwefel_box in H. split; auto. pose proof (schwefel_point (length x)). lra.
  Qed.
End Exact.

(** ** Floating point *)
Section Float.
  Context {prec emax : Z} {Hp : Prec_gt_0 prec} {He : Prec_lt_emax prec emax}.
  Variable np : nan_policy prec emax.
  Notation F := (bfloat prec emax).
  Notation B2R := (Binary.B2R prec emax).
  #[local] Hint Extern 0 (FloatTrait (bfloat prec emax)) => exact (FloatIEEE np) : typeclass_instances.
  Notation zero := (Binary.B754_zero false : F).
  Notation rnd := (round radix2 (SpecFloat.fexp prec emax) (round_mode mode_NE)).
  (** The literals of the code are exact in the format. *)
  Hypothesis Hlit : forall n, In n [0; 1; 10; 100]%Z -> (lit n : F) = b_of_Z n.
  Hypothesis Hprec : (7 <= prec)%Z.
  Hypothesis Hemax : (65 < emax)%Z.

  Lemma small_pow n : (Z.abs n <= 100)%Z -> (Z.abs n <= 2 ^ prec)%Z.
  Proof. intros H. pose proof (Z.pow_le_mono_r 2 7 prec). simpl in *. lia. Qed.
  Lemma of_Z_0 : (b_of_Z 0 : F) = zero.
  Proof. reflexivity. Qed.
  Lemma same_float (x y : F) : is_finite x = true -> is_finite y = true -> B2R x = B2R y -> B2R x <> 0%R -> x = y.
  Proof.
    intros Fx Fy E N. apply (Binary.B2R_inj prec emax); auto.
    - destruct x; try discriminate; auto; simpl in N; congruence.
    - rewrite E in N. destruct y; try discriminate; auto; simpl in N; congruence.
  Qed.
  (** Integer arithmetic is exact. *)
  Lemma int_add a b : (Z.abs a <= 2 ^ prec)%Z -> (Z.abs b <= 2 ^ prec)%Z -> (Z.abs (a + b) <= 2 ^ prec)%Z ->
    b_add np (b_of_Z a) (b_of_Z b) = b_of_Z (a + b) :> F.
  Proof.
    intros A B C. destruct (of_Z_exact (prec := prec) (emax := emax) a A) as [FA VA].
    destruct (of_Z_exact (prec := prec) (emax := emax) b B) as [FB VB].
    destruct (of_Z_exact (prec := prec) (emax := emax) (a + b) C) as [FC VC].
    assert (S : (B2R (b_of_Z a) + B2R (b_of_Z b))%R = IZR (a + b)) by (rewrite VA, VB, plus_IZR; auto).
    pose proof (Binary.Bplus_correct prec emax Hp He (np_add np) mode_NE (b_of_Z a) (b_of_Z b) FA FB) as Q.
    rewrite S, (rnd_format (IZR (a + b))) in Q by now apply format_IZR.
    rewrite Rlt_bool_true in Q by now apply IZR_bound.
    destruct Q as [Q1 [Q2 Q3]]. destruct (Z.eq_dec (a + b) 0) as [E|E].
    - apply (Binary.B2R_Bsign_inj prec emax); auto; [now rewrite VC|].
      rewrite Rcompare_Eq in Q3 by (rewrite E; reflexivity). rewrite E. simpl.
      unfold b_add. rewrite Q3.
      destruct (Z.eq_dec a 0) as [->|Na]; [reflexivity|].
      destruct (Z_lt_le_dec a 0) as [L|L].
      + rewrite (sign_pos (b_of_Z b)) by (rewrite VB; apply IZR_lt; lia). now rewrite andb_false_r.
      + rewrite (sign_pos (b_of_Z a)) by (rewrite VA; apply IZR_lt; lia). reflexivity.
    - apply same_float; auto.
      + now rewrite VC.
      + change (b_add np (b_of_Z a) (b_of_Z b)) with (Binary.Bplus prec emax Hp He (np_add np) mode_NE (b_of_Z a) (b_of_Z b)).
        rewrite Q1. now apply IZR_neq.
  Qed.
  Lemma int_sub a b : (Z.abs a <= 2 ^ prec)%Z -> (Z.abs b <= 2 ^ prec)%Z -> (Z.abs (a - b) <= 2 ^ prec)%Z -> b <> 0%Z ->
    b_sub np (b_of_Z a) (b_of_Z b) = b_of_Z (a - b) :> F.
  Proof.
    intros A B C Nb. destruct (of_Z_exact (prec := prec) (emax := emax) a A) as [FA VA].
    destruct (of_Z_exact (prec := prec) (emax := emax) b B) as [FB VB].
    destruct (of_Z_exact (prec := prec) (emax := emax) (a - b) C) as [FC VC].
    assert (S : (B2R (b_of_Z a) - B2R (b_of_Z b))%R = IZR (a - b)) by (rewrite VA, VB, minus_IZR; auto).
    pose proof (Binary.Bminus_correct prec emax Hp He (np_sub np) mode_NE (b_of_Z a) (b_of_Z b) FA FB) as Q.
    rewrite S, (rnd_format (IZR (a - b))) in Q by now apply format_IZR.
    rewrite Rlt_bool_true in Q by now apply IZR_bound.
    destruct Q as [Q1 [Q2 Q3]]. destruct (Z.eq_dec (a - b) 0) as [E|E].
    - apply (Binary.B2R_Bsign_inj prec emax); auto; [now rewrite VC|].
      rewrite Rcompare_Eq in Q3 by (rewrite E; reflexivity). rewrite E. simpl.
      unfold b_sub. rewrite Q3. replace b with a by lia. now destruct (Binary.Bsign prec emax (b_of_Z a)).
    - apply same_float; auto.
      + now rewrite VC.
      + change (b_sub np (b_of_Z a) (b_of_Z b)) with (Binary.Bminus prec emax Hp He (np_sub np) mode_NE (b_of_Z a) (b_of_Z b)).
        rewrite Q1. now apply IZR_neq.
  Qed.
  Lemma int_mul a b : (Z.abs a <= 2 ^ prec)%Z -> (Z.abs b <= 2 ^ prec)%Z -> (Z.abs (a * b) <= 2 ^ prec)%Z ->
    (0 <= a)%Z -> (0 <= b)%Z -> b_mul np (b_of_Z a) (b_of_Z b) = b_of_Z (a * b) :> F.
  Proof.
    intros A B C Pa Pb. destruct (of_Z_exact (prec := prec) (emax := emax) a A) as [FA VA].
    destruct (of_Z_exact (prec := prec) (emax := emax) b B) as [FB VB].
    destruct (of_Z_exact (prec := prec) (emax := emax) (a * b) C) as [FC VC].
    assert (SA : Binary.Bsign prec emax (b_of_Z a) = false).
    { destruct (Z.eq_dec a 0) as [->|Na]; [reflexivity|]. apply sign_pos. rewrite VA. apply IZR_lt. lia. }
    assert (SB : Binary.Bsign prec emax (b_of_Z b) = false).
    { destruct (Z.eq_dec b 0) as [->|Nb]; [reflexivity|]. apply sign_pos. rewrite VB. apply IZR_lt. lia. }
    assert (S : (B2R (b_of_Z a) * B2R (b_of_Z b))%R = IZR (a * b)) by (rewrite VA, VB, mult_IZR; auto).
    pose proof (Binary.Bmult_correct prec emax Hp He (np_mul np) mode_NE (b_of_Z a) (b_of_Z b)) as Q.
    rewrite S, (rnd_format (IZR (a * b))) in Q by now apply format_IZR.
    rewrite Rlt_bool_true in Q by now apply IZR_bound.
    destruct Q as [Q1 [Q2 Q3]]. unfold is_finite in *. rewrite FA, FB in Q2. simpl in Q2.
    apply (Binary.B2R_Bsign_inj prec emax); auto; [now rewrite VC|].
    unfold b_mul. rewrite Q3 by now apply finite_not_nan. rewrite SA, SB. simpl.
    destruct (Z.eq_dec (a * b) 0) as [->|Nab]; [reflexivity|]. symmetry. apply sign_pos. rewrite VC. apply IZR_lt. lia.
  Qed.

  Lemma sub_not_nan_l (x y : F) : is_nan x = false -> is_finite y = true -> is_nan (b_sub np x y) = false.
  Proof.
    intros N Fy. destruct (inf_cases x N) as [H|[->| ->]].
    - now apply key_sub.
    - destruct y as [s|[|]|s pl h|s m e h]; try discriminate; reflexivity.
    - destruct y as [s|[|]|s pl h|s m e h]; try discriminate; reflexivity.
  Qed.
  Lemma sub_self (x : F) : is_finite x = true -> b_sub np x x = zero.
  Proof.
    intros H. pose proof (Binary.Bminus_correct prec emax Hp He (np_sub np) mode_NE x x H H) as Q.
    rewrite Rminus_diag_eq, round_0, Rabs_R0 in Q; auto; [|apply (valid_rnd_round_mode mode_NE)].
    rewrite Rlt_bool_true in Q by apply bpow_gt_0. destruct Q as [Q1 [Q2 Q3]].
    apply (Binary.B2R_Bsign_inj prec emax); auto. rewrite Rcompare_Eq in Q3 by auto.
    unfold b_sub. rewrite Q3. simpl. now destruct (Binary.Bsign prec emax x).
  Qed.

  (** *** Paraboloid *)
  Lemma usize_finite n : usize n -> is_finite (b_of_Z (Z.of_nat n) : F) = true.
  Proof.
    intros H. destruct n as [|n]; [reflexivity|]. apply (count_positive (prec := prec) (emax := emax) (S n)); auto; lia.
  Qed.
  Lemma format_bpow e : (3 - emax - prec <= e)%Z -> generic_format radix2 (SpecFloat.fexp prec emax) (bpow radix2 e).
  Proof.
    intros H. apply generic_format_bpow. unfold SpecFloat.fexp, SpecFloat.emin. pose proof (prec_pos (prec := prec)). lia.
  Qed.
  Lemma index_plus_one n : usize n -> is_finite (b_add np (b_of_Z (Z.of_nat n)) (b_of_Z 1) : F) = true.
  Proof.
    intros H. unfold usize in H. pose proof (prec_pos (prec := prec)) as PP.
    destruct (of_Z_exact (prec := prec) (emax := emax) 1 (small_pow 1 ltac:(simpl; lia))) as [F1 V1].
    assert (B0 : (0 <= rnd (IZR (Z.of_nat n)) <= bpow radix2 64)%R).
    { split; [apply rnd_pos, IZR_le; lia|].
      rewrite <- (rnd_format (prec := prec) (emax := emax) (bpow radix2 64)) by (apply format_bpow; lia).
      apply rnd_le. rewrite <- (IZR_Zpower radix2) by lia. apply IZR_le. simpl radix_val. lia. }
    destruct (of_Z_correct (prec := prec) (emax := emax) (Z.of_nat n)) as [Fn Vn].
    { rewrite Rabs_pos_eq by apply B0. eapply Rle_lt_trans; [apply B0|]. apply bpow_lt. lia. }
    pose proof (Binary.Bplus_correct prec emax Hp He (np_add np) mode_NE _ _ Fn F1) as Q.
    rewrite Rlt_bool_true in Q; [apply Q|]. rewrite Vn, V1.
    assert (B1 : (1 <= bpow radix2 64)%R) by (apply (bpow_le radix2 0 64); lia).
    rewrite Rabs_pos_eq by (apply rnd_pos; lra).
    apply Rle_lt_trans with (bpow radix2 65); [|apply bpow_lt; lia].
    rewrite <- (rnd_format (prec := prec) (emax := emax) (bpow radix2 65)) by (apply format_bpow; lia).
    apply rnd_le. change 65%Z with (64 + 1)%Z. rewrite bpow_plus. change (bpow radix2 1) with 2%R. lra.
  Qed.
  Lemma squares_fold {A} (f : A -> F) (l : list A) a :
    (forall x, In x l -> is_nan (f x) = false) -> non_negative a ->
    non_negative (fold_left (fun s x => b_add np s (b_mul np (f x) (f x))) l a).
  Proof.
    revert a. induction l as [|x l IH]; simpl; intros a H Ha; auto. apply IH; auto.
    apply non_negative_add; auto. apply non_negative_square. auto.
  Qed.
  Lemma in_enumerate {A} (x : list A) n v : In (n, v) (enumerate x) -> n < length x /\ In v x.
  Proof.
    unfold enumerate. intros H. split; [apply in_combine_l in H; apply in_seq in H; lia|now apply in_combine_r in H].
  Qed.
  Lemma lit_1 : (lit 1 : F) = b_of_Z 1. Proof. apply Hlit. simpl. auto. Qed.
  Lemma lit_0 : (lit 0 : F) = zero. Proof. rewrite Hlit by (simpl; auto). reflexivity. Qed.
  Lemma lit_10 : (lit 10 : F) = b_of_Z 10. Proof. apply Hlit. simpl. auto. Qed.
  Lemma lit_100 : (lit 100 : F) = b_of_Z 100. Proof. apply Hlit. simpl. auto. Qed.

  (** One coordinate's difference. *)
  Definition gap (nv : nat * F) : F := b_sub np (snd nv) (b_add np (b_of_Z (Z.of_nat (fst nv))) (b_of_Z 1)).
  Lemma paraboloid_fold (x : list F) :
    paraboloid_g x = fold_left (fun s nv => b_add np s (b_mul np (gap nv) (gap nv))) (enumerate x) zero.
  Proof.
    unfold paraboloid_g. rewrite lit_0, lit_1. reflexivity.
  Qed.
  Lemma paraboloid_nonneg (x : list F) : usize (length x) -> Forall (fun v => is_nan v = false) x ->
    non_negative (paraboloid_g x).
  Proof.
    intros U N. rewrite paraboloid_fold. apply squares_fold; [|reflexivity].
    intros [n v] H. apply in_enumerate in H. destruct H as [Hn Hv]. unfold gap. cbn [fst snd].
    apply sub_not_nan_l.
    - eapply Forall_forall in N; eauto.
    - apply index_plus_one. unfold usize in *. lia.
  Qed.

  (** The square of the difference from an integer is 0 only when the difference is. *)
  Lemma gap_bound (v : F) k : is_finite v = true -> (1 <= k <= 2 ^ prec)%Z -> B2R v <> IZR k ->
    (bpow radix2 (- prec) <= Rabs (B2R v - IZR k))%R.
  Proof.
    intros Fv K D. pose proof (prec_pos (prec := prec)) as PP. pose proof (prec_emax (prec := prec) (emax := emax)) as PE.
    assert (K1 : (1 <= IZR k)%R) by (apply IZR_le; lia).
    destruct (Rle_or_lt (B2R v) (/ 2)) as [L|L].
    - rewrite Rabs_left by lra. apply Rle_trans with (bpow radix2 (-1)).
      + apply bpow_le. lia.
      + change (bpow radix2 (-1)) with (/ 2)%R. lra.
    - pose proof (format_B2R v) as G. unfold generic_format in G.
      set (m := Ztrunc (scaled_mantissa radix2 (SpecFloat.fexp prec emax) (B2R v))) in *.
      set (e := cexp radix2 (SpecFloat.fexp prec emax) (B2R v)) in *.
      assert (Ee : (- prec <= e)%Z).
      { unfold e, cexp, SpecFloat.fexp, SpecFloat.emin.
        assert (0 <= mag radix2 (B2R v))%Z.
        { apply (mag_ge_bpow radix2 (B2R v) 0). change (bpow radix2 (0 - 1)) with (/ 2)%R. rewrite Rabs_pos_eq; lra. }
        lia. }
      unfold F2R in G. cbn [Fnum Fexp] in G.
      assert (G' : B2R v = (IZR (m * 2 ^ (e + prec)) * bpow radix2 (- prec))%R).
      { rewrite G at 1. rewrite mult_IZR. change 2%Z with (radix_val radix2). rewrite IZR_Zpower by lia.
        rewrite Rmult_assoc, <- bpow_plus. do 2 f_equal. lia. }
      assert (Gk : IZR k = (IZR (k * 2 ^ prec) * bpow radix2 (- prec))%R).
      { rewrite mult_IZR. change 2%Z with (radix_val radix2). rewrite IZR_Zpower by lia.
        rewrite Rmult_assoc, <- bpow_plus. replace (prec + - prec)%Z with 0%Z by lia. simpl. ring. }
      rewrite G', Gk in D |- *. rewrite <- Rmult_minus_distr_r, Rabs_mult, <- minus_IZR, <- abs_IZR.
      rewrite (Rabs_pos_eq (bpow _ _)) by apply bpow_ge_0.
      set (j := (m * 2 ^ (e + prec) - k * 2 ^ prec)%Z) in *.
      assert (J : (1 <= IZR (Z.abs j))%R).
      { apply IZR_le. assert (j <> 0%Z); [|lia]. intros J. apply D. f_equal. f_equal. unfold j in J. lia. }
      pose proof (bpow_gt_0 radix2 (- prec)). nra.
  Qed.
  Lemma sat_ge_bpow r e : (3 - emax - prec <= e < emax)%Z -> (bpow radix2 e <= r)%R ->
    (bpow radix2 e <= sat (prec := prec) (emax := emax) r)%R.
  Proof.
    intros H L. pose proof (rnd_le (prec := prec) (emax := emax) _ _ L) as R.
    rewrite rnd_format in R by (apply format_bpow; lia). unfold sat.
    eapply Rle_trans; [|apply Rmax_r]. apply Rmin_glb; auto. apply bpow_le. lia.
  Qed.
  Lemma sat_le_bpow r e : (3 - emax - prec <= e < emax)%Z -> (r <= - bpow radix2 e)%R ->
    (sat (prec := prec) (emax := emax) r <= - bpow radix2 e)%R.
  Proof.
    intros H L. pose proof (rnd_le (prec := prec) (emax := emax) _ _ L) as R.
    rewrite (rnd_format (- bpow radix2 e)) in R by (apply generic_format_opp, format_bpow; lia). unfold sat.
    apply Rmax_lub.
    - apply Ropp_le_contravar, bpow_le. lia.
    - eapply Rle_trans; [apply Rmin_r|]. auto.
  Qed.
  Lemma gap_square_pos (d : F) : is_nan d = false -> (bpow radix2 (- prec) <= Rabs (key d))%R ->
    (2 * prec <= emax + prec - 3)%Z -> (0 < key (b_mul np d d))%R.
  Proof.
    intros N K PE. pose proof (prec_pos (prec := prec)) as PP.
    destruct (inf_cases d N) as [H|[->| ->]]; try (simpl; apply bpow_gt_0).
    destruct (key_mul np d d H H) as [_ ->]. rewrite key_finite in K by auto.
    apply Rlt_le_trans with (bpow radix2 (- prec + - prec)); [apply bpow_gt_0|].
    apply sat_ge_bpow; [lia|]. rewrite bpow_plus.
    replace (B2R d * B2R d)%R with (Rabs (B2R d) * Rabs (B2R d))%R
      by (rewrite <- Rabs_mult; apply Rabs_pos_eq; apply Rle_0_sqr).
    pose proof (bpow_ge_0 radix2 (- prec)). apply Rmult_le_compat; auto.
  Qed.
  Hypothesis Hroom : (prec + 3 <= emax)%Z.
  Lemma same_as_int (v : F) k : is_finite v = true -> (1 <= k <= 2 ^ prec)%Z -> B2R v = IZR k -> v = b_of_Z k.
  Proof.
    intros Fv K E. destruct (of_Z_exact (prec := prec) (emax := emax) k ltac:(lia)) as [Fk Vk].
    apply same_float; auto; [now rewrite Vk|]. rewrite E. apply IZR_neq. lia.
  Qed.
  (** The square of the difference of [v] and an integer is positive unless [v] is the integer. *)
  Lemma sub_square_pos (v : F) k : is_nan v = false -> (1 <= k <= 2 ^ prec)%Z -> v <> b_of_Z k ->
    (0 < key (b_mul np (b_sub np v (b_of_Z k)) (b_sub np v (b_of_Z k))))%R /\
    (0 < key (b_mul np (b_sub np (b_of_Z k) v) (b_sub np (b_of_Z k) v)))%R.
  Proof.
    intros N K D. pose proof (prec_pos (prec := prec)) as PP.
    destruct (of_Z_exact (prec := prec) (emax := emax) k ltac:(lia)) as [Fk Vk].
    assert (PB : (bpow radix2 (- prec) <= bpow radix2 emax)%R) by (apply bpow_le; lia).
    assert (SB : forall r, (bpow radix2 (- prec) <= Rabs r)%R ->
              (bpow radix2 (- prec) <= Rabs (sat (prec := prec) (emax := emax) r))%R).
    { intros r Hr. destruct (Rle_or_lt 0 r) as [P|P].
      - rewrite Rabs_pos_eq in Hr by auto.
        eapply Rle_trans; [|apply Rle_abs]. apply sat_ge_bpow; auto. lia.
      - rewrite Rabs_left in Hr by auto. rewrite <- Rabs_Ropp.
        eapply Rle_trans; [|apply Rle_abs].
        assert (sat (prec := prec) (emax := emax) r <= - bpow radix2 (- prec))%R; [|lra].
        apply sat_le_bpow; [lia|lra]. }
    assert (Kd : forall b : bool, (bpow radix2 (- prec) <= Rabs (key (Binary.B754_infinity b : F)))%R).
    { intros b. replace (Rabs (key (Binary.B754_infinity b : F))) with (bpow radix2 emax); auto.
      pose proof (bpow_ge_0 radix2 emax). destruct b; simpl; [rewrite Rabs_Ropp|]; now rewrite Rabs_pos_eq. }
    assert (Kf : is_finite v = true -> (bpow radix2 (- prec) <= Rabs (B2R v - IZR k))%R).
    { intros Fv. apply gap_bound; auto. intros E. apply D. now apply same_as_int. }
    assert (Sk : Binary.Bsign prec emax (b_of_Z k) = false) by (apply sign_pos; rewrite Vk; apply IZR_lt; lia).
    split; apply gap_square_pos; try lia.
    - now apply sub_not_nan_l.
    - destruct (inf_cases v N) as [H|[->| ->]].
      + destruct (key_sub np v (b_of_Z k) H Fk) as [_ ->]. rewrite Vk. auto.
      + destruct (b_of_Z k : F) as [s|s|s pl h|s m e h]; try discriminate; apply Kd.
      + destruct (b_of_Z k : F) as [s|s|s pl h|s m e h]; try discriminate; apply Kd.
    - now apply sub_not_nan.
    - destruct (inf_cases v N) as [H|[->| ->]].
      + destruct (key_sub np (b_of_Z k) v Fk H) as [_ ->]. rewrite Vk. apply SB. rewrite Rabs_minus_sym. auto.
      + destruct (b_of_Z k : F) as [s|s|s pl h|s m e h]; try discriminate; apply Kd.
      + destruct (b_of_Z k : F) as [s|s|s pl h|s m e h]; try discriminate; apply Kd.
  Qed.
  (** A sum of non-negative numbers is positive when one of them is. *)
  Lemma add_pos (x y : F) : non_negative x -> non_negative y -> (0 < key x \/ 0 < key y)%R ->
    (0 < key (b_add np x y))%R.
  Proof.
    intros Hx Hy P. destruct (non_negative_cases x Hx) as [[Fx Kx]| ->], (non_negative_cases y Hy) as [[Fy Ky]| ->].
    - destruct (key_add np x y Fx Fy) as [_ ->]. rewrite !key_finite in P by auto.
      assert (P' : exists z : F, (0 < B2R z <= B2R x + B2R y)%R) by (destruct P; [exists x|exists y]; lra).
      destruct P' as [z [Z1 Z2]]. apply Rlt_le_trans with (B2R z); auto.
      rewrite <- sat_B2R. now apply sat_le.
    - destruct x as [s|[|]|s pl h|s m e h]; try discriminate; apply bpow_gt_0.
    - destruct y as [s|[|]|s pl h|s m e h]; try discriminate; apply bpow_gt_0.
    - apply bpow_gt_0.
  Qed.
  Lemma mul_pos (c y : F) : is_finite c = true -> (1 <= B2R c)%R -> (0 < key y)%R -> is_nan y = false ->
    (0 < key (b_mul np c y))%R.
  Proof.
    intros Fc C P N. destruct (inf_cases y N) as [H|[->| ->]].
    - destruct (key_mul np c y Fc H) as [_ ->]. rewrite key_finite in P by auto.
      apply Rlt_le_trans with (B2R y); auto. rewrite <- (sat_B2R y) at 1. apply sat_le. nra.
    - pose proof (sign_pos c ltac:(lra)) as S. destruct c as [s|[|]|s pl h|s m e h]; try discriminate; simpl in *; try lra.
      subst. apply bpow_gt_0.
    - simpl in P. pose proof (bpow_gt_0 radix2 emax). lra.
  Qed.
  Lemma mul_comm_nonneg (c y : F) : non_negative y -> is_finite c = true -> (0 < B2R c)%R -> non_negative (b_mul np c y).
  Proof.
    intros Hx Fy Py. destruct (non_negative_cases y Hx) as [[Fx Kx]| ->].
    - destruct (key_mul np c y Fy Fx) as [N K]. apply non_negative_key. split; auto. rewrite K.
      apply sat_pos. nra.
    - pose proof (sign_pos c Py) as S. destruct c as [s|[|]|s pl h|s m e h]; try discriminate; simpl in *; try lra.
      subst. reflexivity.
  Qed.

  Lemma squares_fold_pos {A} (f : A -> F) (l : list A) a :
    (forall x, In x l -> is_nan (f x) = false) -> non_negative a ->
    (0 < key a)%R \/ (exists x, In x l /\ (0 < key (b_mul np (f x) (f x)))%R) ->
    (0 < key (fold_left (fun s x => b_add np s (b_mul np (f x) (f x))) l a))%R.
  Proof.
    revert a. induction l as [|x l IH]; simpl; intros a H Ha P.
    - destruct P as [P|[x [[] _]]]. auto.
    - assert (Nx : non_negative (b_mul np (f x) (f x))) by (apply non_negative_square; auto).
      apply IH; auto.
      + now apply non_negative_add.
      + destruct P as [P|[y [[->|Hy] P]]]; [left|left|right; eauto]; apply add_pos; auto.
  Qed.
  Lemma index_int n : (Z.of_nat n + 1 <= 2 ^ prec)%Z ->
    b_add np (b_of_Z (Z.of_nat n)) (b_of_Z 1) = b_of_Z (Z.of_nat (S n)) :> F.
  Proof.
    intros H. rewrite int_add; [f_equal; lia|lia|apply small_pow; simpl; lia|lia].
  Qed.
  Definition ramp n : list F := map (fun k => b_of_Z (Z.of_nat k)) (seq 1 n).
  Lemma ramp_length n : length (ramp n) = n.
  Proof. unfold ramp. now rewrite map_length, seq_length. Qed.
  Lemma in_combine_map {A B} (f : A -> B) l : forall a b, In (a, b) (combine l (map f l)) -> b = f a.
  Proof. induction l as [|x l IH]; simpl; [easy|]. intros a b [E|H]; [congruence|auto]. Qed.
  Lemma paraboloid_ramp n : (Z.of_nat n <= 2 ^ prec)%Z -> paraboloid_g (ramp n) = zero.
  Proof.
    intros H. rewrite paraboloid_fold. unfold enumerate. rewrite ramp_length.
    unfold ramp. rewrite <- seq_shift, map_map.
    assert (G : forall l, (forall k, In k l -> (Z.of_nat k + 1 <= 2 ^ prec)%Z) ->
      fold_left (fun s nv => b_add np s (b_mul np (gap nv) (gap nv)))
        (combine l (map (fun x => b_of_Z (Z.of_nat (S x))) l)) zero = zero).
    { induction l as [|k l IH]; intros Hk; auto. cbn [map combine fold_left].
      assert (E : gap (k, b_of_Z (Z.of_nat (S k))) = zero).
      { unfold gap. cbn [fst snd]. rewrite index_int by (apply Hk; simpl; auto).
        apply sub_self. apply of_Z_exact. specialize (Hk k (or_introl eq_refl)). lia. }
      rewrite E. apply IH. intros j Hj. apply Hk. simpl. auto. }
    apply G. intros k Hk. apply in_seq in Hk. lia.
  Qed.
  Lemma not_ramp (x : list F) : x <> ramp (length x) ->
    exists n v, In (n, v) (enumerate x) /\ v <> b_of_Z (Z.of_nat (S n)).
  Proof.
    unfold ramp, enumerate. rewrite <- seq_shift, map_map. generalize 0 as k.
    induction x as [|a x IH]; intros k; cbn [length seq map combine]; [easy|].
    intros D. destruct (classic (a = b_of_Z (Z.of_nat (S k)))) as [E|E].
    - destruct (IH (S k)) as [n [v [H1 H2]]]; [congruence|]. exists n, v. split; [right; exact H1|exact H2].
    - exists k, a. split; [left; reflexivity|exact E].
  Qed.
  Lemma paraboloid_pos (x : list F) : usize (length x) -> (Z.of_nat (length x) <= 2 ^ prec)%Z ->
    Forall (fun v => is_nan v = false) x -> x <> ramp (length x) -> (0 < key (paraboloid_g x))%R.
  Proof.
    intros U L N D. rewrite paraboloid_fold. apply squares_fold_pos; [|reflexivity|].
    - intros [n v] H. apply in_enumerate in H. destruct H as [Hn Hv]. unfold gap. cbn [fst snd].
      apply sub_not_nan_l.
      + eapply Forall_forall in N; eauto.
      + apply index_plus_one. unfold usize in *. lia.
    - right. destruct (not_ramp x D) as [n [v [H E]]]. exists (n, v). split; auto.
      apply in_enumerate in H. destruct H as [Hn Hv]. unfold gap. cbn [fst snd].
      rewrite index_int by lia. apply sub_square_pos; auto; [|lia]. eapply Forall_forall in N; eauto.
  Qed.

  Lemma add_nan (x y : F) : is_nan x = true \/ is_nan y = true -> is_nan (b_add np x y) = true.
  Proof.
    intros [H|H].
    - destruct x; try discriminate. destruct y; reflexivity.
    - destruct y; try discriminate. destruct x; reflexivity.
  Qed.
  Lemma mul_nan (x y : F) : is_nan x = true -> is_nan (b_mul np x y) = true.
  Proof. intros H. destruct x; try discriminate. destruct y; reflexivity. Qed.
  Lemma paraboloid_nan (x : list F) : usize (length x) ->
    (is_nan (paraboloid_g x) = true <-> exists v, In v x /\ is_nan v = true).
  Proof.
    intros U. split.
    - intros H. destruct (classic (Forall (fun v => is_nan v = false) x)) as [E|E].
      + apply paraboloid_nonneg in E; auto. apply non_negative_key in E. destruct E as [E _]. congruence.
      + apply Exists_Forall_neg in E; [|intros v; destruct (is_nan v); [right; discriminate|left; reflexivity]].
        apply Exists_exists in E. destruct E as [v [H1 H2]]. exists v. split; auto. destruct (is_nan v); congruence.
    - intros [v [Hv N]]. rewrite paraboloid_fold.
      assert (G : forall l a, is_nan a = true \/ (exists nv, In nv l /\ is_nan (snd nv) = true) ->
        is_nan (fold_left (fun s nv => b_add np s (b_mul np (gap nv) (gap nv))) l a) = true).
      { induction l as [|nv l IH]; intros a P; simpl.
        - destruct P as [P|[w [[] _]]]; auto.
        - apply IH. destruct P as [P|[w [[->|P] Q]]]; [left|left|right; eauto]; apply add_nan; auto.
          right. apply mul_nan. apply sub_nan. auto. }
      apply G. right. unfold enumerate.
      apply In_nth_error in Hv. destruct Hv as [k Hk]. exists (k, v). split; auto.
      assert (Hc : forall (l : list F) j k, nth_error l k = Some v -> In (j + k, v) (combine (seq j (length l)) l)).
      { induction l as [|u l IH]; intros j [|i] Hi; simpl in *; try discriminate.
        - injection Hi as ->. left. f_equal. lia.
        - right. specialize (IH (S j) i Hi). replace (j + S i) with (S j + i) by lia. auto. }
      apply (Hc x 0 k Hk).
  Qed.

  (** *** Rosenbrock *)
  Definition rose (s : F) (ab : F * F) : F :=
    b_add np (b_add np s (b_mul np (lit 100) (fsquare (b_sub np (snd ab) (b_mul np (fst ab) (fst ab))))))
      (fsquare (b_sub np (lit 1) (fst ab))).
  Lemma rosenbrock_pairs (pre suf : list F) a s :
    ofold (fun sum n =>
             let! x1 := index (pre ++ a :: suf) (n + 1) in
             let! x0 := index (pre ++ a :: suf) n in
             Ret (fadd (fadd sum (fmul (lit 100) (fsquare (fsub x1 (fmul x0 x0))))) (fsquare (fsub (lit 1) x0))))
          (seq (length pre) (length suf)) s =
    Ret (fold_left rose (combine (a :: suf) suf) s).
  Proof.
    revert pre a s. induction suf as [|b suf IH]; intros pre a s; [reflexivity|].
    cbn [length seq ofold]. unfold index at 1 2.
    rewrite (nth_error_app2 pre) by lia. replace (length pre + 1 - length pre)%nat with 1%nat by lia. cbn [nth_error obind].
    rewrite (nth_error_app2 pre) by lia. rewrite Nat.sub_diag. cbn [nth_error obind].
    specialize (IH (pre ++ [a]) b). rewrite <- app_assoc in IH. cbn [app] in IH.
    rewrite app_length in IH. cbn [length] in IH. rewrite Nat.add_1_r in IH.
    rewrite IH. reflexivity.
  Qed.
  Lemma rosenbrock_float (x : list F) : x <> [] -> rosenbrock_g x = Ret (fold_left rose (combine x (tl x)) zero).
  Proof.
    destruct x as [|a x]; [congruence|]. intros _. unfold rosenbrock_g. cbn [length].
    rewrite (rosenbrock_pairs [] x a). now rewrite lit_0.
  Qed.
  Lemma hundred : is_finite (lit 100 : F) = true /\ (B2R (lit 100) = 100)%R.
  Proof. rewrite lit_100. apply of_Z_exact. apply small_pow. simpl. lia. Qed.
  Lemma one_finite : is_finite (b_of_Z 1 : F) = true.
  Proof. apply of_Z_exact. apply small_pow. simpl. lia. Qed.
  Lemma rose_terms (a b : F) : is_finite a = true -> is_finite b = true ->
    non_negative (b_mul np (lit 100) (fsquare (b_sub np b (b_mul np a a)))) /\
    non_negative (fsquare (b_sub np (lit 1) a)).
  Proof.
    intros Fa Fb. destruct hundred as [F1 V1]. split.
    - apply mul_comm_nonneg; auto; [|lra]. apply non_negative_square. apply sub_not_nan; auto.
      now apply key_mul.
    - apply non_negative_square. rewrite lit_1. apply key_sub; auto. apply one_finite.
  Qed.
  Lemma rose_nonneg (l : list (F * F)) s : Forall (fun ab => is_finite (fst ab) = true /\ is_finite (snd ab) = true) l ->
    non_negative s -> non_negative (fold_left rose l s).
  Proof.
    intros H. revert s. induction H as [|[a b] l [Fa Fb] _ IH]; intros s Hs; auto. simpl. apply IH.
    destruct (rose_terms a b Fa Fb). now repeat apply non_negative_add.
  Qed.
  Lemma rose_pos (l : list (F * F)) s : Forall (fun ab => is_finite (fst ab) = true /\ is_finite (snd ab) = true) l ->
    non_negative s ->
    (0 < key s)%R \/ (exists a b, In (a, b) l /\ (a <> b_of_Z 1 \/ (a = b_of_Z 1 /\ b <> b_of_Z 1))) ->
    (0 < key (fold_left rose l s))%R.
  Proof.
    intros H. revert s. induction H as [|[a b] l [Fa Fb] Hl IH]; intros s Hs P.
    - destruct P as [P|[a [b [[] _]]]]. auto.
    - simpl in Fa, Fb. destruct (rose_terms a b Fa Fb) as [T1 T2].
      assert (K1 : (1 <= 1 <= 2 ^ prec)%Z) by (pose proof (Z.pow_gt_1 2 prec); pose proof (prec_pos (prec := prec)); lia).
      cbn [fold_left]. apply IH.
      + unfold rose. cbn [fst snd]. now repeat apply non_negative_add.
      + destruct P as [P|[a' [b' [[E|H'] P]]]]; [left|left|right; eauto]; unfold rose; cbn [fst snd].
        * apply add_pos; auto using non_negative_add. left. apply add_pos; auto.
        * injection E as -> ->. destruct P as [P|[P1 P2]].
          -- apply add_pos; auto using non_negative_add. right. rewrite lit_1.
             apply (sub_square_pos a' 1); auto. now apply finite_not_nan.
          -- apply add_pos; auto using non_negative_add. left. apply add_pos; auto. right.
             destruct hundred as [F1 V1]. apply mul_pos; auto; [lra| |].
             ++ rewrite P1, int_mul by (try (apply small_pow; simpl; lia); lia). apply (sub_square_pos b' 1); auto. now apply finite_not_nan.
             ++ apply non_negative_key. apply non_negative_square. apply sub_not_nan; auto. now apply key_mul.
  Qed.
  Lemma neighbours_finite (x : list F) : Forall (fun v => is_finite v = true) x ->
    Forall (fun ab => is_finite (fst ab) = true /\ is_finite (snd ab) = true) (combine x (tl x)).
  Proof.
    intros H. rewrite Forall_forall in *. intros [a b] Hin. split; apply H.
    - eapply in_combine_l; eauto.
    - apply in_combine_r in Hin. destruct x; [destruct Hin|right; exact Hin].
  Qed.
  Lemma rosenbrock_float_nonneg (x : list F) r : Forall (fun v => is_finite v = true) x -> rosenbrock_g x = Ret r -> non_negative r.
  Proof.
    intros H E. destruct x as [|a x]; [discriminate|]. rewrite rosenbrock_float in E by congruence. injection E as <-.
    apply (rose_nonneg (combine (a :: x) (tl (a :: x)))); [now apply neighbours_finite|reflexivity].
  Qed.
  Lemma rosenbrock_float_pos (x : list F) r : Forall (fun v => is_finite v = true) x -> 2 <= length x ->
    rosenbrock_g x = Ret r -> ~ Forall (fun v => v = b_of_Z 1) x -> (0 < key r)%R.
  Proof.
    intros H L E D. destruct x as [|a [|b x]]; simpl in L; try lia.
    rewrite rosenbrock_float in E by congruence. injection E as <-.
    apply (rose_pos (combine (a :: b :: x) (tl (a :: b :: x)))); [now apply neighbours_finite|reflexivity|]. right. clear H L.
    revert a b D. induction x as [|c x IH]; intros a b D; cbn [tl combine].
    - destruct (classic (a = b_of_Z 1)) as [->|Ea].
      + exists (b_of_Z 1), b. split; [simpl; auto|]. right. split; [reflexivity|]. intros ->. apply D. auto.
      + exists a, b. simpl. auto.
    - destruct (classic (a = b_of_Z 1)) as [->|Ea].
      + destruct (IH b c) as [u [v [H1 H2]]]; [intros G; apply D; auto|].
        exists u, v. split; [right; exact H1|exact H2].
      + exists a, b. simpl. auto.
  Qed.
  Lemma rosenbrock_float_ones n : rosenbrock_g (repeat (b_of_Z 1) (S n)) = Ret zero.
  Proof.
    rewrite rosenbrock_float by discriminate. f_equal. cbn [repeat tl].
    assert (E : rose zero (b_of_Z 1, b_of_Z 1) = zero).
    { unfold rose. cbn [fst snd]. rewrite int_mul by (try (apply small_pow; simpl; lia); lia). change (1 * 1)%Z with 1%Z.
      rewrite lit_1, lit_100, (sub_self (b_of_Z 1)) by apply one_finite.
      unfold fsquare, fmul, FloatIEEE. change zero with (b_of_Z 0 : F).
      rewrite !int_mul, !int_add by (try (apply small_pow; simpl; lia); lia). reflexivity. }
    induction n as [|n IH]; [reflexivity|]. cbn [repeat combine fold_left]. rewrite E. exact IH.
  Qed.

  (** *** Rastrigin *)
  Context {LM : Libm F}.
  Notation w := (b_mul np (b_of_Z 2) (fof_f64 pi_const) : F).
  Hypothesis Hw : is_finite w = true.
  Definition wave (acc xi : F) : F :=
    b_sub np (b_add np acc (b_mul np xi xi)) (b_mul np (b_of_Z 10) (fcos (b_mul np w xi))).
  Lemma rastrigin_fold (x : list F) :
    rastrigin_g x = b_add np (b_mul np (b_of_Z 10) (b_of_Z (Z.of_nat (length x)))) (fold_left wave x zero).
  Proof. unfold rastrigin_g. rewrite lit_10. reflexivity. Qed.
  Lemma add_zero (x : F) : is_finite x = true -> (B2R x <> 0%R \/ x = zero) -> b_add np x zero = x.
  Proof.
    intros H [N| ->]; [|reflexivity]. destruct x as [s|s|s pl h|s m e h]; try discriminate; [simpl in N; congruence|reflexivity].
  Qed.
  Lemma wave_zeros (x : list F) : (forall z, B2R z = 0%R -> is_finite z = true -> fcos z = b_of_Z 1) ->
    Forall (fun v => B2R v = 0%R /\ is_finite v = true) x -> forall k,
    (0 <= k)%Z -> (10 * (k + Z.of_nat (length x)) <= 2 ^ prec)%Z ->
    fold_left wave x (b_of_Z (- (10 * k))) = b_of_Z (- (10 * (k + Z.of_nat (length x)))).
  Proof.
    intros C H. induction H as [|v x [Z0 Fv] _ IH]; intros k K L.
    - cbn [fold_left length]. f_equal. lia.
    - cbn [length] in L. cbn [fold_left].
      assert (E : wave (b_of_Z (- (10 * k))) v = b_of_Z (- (10 * (k + 1)))).
      { unfold wave. destruct v as [s|s|s pl h|s m e h]; try discriminate.
        2:{ exfalso. simpl in Z0. apply eq_0_F2R in Z0. destruct s; discriminate. }
        replace (b_mul np (Binary.B754_zero s) (Binary.B754_zero s)) with zero by (destruct s; reflexivity).
        replace (b_add np (b_of_Z (- (10 * k))) zero) with (b_of_Z (- (10 * k)) : F).
        - rewrite C.
          + rewrite int_mul by (try (apply small_pow; simpl; lia); lia).
            change (10 * 1)%Z with 10%Z. rewrite int_sub by (try (apply small_pow; simpl; lia); lia). f_equal. lia.
          + destruct w as [s'|s'|s' pl h|s' m e h]; try discriminate; reflexivity.
          + destruct w as [s'|s'|s' pl h|s' m e h]; try discriminate; reflexivity.
        - symmetry. change zero with (b_of_Z 0 : F). rewrite int_add by lia. f_equal. lia. }
      rewrite E. rewrite IH by lia. f_equal. cbn [length]. lia.
  Qed.
  Lemma rastrigin_zeros (x : list F) : (forall z, B2R z = 0%R -> is_finite z = true -> fcos z = b_of_Z 1) ->
    Forall (fun v => B2R v = 0%R /\ is_finite v = true) x -> (10 * Z.of_nat (length x) <= 2 ^ prec)%Z ->
    rastrigin_g x = zero.
  Proof.
    intros C H L. rewrite rastrigin_fold. change zero with (b_of_Z (- (10 * 0)) : F).
    rewrite wave_zeros by (auto; lia). rewrite int_mul by (try (apply small_pow; simpl; lia); lia).
    rewrite int_add by lia. f_equal. lia.
  Qed.

  (** Rounding is monotone, so that the sum stays above -10 per coordinate. *)
  Lemma wave_bound (acc v : F) k : (0 <= k)%Z -> (10 * (k + 1) <= 2 ^ prec)%Z ->
    is_nan acc = false -> (IZR (- (10 * k)) <= key acc)%R -> is_finite v = true ->
    is_finite (fcos (b_mul np w v)) = true -> (Rabs (B2R (fcos (b_mul np w v))) <= 1)%R ->
    is_nan (wave acc v) = false /\ (IZR (- (10 * (k + 1))) <= key (wave acc v))%R.
  Proof.
    intros K L Na Ka Fv Fc Bc. unfold wave. set (c := fcos (b_mul np w v)) in *.
    pose proof (non_negative_square np v (finite_not_nan v Fv)) as S. apply non_negative_key in S. destruct S as [S1 S2].
    destruct (of_Z_exact (prec := prec) (emax := emax) 10 (small_pow 10 ltac:(simpl; lia))) as [F10 V10].
    assert (P : is_finite (b_mul np (b_of_Z 10) c) = true /\ (B2R (b_mul np (b_of_Z 10) c) <= 10)%R).
    { assert (F : forall n, (Z.abs n <= 100)%Z -> rnd (IZR n) = IZR n).
      { intros n Hn. apply rnd_format, format_IZR, small_pow, Hn. }
      apply Rabs_le_inv in Bc.
      assert (B1 : (-10 <= rnd (10 * B2R c) <= 10)%R).
      { split; [apply Rle_trans with (rnd (IZR (-10)))|apply Rle_trans with (rnd (IZR 10))];
          try (rewrite F by (simpl; lia); lra); apply rnd_le; lra. }
      destruct (mul_correct np (b_of_Z 10) c F10 Fc) as [M1 M2].
      - rewrite V10. apply Rle_lt_trans with 10%R; [apply Rabs_le; lra|].
        apply Rle_lt_trans with (bpow radix2 65); [|apply bpow_lt; lia].
        apply Rle_trans with (bpow radix2 4); [simpl; lra|apply bpow_le; lia].
      - split; auto. rewrite M2, V10. apply B1. }
    destruct P as [Fp Pp]. set (p := b_mul np (b_of_Z 10) c) in *.
    assert (I : forall n, (Z.abs n <= 2 ^ prec)%Z -> sat (prec := prec) (emax := emax) (IZR n) = IZR n).
    { intros n Hn. rewrite sat_in; rewrite rnd_format by (now apply format_IZR); auto. now apply IZR_bound. }
    assert (S : is_nan (b_add np acc (b_mul np v v)) = false /\ (IZR (- (10 * k)) <= key (b_add np acc (b_mul np v v)))%R).
    { destruct (inf_cases acc Na) as [Fa|[->| ->]].
      - destruct (inf_cases (b_mul np v v) S1) as [F2|[E|E]].
        + destruct (key_add np acc _ Fa F2) as [N ->]. split; auto. rewrite key_finite in Ka, S2 by auto.
          rewrite <- (I (- (10 * k))%Z) by lia. apply sat_le. lra.
        + rewrite E. replace (b_add np acc (Binary.B754_infinity false)) with (Binary.B754_infinity false : F).
          * split; auto. pose proof (IZR_bound (prec := prec) (emax := emax) (- (10 * k)) ltac:(lia)) as Bk.
            apply Rabs_lt_inv in Bk. change (key (Binary.B754_infinity false : F)) with (bpow radix2 emax). lra.
          * destruct acc as [s|[|]|s pl h|s m e h]; try discriminate; reflexivity.
        + rewrite E in S2. simpl in S2. pose proof (bpow_gt_0 radix2 emax). lra.
      - replace (b_add np (Binary.B754_infinity false) (b_mul np v v)) with (Binary.B754_infinity false : F);
          [split; [reflexivity|exact Ka]|].
        destruct (b_mul np v v) as [s|[|]|s pl h|s m e h]; try discriminate; try reflexivity.
        simpl in S2. pose proof (bpow_gt_0 radix2 emax). lra.
      - exfalso. change (key (Binary.B754_infinity true : F)) with (- bpow radix2 emax)%R in Ka. pose proof (IZR_bound (prec := prec) (emax := emax) (- (10 * k)) ltac:(lia)) as Bk.
        apply Rabs_lt_inv in Bk. lra. }
    destruct S as [N K2]. set (s := b_add np acc (b_mul np v v)) in *.
    destruct (inf_cases s N) as [Fs|[E|E]].
    - destruct (key_sub np s p Fs Fp) as [N' ->]. split; auto. rewrite key_finite in K2 by auto.
      rewrite <- (I (- (10 * (k + 1)))%Z) by lia. apply sat_le.
      replace (- (10 * (k + 1)))%Z with (- (10 * k) - 10)%Z by lia. rewrite minus_IZR. lra.
    - rewrite E. replace (b_sub np (Binary.B754_infinity false) p) with (Binary.B754_infinity false : F).
      + split; auto. pose proof (IZR_bound (prec := prec) (emax := emax) (- (10 * (k + 1))) ltac:(lia)) as Bk.
        apply Rabs_lt_inv in Bk. change (key (Binary.B754_infinity false : F)) with (bpow radix2 emax). lra.
      + destruct p as [s'|[|]|s' pl h|s' m e h]; try discriminate; reflexivity.
    - rewrite E in K2. exfalso. change (key (Binary.B754_infinity true : F)) with (- bpow radix2 emax)%R in K2.
      pose proof (IZR_bound (prec := prec) (emax := emax) (- (10 * k)) ltac:(lia)) as Bk.
      apply Rabs_lt_inv in Bk. lra.
  Qed.
  Lemma wave_fold (x : list F) acc k :
    Forall (fun v => is_finite v = true /\ is_finite (fcos (b_mul np w v)) = true /\ (Rabs (B2R (fcos (b_mul np w v))) <= 1)%R) x ->
    (0 <= k)%Z -> (10 * (k + Z.of_nat (length x)) <= 2 ^ prec)%Z ->
    is_nan acc = false -> (IZR (- (10 * k)) <= key acc)%R ->
    is_nan (fold_left wave x acc) = false /\ (IZR (- (10 * (k + Z.of_nat (length x)))) <= key (fold_left wave x acc))%R.
  Proof.
    intros H. revert acc k. induction H as [|v x [Fv [Fc Bc]] _ IH]; intros acc k K L N Ka.
    - simpl in *. replace (k + 0)%Z with k by lia. auto.
    - cbn [length] in *. destruct (wave_bound acc v k) as [N' K']; auto; [lia|].
      cbn [fold_left]. replace (k + Z.of_nat (S (length x)))%Z with (k + 1 + Z.of_nat (length x))%Z by lia.
      apply IH; auto; lia.
  Qed.
  Lemma scaled_finite (v : F) : is_finite v = true -> (Rabs (B2R w) <= 8)%R -> (Rabs (B2R v) <= bpow radix2 (emax - 4))%R ->
    is_finite (b_mul np w v) = true.
  Proof.
    intros Fv W V. apply mul_correct; auto.
    apply Rle_lt_trans with (bpow radix2 (emax - 1)); [|apply bpow_lt; lia].
    apply (abs_round_le_generic radix2 (SpecFloat.fexp prec emax)).
    - apply (valid_rnd_round_mode mode_NE).
    - apply format_bpow. lia.
    - rewrite Rabs_mult. replace (emax - 1)%Z with (3 + (emax - 4))%Z by lia. rewrite bpow_plus.
      apply Rmult_le_compat; auto using Rabs_pos.
  Qed.
  Lemma rastrigin_nonneg (x : list F) : (Rabs (B2R w) <= 8)%R ->
    (forall z, is_finite z = true -> is_finite (fcos z) = true /\ (Rabs (B2R (fcos z)) <= 1)%R) ->
    (10 * Z.of_nat (length x) <= 2 ^ prec)%Z ->
    Forall (fun v => is_finite v = true /\ (Rabs (B2R v) <= bpow radix2 (emax - 4))%R) x ->
    non_negative (rastrigin_g x).
  Proof.
    intros W C L H. rewrite rastrigin_fold.
    destruct (wave_fold x zero 0) as [N K].
    - eapply Forall_impl; [|exact H]. intros v [Fv Bv]. split; auto. apply C. now apply scaled_finite.
    - lia.
    - lia.
    - reflexivity.
    - simpl. lra.
    - rewrite Z.add_0_l in K. rewrite int_mul by (try (apply small_pow; simpl; lia); lia).
      set (n := (10 * Z.of_nat (length x))%Z) in *. set (s := fold_left wave x zero) in *.
      destruct (of_Z_exact (prec := prec) (emax := emax) n ltac:(lia)) as [Fn Vn].
      pose proof (IZR_bound (prec := prec) (emax := emax) (- n) ltac:(lia)) as Bn. apply Rabs_lt_inv in Bn.
      destruct (inf_cases s N) as [Fs|[E|E]].
      + destruct (key_add np (b_of_Z n) s Fn Fs) as [N' K']. apply non_negative_key. split; auto.
        rewrite K', Vn. apply sat_pos. rewrite key_finite in K by auto. rewrite opp_IZR in K. lra.
      + rewrite E. destruct (b_of_Z n : F) as [s'|s'|s' pl h|s' m e h]; try discriminate; reflexivity.
      + rewrite E in K. change (key (Binary.B754_infinity true : F)) with (- bpow radix2 emax)%R in K. lra.
  Qed.
End Float.

(** ** The two float types *)
Lemma lit_64 (np : nan_policy 53 1024) n : In n [0; 1; 10; 100]%Z -> @lit f64 (FloatIEEE np) n = b_of_Z n.
Proof.
  intros H. apply Binary.B2FF_inj. simpl in H.
  destruct H as [<-|[<-|[<-|[<-|[]]]]]; vm_compute; reflexivity.
Qed.
Lemma lit_32 (np : nan_policy 24 128) n : In n [0; 1; 10; 100]%Z -> @lit f32 (FloatIEEE np) n = b_of_Z n.
Proof.
  intros H. apply Binary.B2FF_inj. simpl in H.
  destruct H as [<-|[<-|[<-|[<-|[]]]]]; vm_compute; reflexivity.
Qed.
Lemma wave_64 (np : nan_policy 53 1024) :
  is_finite (b_mul np (b_of_Z 2) (@fof_f64 f64 (FloatIEEE np) pi_const)) = true /\
  (Rabs (Binary.B2R 53 1024 (b_mul np (b_of_Z 2) (@fof_f64 f64 (FloatIEEE np) pi_const))) <= 8)%R.
Proof.
  split; [vm_compute; reflexivity|].
  rewrite (B2R_of_FF _ 7074237752028433 (-50)) by (vm_compute; reflexivity).
  rewrite Rabs_pos_eq; change (bpow radix2 (-50)) with (/ IZR (2 ^ 50))%R; simpl Z.pow; lra.
Qed.
Lemma wave_32 (np : nan_policy 24 128) :
  is_finite (b_mul np (b_of_Z 2) (@fof_f64 f32 (FloatIEEE np) pi_const)) = true /\
  (Rabs (Binary.B2R 24 128 (b_mul np (b_of_Z 2) (@fof_f64 f32 (FloatIEEE np) pi_const))) <= 8)%R.
Proof.
  split; [vm_compute; reflexivity|].
  assert (E : Binary.B2FF 24 128 (b_mul np (b_of_Z 2) (@fof_f64 f32 (FloatIEEE np) pi_const)) =
              Binary.F754_finite false 13176795 (-21)) by (vm_compute; reflexivity).
  rewrite <- Binary.FF2R_B2FF, E. unfold Binary.FF2R, F2R. cbn [Fnum Fexp cond_Zopp].
  change (bpow radix2 (-21)) with (/ IZR (2 ^ 21))%R. rewrite Rabs_pos_eq; simpl Z.pow; lra.
Qed.
(** Conversion to f64 keeps the order. *)
Lemma fconv_key (np : f32 -> a_nan 53 1024) (x : f32) : is_nan x = false ->
  is_nan (fconv np x) = false /\ ((0 <= key x)%R -> (0 <= key (fconv np x : f64))%R) /\
  ((0 < key x)%R -> (0 < key (fconv np x : f64))%R).
Proof.
  intros N. destruct (inf_cases x N) as [H|[->| ->]].
  - destruct (fconv_32_64 np x H) as [F E]. split; [now apply finite_not_nan|].
    rewrite !key_finite, E by auto. auto.
  - split; [reflexivity|]. change (key (fconv np (Binary.B754_infinity false : f32))) with (bpow radix2 1024).
    split; intros _; [apply bpow_ge_0|apply bpow_gt_0].
  - split; [reflexivity|]. change (key (Binary.B754_infinity true : f32)) with (- bpow radix2 128)%R.
    pose proof (bpow_gt_0 radix2 128). split; intros; exfalso; lra.
Qed.
Lemma fconv_non_negative (np : f32 -> a_nan 53 1024) (x : f32) : non_negative x -> non_negative (fconv np x : f64).
Proof.
  rewrite !non_negative_key. intros [N K]. destruct (fconv_key np x N) as [H1 [H2 _]]. auto.
Qed.

Lemma positive_key {prec emax} (x : bfloat prec emax) : strictly_positive x <-> is_nan x = false /\ (0 < key x)%R.
Proof.
  unfold strictly_positive. rewrite ltb_key. change (key (Binary.B754_zero false : bfloat prec emax)) with 0%R.
  split; intuition.
Qed.
Lemma fconv_positive (np : f32 -> a_nan 53 1024) (x : f32) : strictly_positive x -> strictly_positive (fconv np x : f64).
Proof. rewrite !positive_key. intros [N K]. destruct (fconv_key np x N) as [H1 [_ H2]]. auto. Qed.
Lemma fconv_nan (np : f32 -> a_nan 53 1024) (x : f32) : is_nan (fconv np x : f64) = is_nan x.
Proof.
  destruct (is_nan x) eqn:N.
  - destruct x; try discriminate. unfold fconv. destruct (np _) as [z Hz]. exact Hz.
  - apply (fconv_key np x N).
Qed.

Section Types.
  Lemma paraboloid_64 (np : nan_policy 53 1024) (x : list f64) : usize (length x) ->
    let r := @paraboloid f64 (FloatIEEE np) ToF64_64 x in
    (is_nan r = true <-> exists v, In v x /\ is_nan v = true) /\
    (Forall (fun v => is_nan v = false) x -> non_negative r /\
     ((Z.of_nat (length x) <= 2 ^ 53)%Z -> x <> map float_count (seq 1 (length x)) -> strictly_positive r)).
  Proof.
    intros U r. split; [|intros N; split].
    - apply (paraboloid_nan np (lit_64 np)); auto; lia.
    - apply (paraboloid_nonneg np (lit_64 np)); auto; lia.
    - intros L D. apply positive_key.
      assert (P := paraboloid_nonneg np (lit_64 np) ltac:(lia) ltac:(lia) x U N).
      apply non_negative_key in P. split; [apply P|].
      apply (paraboloid_pos np (lit_64 np)); auto; lia.
  Qed.
  Lemma paraboloid_64_zero (np : nan_policy 53 1024) n : (Z.of_nat n <= 2 ^ 53)%Z ->
    @paraboloid f64 (FloatIEEE np) ToF64_64 (map float_count (seq 1 n)) = Binary.B754_zero false.
  Proof. intros L. apply (paraboloid_ramp np (lit_64 np)); auto; lia. Qed.
  Lemma paraboloid_32 (np : nan_policy 24 128) (np64 : nan_policy 53 1024) (x : list f32) : usize (length x) ->
    let r := @paraboloid f32 (FloatIEEE np) (ToF64_32 np64) x in
    (is_nan r = true <-> exists v, In v x /\ is_nan v = true) /\
    (Forall (fun v => is_nan v = false) x -> non_negative r /\
     ((Z.of_nat (length x) <= 2 ^ 24)%Z -> x <> map float_count (seq 1 (length x)) -> strictly_positive r)).
  Proof.
    intros U r. unfold r, paraboloid, to_f64, ToF64_32. split; [|intros N; split].
    - rewrite fconv_nan. apply (paraboloid_nan np (lit_32 np)); auto; lia.
    - apply fconv_non_negative. apply (paraboloid_nonneg np (lit_32 np)); auto; lia.
    - intros L D. apply fconv_positive. apply positive_key.
      assert (P := paraboloid_nonneg np (lit_32 np) ltac:(lia) ltac:(lia) x U N).
      apply non_negative_key in P. split; [apply P|].
      apply (paraboloid_pos np (lit_32 np)); auto; lia.
  Qed.
  Lemma paraboloid_32_zero (np : nan_policy 24 128) (np64 : nan_policy 53 1024) n : (Z.of_nat n <= 2 ^ 24)%Z ->
    @paraboloid f32 (FloatIEEE np) (ToF64_32 np64) (map float_count (seq 1 n)) = Binary.B754_zero false.
  Proof.
    intros L. unfold paraboloid. replace (paraboloid_g (map float_count (seq 1 n))) with (Binary.B754_zero false : f32); [reflexivity|].
    symmetry. apply (paraboloid_ramp np (lit_32 np)); auto; lia.
  Qed.

  Lemma rosenbrock_64 (np : nan_policy 53 1024) (x : list f64) :
    Forall (fun v => is_finite v = true) x -> x <> [] ->
    exists r, @rosenbrock f64 (FloatIEEE np) ToF64_64 x = Ret r /\ non_negative r /\
      (length x = 1 -> r = Binary.B754_zero false) /\
      (2 <= length x -> x <> repeat (float_count 1) (length x) -> strictly_positive r).
  Proof.
    intros H N. destruct x as [|a x]; [congruence|].
    assert (E : @rosenbrock_g f64 (FloatIEEE np) (a :: x) =
                Ret (fold_left (rose np) (combine (a :: x) (tl (a :: x))) (Binary.B754_zero false : f64)))
      by exact (rosenbrock_float np (lit_64 np) (a :: x) N).
    unfold rosenbrock. rewrite E. cbn [obind]. unfold to_f64, ToF64_64. eexists. split; [reflexivity|].
    assert (P : non_negative (fold_left (rose np) (combine (a :: x) (tl (a :: x))) (Binary.B754_zero false : f64)))
      by (eapply (rosenbrock_float_nonneg np (lit_64 np)); eauto; lia).
    split; [exact P|]. split.
    - intros L. destruct x; [reflexivity|discriminate].
    - intros L D. apply positive_key. split; [now apply non_negative_key in P|].
      eapply (rosenbrock_float_pos np (lit_64 np)); eauto; try lia.
      intros G. apply D. apply Forall_eq_repeat. eapply Forall_impl; [|exact G]. intros u ->. reflexivity.
  Qed.
  Lemma rosenbrock_32 (np : nan_policy 24 128) (np64 : nan_policy 53 1024) (x : list f32) :
    Forall (fun v => is_finite v = true) x -> x <> [] ->
    exists r, @rosenbrock f32 (FloatIEEE np) (ToF64_32 np64) x = Ret r /\ non_negative r /\
      (length x = 1 -> r = Binary.B754_zero false) /\
      (2 <= length x -> x <> repeat (float_count 1) (length x) -> strictly_positive r).
  Proof.
    intros H N. destruct x as [|a x]; [congruence|].
    assert (E : @rosenbrock_g f32 (FloatIEEE np) (a :: x) =
                Ret (fold_left (rose np) (combine (a :: x) (tl (a :: x))) (Binary.B754_zero false : f32)))
      by exact (rosenbrock_float np (lit_32 np) (a :: x) N).
    unfold rosenbrock. rewrite E. cbn [obind]. unfold to_f64, ToF64_32. eexists. split; [reflexivity|].
    assert (P : non_negative (fold_left (rose np) (combine (a :: x) (tl (a :: x))) (Binary.B754_zero false : f32)))
      by (eapply (rosenbrock_float_nonneg np (lit_32 np)); eauto; lia).
    split; [now apply fconv_non_negative|]. split.
    - intros L. destruct x; [reflexivity|discriminate].
    - intros L D. apply fconv_positive. apply positive_key. split; [now apply non_negative_key in P|].
      eapply (rosenbrock_float_pos np (lit_32 np)); eauto; try lia.
      intros G. apply D. apply Forall_eq_repeat. eapply Forall_impl; [|exact G]. intros u ->. reflexivity.
  Qed.
  Lemma rosenbrock_64_ones (np : nan_policy 53 1024) n :
    @rosenbrock f64 (FloatIEEE np) ToF64_64 (repeat (float_count 1) (S n)) = Ret (Binary.B754_zero false).
  Proof. unfold rosenbrock. assert (E : @rosenbrock_g f64 (FloatIEEE np) (repeat (float_count 1) (S n)) = Ret (Binary.B754_zero false))
      by (apply (rosenbrock_float_ones np (lit_64 np)); lia).
    now rewrite E. Qed.
  Lemma rosenbrock_32_ones (np : nan_policy 24 128) (np64 : nan_policy 53 1024) n :
    @rosenbrock f32 (FloatIEEE np) (ToF64_32 np64) (repeat (float_count 1) (S n)) = Ret (Binary.B754_zero false).
  Proof. unfold rosenbrock. assert (E : @rosenbrock_g f32 (FloatIEEE np) (repeat (float_count 1) (S n)) = Ret (Binary.B754_zero false))
      by (apply (rosenbrock_float_ones np (lit_32 np)); lia).
    now rewrite E. Qed.
  Lemma rosenbrock_panic {G} {FT : FloatTrait G} {TF : ToF64 G} (x : list G) :
    rosenbrock x = Panic <-> x = [].
  Proof.
    split; [|intros ->; reflexivity]. destruct x as [|a x]; auto. unfold rosenbrock, rosenbrock_g. cbn [length].
    assert (G0 : forall l s, (forall n, In n l -> n + 1 < length (a :: x)) -> exists r,
      ofold (fun sum n =>
             let! x1 := index (a :: x) (n + 1) in
             let! x0 := index (a :: x) n in
             Ret (fadd (fadd sum (fmul (lit 100) (fsquare (fsub x1 (fmul x0 x0))))) (fsquare (fsub (lit 1) x0))))
          l s = Ret r).
    { induction l as [|n l IH]; intros s Hn; cbn [ofold]; [eauto|].
      assert (L : n + 1 < length (a :: x)) by (apply Hn; simpl; auto).
      unfold index at 1 2. destruct (nth_error (a :: x) (n + 1)) eqn:E1; [|apply nth_error_None in E1; lia].
      destruct (nth_error (a :: x) n) eqn:E0; [|apply nth_error_None in E0; lia].
      cbn [obind]. apply IH. intros k Hk. apply Hn. simpl. auto. }
    destruct (G0 (seq 0 (length x)) (lit 0)) as [r ->]; [|discriminate].
    intros n Hn. apply in_seq in Hn. simpl. lia.
  Qed.

  Lemma rastrigin_64 (np : nan_policy 53 1024) (LM : Libm f64) (x : list f64) : cos_bounded fcos ->
    (10 * Z.of_nat (length x) <= 2 ^ 53)%Z ->
    Forall (fun v => is_finite v = true /\ (Rabs (Binary.B2R 53 1024 v) <= bpow radix2 1020)%R) x ->
    non_negative (@rastrigin f64 (FloatIEEE np) LM ToF64_64 x).
  Proof.
    intros C L H. destruct (wave_64 np). apply (rastrigin_nonneg np (lit_64 np)); auto; lia.
  Qed.
  Lemma rastrigin_32 (np : nan_policy 24 128) (np64 : nan_policy 53 1024) (LM : Libm f32) (x : list f32) : cos_bounded fcos ->
    (10 * Z.of_nat (length x) <= 2 ^ 24)%Z ->
    Forall (fun v => is_finite v = true /\ (Rabs (Binary.B2R 24 128 v) <= bpow radix2 124)%R) x ->
    non_negative (@rastrigin f32 (FloatIEEE np) LM (ToF64_32 np64) x).
  Proof.
    intros C L H. destruct (wave_32 np). apply fconv_non_negative. apply (rastrigin_nonneg np (lit_32 np)); auto; lia.
  Qed.
  Lemma rastrigin_64_zero (np : nan_policy 53 1024) (LM : Libm f64) (x : list f64) : cos_zero fcos ->
    (10 * Z.of_nat (length x) <= 2 ^ 53)%Z ->
    Forall (fun v => exists s, v = Binary.B754_zero s) x ->
    @rastrigin f64 (FloatIEEE np) LM ToF64_64 x = Binary.B754_zero false.
  Proof.
    intros C L H. destruct (wave_64 np). apply (rastrigin_zeros np (lit_64 np)); auto; try lia.
    eapply Forall_impl; [|exact H]. intros v [s ->]. auto.
  Qed.
  Lemma rastrigin_32_zero (np : nan_policy 24 128) (np64 : nan_policy 53 1024) (LM : Libm f32) (x : list f32) : cos_zero fcos ->
    (10 * Z.of_nat (length x) <= 2 ^ 24)%Z ->
    Forall (fun v => exists s, v = Binary.B754_zero s) x ->
    @rastrigin f32 (FloatIEEE np) LM (ToF64_32 np64) x = Binary.B754_zero false.
  Proof.
    intros C L H. destruct (wave_32 np). unfold rastrigin.
    replace (rastrigin_g x) with (Binary.B754_zero false : f32); [reflexivity|].
    symmetry. apply (rastrigin_zeros np (lit_32 np)); auto; try lia.
    eapply Forall_impl; [|exact H]. intros v [s ->]. auto.
  Qed.
End Types.
