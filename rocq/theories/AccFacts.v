(** * Accuracy of the computed test functions: proofs *)

From Coq Require Import List Arith ZArith Bool Reals Lia Lra Psatz.
From Flocq Require Import Core IEEE754.BinarySingleNaN IEEE754.Binary.
From Flocq Require Import Relative Plus_error Div_sqrt_error.
From Verif Require Import Base FloatModel TestFuncModel FloatFacts ArithFacts SatFacts SpecReal SpecStat SpecMean SpecSpeed SpecTest
  SpecAccuracy StatFacts SumFacts VelFacts SpeedFacts DevFacts CreateFacts TestFacts RangeFacts.
Import ListNotations.
Local Open Scope R_scope.

(** The errors but for those of the literals. *)
Definition rastrigin_rounding (prec emax : Z) (n : nat) (b e : R) : R :=
  (INR n * (10 * e + roundoff (prec := prec) * (INR (2 * n + 2) * (b² + 20) + 160 * b) + 12 * tiny prec emax))%R.
Definition schwefel_rounding (prec emax : Z) (n : nat) (b e : R) : R :=
  (INR n * (b * e + roundoff (prec := prec) * (b * sqrt b + INR (n + 2) * b + 1257) + 2 * tiny prec emax))%R.

Section Acc.
  Context {prec emax : Z} {Hp : Prec_gt_0 prec} {He : Prec_lt_emax prec emax}.
  Variable np : nan_policy prec emax.
  Notation F := (bfloat prec emax).
  Notation fexp := (SpecFloat.fexp prec emax).
  Notation rnd x := (round radix2 fexp (round_mode mode_NE) x).
  Notation B2R := (Binary.B2R prec emax).
  Notation u := (bpow radix2 (- prec)).
  Notation emin := (SpecFloat.emin prec emax).
  Notation eta := (bpow radix2 (emin - 1)).
  Notation zero := (Binary.B754_zero false : F).
  Notation rsum l := (real_sum (map B2R l)).
  #[local] Hint Extern 0 (FloatTrait (bfloat prec emax)) => exact (FloatIEEE np) : typeclass_instances.
  Hypothesis Two : (1 < prec)%Z.
  Hypothesis Hlit : forall n, In n [0; 1; 10; 100]%Z -> (lit n : F) = b_of_Z n.
  Hypothesis Hprec : (24 <= prec)%Z.
  #[local] Instance vexp5 : Valid_exp fexp := BinarySingleNaN.fexp_correct prec emax Hp.
  #[local] Instance vrnd5 : Valid_rnd (round_mode mode_NE) := valid_rnd_round_mode mode_NE.

  Lemma tiny_eta : tiny prec emax = eta.
  Proof. exact eta_is. Qed.

  (** ** Paraboloid *)
  Definition to_one (nv : nat * F) : R := B2R (snd nv) - INR (S (fst nv)).
  Lemma gaps_near (l : list (nat * F)) :
    Forall (fun nv => (Z.of_nat (S (fst nv)) <= 2 ^ prec)%Z /\ is_finite (gap np nv) = true) l ->
    let V := map B2R (map (gap np) l) in
    let W := map to_one l in
    sq V <= (1 + u) ^ 2 * sq W /\ sq W <= (1 + u) ^ 2 * sq V.
  Proof.
    induction 1 as [|[i v] l [K H] _ [I1 I2]]; [cbn; lra|]. cbv zeta in *. cbn [map sq fold_right].
    fold (sq (map B2R (map (gap np) l))) (sq (map to_one l)).
    destruct (sub_near np v _ H) as [A B]. cbn [fst snd] in *.
    rewrite index_int in A, B by lia.
    destruct (of_Z_exact (prec := prec) (emax := emax) (Z.of_nat (S i)) ltac:(lia)) as [_ E].
    rewrite E, <- INR_IZR_INZ in A, B.
    change (B2R v - INR (S i)) with (to_one (i, v)) in A, B.
    assert (G : gap np (i, v) = b_sub np v (b_of_Z (Z.of_nat (S i)))) by (unfold gap; cbn [fst snd]; now rewrite index_int by lia).
    rewrite G. lra.
  Qed.
  Lemma fold_squares {A} (f : A -> F) (l : list A) : forall a,
    fold_left (fun s x => b_add np s (b_mul np (f x) (f x))) l a = fold_left (b_add np) (sqs np (map f l)) a.
  Proof. unfold sqs. induction l as [|x l IH]; intros a; simpl; auto. Qed.
  Lemma real_sum_sq' {A} (f : A -> R) l : real_sum (map (fun x => Rsqr (f x)) l) = sq (map f l).
  Proof.
    induction l as [|x l IH]; [reflexivity|]. cbn [map]. change (real_sum (?h :: ?t)) with (h + real_sum t).
    cbn [sq fold_right]. fold (sq (map f l)). rewrite IH. reflexivity.
  Qed.
  Lemma sq_pos v : 0 <= sq v. Proof. apply sq_nonneg. Qed.

  Lemma paraboloid_real_sq (x : list F) : paraboloid_real (map B2R x) = sq (map to_one (enumerate x)).
  Proof.
    unfold paraboloid_real. rewrite map_length, <- (real_sum_sq' to_one). unfold to_one, enumerate.
    rewrite <- seq_shift. generalize (seq 0 (length x)) as l. induction x as [|v x IH]; intros l; destruct l as [|i l]; auto.
    cbn [map combine fst snd]. change (real_sum (?h :: ?t)) with (h + real_sum t). now rewrite IH.
  Qed.
  Lemma enumerate_length (x : list F) : length (enumerate x) = length x.
  Proof. unfold enumerate. rewrite combine_length, seq_length. lia. Qed.

  Lemma paraboloid_close (x : list F) : (Z.of_nat (length x) <= 2 ^ prec)%Z -> is_finite (paraboloid_g x) = true ->
    0 <= B2R (paraboloid_g x) /\
    close prec (length x + 3) (INR (length x) * tiny prec emax) (B2R (paraboloid_g x)) (paraboloid_real (map B2R x)).
  Proof.
    intros Hn H. rewrite (paraboloid_fold np Hlit) in *. rewrite fold_squares in *.
    rewrite paraboloid_real_sq, tiny_eta. set (l := enumerate x) in *.
    assert (Ll : length l = length x) by apply enumerate_length.
    destruct (sums np _ _ H) as [_ Fs].
    assert (Fs' : Forall (fun nv => is_finite (b_mul np (gap np nv) (gap np nv)) = true) l).
    { unfold sqs in Fs. rewrite !Forall_map in Fs. exact Fs. }
    destruct (squares np (map (gap np) l)) as (S1 & S2 & S3); [rewrite Forall_map; exact Fs'|].
    destruct (sum_bounds np _ _ H) as (T1 & T2 & T3); [simpl; lra|exact S1|].
    destruct (gaps_near l) as [G1 G2].
    { rewrite Forall_forall in *. intros [i v] Hin. split.
      - apply in_enumerate in Hin. cbn [fst]. lia.
      - specialize (Fs' _ Hin). apply mul_finite_args in Fs'. apply Fs'. }
    cbv zeta in *. unfold sqs in T2, T3 at 2. rewrite !map_length, Ll in *. fold (sqs np (map (gap np) l)) in *.
    change (B2R zero) with 0 in T2, T3. rewrite Rplus_0_l in T2, T3.
    set (V := sq (map B2R (map (gap np) l))) in *. set (W := sq (map to_one l)) in *.
    set (r := B2R (fold_left (b_add np) (sqs np (map (gap np) l)) zero)) in *.
    set (q := rsum (sqs np (map (gap np) l))) in *.
    assert (V0 : 0 <= V) by apply sq_pos. assert (W0 : 0 <= W) by apply sq_pos.
    assert (Q0 : 0 <= q).
    { unfold q. clear -S1. induction S1 as [|y l' H _ IH]; [apply Rle_refl|]. cbn [map].
      change (real_sum (?h :: ?t)) with (h + real_sum t). lra. }
    pose proof (bpow_gt_0 radix2 (- prec)) as U. pose proof (eta_pos (prec := prec) (emax := emax)) as Et.
    pose proof (pow_u (prec := prec) (length x)) as P. pose proof (pow_u (prec := prec) 2) as P2.
    set (N := INR (length x) * eta) in *.
    assert (N0 : 0 <= N) by (apply Rmult_le_pos; [apply pos_INR|lra]).
    split; [exact T1|]. unfold close. rewrite pow_add. set (p := (1 + u) ^ length x) in *.
    split.
    - eapply Rle_trans; [exact T3|]. rewrite Rmult_assoc. apply Rmult_le_compat_l; [lra|].
      eapply Rle_trans; [exact S3|]. change ((1 + u) ^ 3) with ((1 + u) * (1 + u) ^ 2). rewrite (Rmult_assoc (1 + u)).
      apply Rmult_le_compat_l; [lra|]. nra.
    - eapply Rle_trans; [exact G2|].
      assert (K1 : (1 + u) ^ 2 * V <= (1 + u) ^ 3 * (q + N)).
      { replace ((1 + u) ^ 3 * (q + N)) with ((1 + u) ^ 2 * ((1 + u) * (q + N))) by ring.
        apply Rmult_le_compat_l; [lra|]. nra. }
      eapply Rle_trans; [exact K1|]. rewrite (Rmult_comm p), Rmult_assoc. apply Rmult_le_compat_l; [apply pow_le; lra|].
      nra.
  Qed.

  (** ** Rosenbrock *)
  Lemma mul_value (x y : F) : is_finite (b_mul np x y) = true -> B2R (b_mul np x y) = rnd (B2R x * B2R y).
  Proof.
    intros H. destruct (mul_finite_args np x y H) as [Fx Fy].
    apply mul_correct; auto. destruct (key_mul np x y Fx Fy) as [_ K]. rewrite key_finite in K by exact H.
    apply sat_finite. rewrite <- K. apply B2R_bound.
  Qed.
  Lemma square_near (d : F) : is_finite (b_mul np d d) = true ->
    let s := B2R (b_mul np d d) in
    0 <= s /\ B2R d * B2R d <= (1 + u) * s + eta /\ s <= (1 + u) * (B2R d * B2R d + eta).
  Proof. intros H s. unfold s. rewrite (mul_value d d H). apply rnd_sep. nra. Qed.

  Definition hill (ab : F * F) : F := b_mul np (lit 100) (fsquare (b_sub np (snd ab) (b_mul np (fst ab) (fst ab)))).
  Definition slope (ab : F * F) : F := fsquare (b_sub np (lit 1) (fst ab)).
  Lemma rose_fold (l : list (F * F)) : forall s,
    fold_left (rose np) l s = fold_left (b_add np) (flat_map (fun ab => [hill ab; slope ab]) l) s.
  Proof. induction l as [|ab l IH]; intros s; [reflexivity|]. cbn [fold_left flat_map app]. rewrite IH. reflexivity. Qed.

  (** Chains of two relative roundings and underflows. *)
  Lemma chain4 (a b c d N1 N2 : R) : 0 <= a -> 0 <= b -> 0 <= c -> 0 <= d -> 0 <= N1 -> 0 <= N2 ->
    a <= (1 + u) * (b + N1) -> b <= (1 + u) * (c + N2) -> c <= (1 + u) ^ 2 * d ->
    a <= (1 + u) ^ 4 * (d + (N1 + N2)).
  Proof.
    intros A B C D M1 M2 H1 H2 H3. pose proof (bpow_gt_0 radix2 (- prec)) as U.
    pose proof (pow_u (prec := prec) 2) as P2.
    assert (H2' : b + N1 <= (1 + u) * (c + (N1 + N2))) by nra.
    assert (H3' : c + (N1 + N2) <= (1 + u) ^ 2 * (d + (N1 + N2))) by nra.
    eapply Rle_trans; [exact H1|].
    replace ((1 + u) ^ 4 * (d + (N1 + N2))) with ((1 + u) * ((1 + u) * ((1 + u) ^ 2 * (d + (N1 + N2))))) by ring.
    apply Rmult_le_compat_l; [lra|]. eapply Rle_trans; [exact H2'|]. apply Rmult_le_compat_l; [lra|]. exact H3'.
  Qed.
  Lemma chain4' (a b c d N1 N2 : R) : 0 <= a -> 0 <= b -> 0 <= c -> 0 <= d -> 0 <= N1 -> 0 <= N2 ->
    b <= (1 + u) * a + N1 -> c <= (1 + u) * b + N2 -> d <= (1 + u) ^ 2 * c ->
    d <= (1 + u) ^ 4 * (a + (N1 + N2)).
  Proof.
    intros A B C D M1 M2 H1 H2 H3. pose proof (bpow_gt_0 radix2 (- prec)) as U.
    pose proof (pow_u (prec := prec) 2) as P2.
    eapply Rle_trans; [exact H3|].
    replace ((1 + u) ^ 4 * (a + (N1 + N2))) with ((1 + u) ^ 2 * ((1 + u) * ((1 + u) * (a + (N1 + N2))))) by ring.
    apply Rmult_le_compat_l; [lra|]. eapply Rle_trans; [exact H2|]. nra.
  Qed.

  Definition valley (ab : F * F) : R := 10 * (B2R (snd ab) - B2R (b_mul np (fst ab) (fst ab))).
  Lemma lit_value n : In n [1; 100]%Z -> B2R (lit n : F) = IZR n.
  Proof.
    intros H. rewrite Hlit by (simpl in *; tauto). apply of_Z_exact. pose proof (pow24 Hprec) as P. simpl (2 ^ 24)%Z in P.
    simpl in H. destruct H as [<-|[<-|[]]]; lia.
  Qed.
  Lemma hill_near ab : is_finite (hill ab) = true ->
    0 <= B2R (hill ab) /\
    B2R (hill ab) <= (1 + u) ^ 4 * (valley ab * valley ab + 101 * eta) /\
    valley ab * valley ab <= (1 + u) ^ 4 * (B2R (hill ab) + 101 * eta).
  Proof.
    intros H. unfold hill in *. pose proof (mul_value _ _ H) as E. destruct (mul_finite_args np _ _ H) as [_ Fs].
    change (fsquare ?d) with (b_mul np d d) in *. destruct (square_near _ Fs) as (S0 & S1 & S2).
    destruct (mul_finite_args np _ _ Fs) as [Fd _]. destruct (sub_near np _ _ Fd) as [D1 D2]. cbv zeta in *.
    set (d := b_sub np (snd ab) (b_mul np (fst ab) (fst ab))) in *.
    unfold valley. set (r := B2R (snd ab) - B2R (b_mul np (fst ab) (fst ab))) in *.
    rewrite (lit_value 100) in E by (simpl; auto).
    destruct (rnd_sep (prec := prec) (emax := emax) (100 * B2R (b_mul np d d))) as (R0 & R1 & R2); [lra|]. rewrite <- E in R0, R1, R2.
    set (h := B2R (b_mul np (lit 100) (b_mul np d d))) in *. set (s := B2R (b_mul np d d)) in *.
    pose proof (eta_pos (prec := prec) (emax := emax)) as Et. set (dd := B2R d * B2R d) in *.
    assert (DD : 0 <= dd) by (unfold dd; nra). assert (RR : 0 <= r * r) by nra.
    replace (10 * r * (10 * r)) with (100 * (r * r)) by ring.
    replace (101 * eta) with (eta + 100 * eta) by ring.
    split; [exact R0|]. split.
    - apply (chain4 h (100 * s) (100 * dd) (100 * (r * r)) eta (100 * eta)); lra.
    - apply (chain4' h (100 * s) (100 * dd) (100 * (r * r)) eta (100 * eta)); lra.
  Qed.
  Lemma slope_near ab : is_finite (slope ab) = true ->
    0 <= B2R (slope ab) /\
    B2R (slope ab) <= (1 + u) ^ 4 * ((1 - B2R (fst ab)) * (1 - B2R (fst ab)) + eta) /\
    (1 - B2R (fst ab)) * (1 - B2R (fst ab)) <= (1 + u) ^ 4 * (B2R (slope ab) + eta).
  Proof.
    intros H. unfold slope in *. change (fsquare ?d) with (b_mul np d d) in *.
    destruct (square_near _ H) as (S0 & S1 & S2).
    destruct (mul_finite_args np _ _ H) as [Fd _]. destruct (sub_near np _ _ Fd) as [D1 D2]. cbv zeta in *.
    set (d := b_sub np (lit 1) (fst ab)) in *. rewrite (lit_value 1) in D1, D2 by (simpl; auto).
    pose proof (eta_pos (prec := prec) (emax := emax)) as Et. set (dd := B2R d * B2R d) in *.
    set (r := 1 - B2R (fst ab)) in *. set (s := B2R (b_mul np d d)) in *.
    assert (DD : 0 <= dd) by (unfold dd; nra). assert (RR : 0 <= r * r) by nra.
    pose proof (bpow_gt_0 radix2 (- prec)) as U.
    replace eta with (0 + eta) by ring.
    split; [exact S0|]. split.
    - apply (chain4 s s dd (r * r) 0 eta); nra.
    - apply (chain4' s s dd (r * r) 0 eta); nra.
  Qed.
  Definition residuals (l : list (F * F)) : list R := flat_map (fun ab => [valley ab; 1 - B2R (fst ab)]) l.
  Lemma terms_near (l : list (F * F)) : Forall (fun v => is_finite v = true) (flat_map (fun ab => [hill ab; slope ab]) l) ->
    let T := flat_map (fun ab => [hill ab; slope ab]) l in
    Forall (fun v => 0 <= B2R v) T /\
    rsum T <= (1 + u) ^ 4 * (sq (residuals l) + INR (length l) * (102 * eta)) /\
    sq (residuals l) <= (1 + u) ^ 4 * (rsum T + INR (length l) * (102 * eta)).
  Proof.
    pose proof (pow_u (prec := prec) 4) as P4.
    induction l as [|ab l IH]; intros H; cbv zeta in *.
    - cbn [flat_map residuals map length]. split; [constructor|]. unfold real_sum, sq. simpl. lra.
    - cbn [flat_map app] in H. inversion_clear H as [|? ? H1 H']. inversion_clear H' as [|? ? H2 H3].
      destruct (IH H3) as (I1 & I2 & I3). destruct (hill_near ab H1) as (A0 & A1 & A2). destruct (slope_near ab H2) as (B0 & B1 & B2).
      unfold residuals in *. cbn [flat_map app map length]. rewrite S_INR. cbn [sq fold_right].
      fold (sq (flat_map (fun ab => [valley ab; 1 - B2R (fst ab)]) l)).
      set (Q := sq (flat_map (fun ab => [valley ab; 1 - B2R (fst ab)]) l)) in *.
      change (real_sum (?h :: ?t)) with (h + real_sum t). change (real_sum (?h :: ?t)) with (h + real_sum t).
      split; [constructor; auto|]. set (T := real_sum _) in *.
      set (c := (1 + u) ^ 4) in *. split; nra.
  Qed.
  Lemma terms_length {A B} (f g : A -> B) l : length (flat_map (fun a => [f a; g a]) l) = (2 * length l)%nat.
  Proof. induction l as [|a l IH]; [reflexivity|]. cbn [flat_map app length]. rewrite IH. lia. Qed.
  Definition residuals_real (l : list (F * F)) : list R :=
    flat_map (fun ab => [10 * (B2R (snd ab) - (B2R (fst ab))²); 1 - B2R (fst ab)]) l.
  Lemma residuals_close (l : list (F * F)) b : 0 <= b ->
    Forall (fun ab => is_finite (b_mul np (fst ab) (fst ab)) = true /\ Rabs (B2R (fst ab)) <= b) l ->
    Forall2 (fun x y => Rabs (x - y) <= 0 * Rabs y + 10 * (u * b² + eta)) (residuals l) (residuals_real l).
  Proof.
    intros B0. pose proof (eta_pos (prec := prec) (emax := emax)) as Et. pose proof (bpow_gt_0 radix2 (- prec)) as U.
    assert (K : 0 <= u * b²) by (apply Rmult_le_pos; [lra|apply Rle_0_sqr]).
    induction 1 as [|ab l [H B] _ IH]; [constructor|]. cbn [residuals residuals_real flat_map app].
    constructor; [|constructor; [|exact IH]].
    - unfold valley. rewrite (mul_value _ _ H). set (a := B2R (fst ab)) in *. fold (Rsqr a).
      replace (10 * (B2R (snd ab) - rnd a²) - 10 * (B2R (snd ab) - a²)) with (- (10 * (rnd a² - a²))) by ring.
      rewrite Rabs_Ropp, Rabs_mult, (Rabs_pos_eq 10) by lra. rewrite Rmult_0_l, Rplus_0_l.
      apply Rmult_le_compat_l; [lra|].
      eapply Rle_trans; [apply rnd_near|]. apply Rplus_le_compat_r. apply Rmult_le_compat_l; [lra|].
      rewrite Rabs_pos_eq by apply Rle_0_sqr. apply Rsqr_le_abs_1. rewrite (Rabs_pos_eq b) by exact B0. exact B.
    - rewrite Rminus_diag_eq by reflexivity. rewrite Rabs_R0. lra.
  Qed.
  Lemma rosenbrock_real_sq (x : list F) : rosenbrock_real (map B2R x) = sq (residuals_real (combine x (tl x))).
  Proof.
    unfold rosenbrock_real. replace (tl (map B2R x)) with (map B2R (tl x)) by (destruct x; reflexivity).
    generalize (tl x) as y. induction x as [|a x IH]; intros y; [reflexivity|]. destruct y as [|b y]; [reflexivity|].
    cbn [map combine]. change (real_sum (?h :: ?t)) with (h + real_sum t). rewrite IH.
    change (residuals_real ((a, b) :: combine x y))
      with (10 * (B2R b - (B2R a)²) :: (1 - B2R a) :: residuals_real (combine x y)).
    change (sq (?h :: ?t)) with (h * h + sq t). change (sq (?h :: ?t)) with (h * h + sq t).
    cbn [fst snd]. unfold Rsqr. ring.
  Qed.

  Lemma sqrt_split k a b s : 0 <= a -> 0 <= b -> 0 <= s -> a <= (1 + u) ^ (2 * k) * (b + s) ->
    sqrt a <= (1 + u) ^ k * (sqrt b + sqrt s).
  Proof.
    intros A B S H. pose proof (pow_u (prec := prec) k) as P. pose proof (sqrt_pos b). pose proof (sqrt_pos s).
    rewrite <- (sqrt_square ((1 + u) ^ k * (sqrt b + sqrt s))) by (apply Rmult_le_pos; lra).
    apply sqrt_le_1_alt. eapply Rle_trans; [exact H|].
    replace (2 * k)%nat with (k + k)%nat by lia. rewrite pow_add.
    replace ((1 + u) ^ k * (sqrt b + sqrt s) * ((1 + u) ^ k * (sqrt b + sqrt s)))
      with ((1 + u) ^ k * (1 + u) ^ k * ((sqrt b + sqrt s) * (sqrt b + sqrt s))) by ring.
    apply Rmult_le_compat_l; [nra|]. pose proof (sqrt_sqrt b B). pose proof (sqrt_sqrt s S). nra.
  Qed.

  Lemma rosenbrock_close (x : list F) r b : x <> [] -> Forall (fun v => Rabs (B2R v) <= b) x ->
    rosenbrock_g x = Ret r -> is_finite r = true ->
    0 <= B2R r /\
    close prec (length x + 1) (rosenbrock_slack prec emax (length x - 1) b) (sqrt (B2R r)) (sqrt (rosenbrock_real (map B2R x))).
  Proof.
    intros Nx Hb E H. rewrite (rosenbrock_float np Hlit x Nx) in E. injection E as <-. rewrite rose_fold in *.
    rewrite rosenbrock_real_sq.
    assert (B0 : 0 <= b) by (destruct x as [|v x]; [congruence|]; inversion Hb; subst; eapply Rle_trans; [apply Rabs_pos|eassumption]).
    set (l := combine x (tl x)) in *.
    assert (Ll : length l = (length x - 1)%nat) by (unfold l; rewrite combine_length; destruct x; cbn [length tl]; lia).
    destruct (sums np _ _ H) as [_ Fs].
    destruct (terms_near l Fs) as (S1 & S2 & S3).
    destruct (sum_bounds np _ _ H) as (T1 & T2 & T3); [simpl; lra|exact S1|]. cbv zeta in *.
    rewrite terms_length in T2, T3. change (B2R zero) with 0 in T2, T3. rewrite Rplus_0_l in T2, T3.
    assert (Fin : Forall (fun ab => is_finite (b_mul np (fst ab) (fst ab)) = true /\ Rabs (B2R (fst ab)) <= b) l).
    { rewrite Forall_forall in *. intros ab Hin. split.
      - assert (Hh : is_finite (hill ab) = true) by (apply Fs; rewrite in_flat_map; exists ab; simpl; auto).
        unfold hill in Hh. apply mul_finite_args in Hh. destruct Hh as [_ Hh]. change (fsquare ?d) with (b_mul np d d) in Hh.
        apply mul_finite_args in Hh. destruct Hh as [Hh _]. apply sub_finite_args in Hh. apply Hh.
      - apply Hb. destruct ab as [p q]. unfold l in Hin. apply in_combine_l in Hin. exact Hin. }
    pose proof (residuals_close l b B0 Fin) as RC.
    pose proof (eta_pos (prec := prec) (emax := emax)) as Et. pose proof (bpow_gt_0 radix2 (- prec)) as U.
    assert (K0 : 0 <= 10 * (u * b² + eta)) by (pose proof (Rle_0_sqr b); nra).
    pose proof (length2_near _ _ 0 _ (Rle_refl 0) K0 RC) as LN. rewrite Rmult_0_l, Rplus_0_l in LN.
    assert (Lr : length (residuals_real l) = (2 * length l)%nat) by (unfold residuals_real; apply terms_length).
    rewrite Lr in LN.
    set (T := rsum (flat_map (fun ab => [hill ab; slope ab]) l)) in *.
    set (r := B2R (fold_left (b_add np) (flat_map (fun ab => [hill ab; slope ab]) l) zero)) in *.
    change (length2 (residuals l)) with (sqrt (sq (residuals l))) in LN.
    change (length2 (residuals_real l)) with (sqrt (sq (residuals_real l))) in LN.
    set (Q := sq (residuals l)) in *. set (W := sq (residuals_real l)) in *.
    assert (Q0 : 0 <= Q) by apply sq_pos. assert (W0 : 0 <= W) by apply sq_pos.
    assert (N0 : 0 <= INR (length l) * (102 * eta)) by (apply Rmult_le_pos; [apply pos_INR|lra]).
    assert (T0 : 0 <= T).
    { unfold T. clear -S1. induction S1 as [|y l' H _ IH]; [apply Rle_refl|]. cbn [map].
      change (real_sum (?h :: ?t)) with (h + real_sum t). lra. }
    set (N := INR (length l) * (102 * eta)) in *.
    pose proof (pow_u (prec := prec) (2 * length l)) as P.
    split; [exact T1|].
    replace (length x + 1)%nat with (length l + 2)%nat
      by (rewrite Ll; destruct x; [congruence|]; cbn [length]; lia).
    rewrite <- Ll. unfold rosenbrock_slack. rewrite tiny_eta. fold N. unfold roundoff.
    set (t := sqrt (INR (2 * length l)) * (10 * (u * b² + eta))) in *.
    pose proof (pow_u (prec := prec) (length l + 2)) as P'.
    assert (E1 : sqrt r <= (1 + u) ^ (length l + 2) * (sqrt Q + sqrt N)).
    { apply sqrt_split; auto. replace (2 * (length l + 2))%nat with (2 * length l + 4)%nat by lia. rewrite pow_add, Rmult_assoc.
      eapply Rle_trans; [exact T3|]. apply Rmult_le_compat_l; lra. }
    assert (E2 : sqrt Q <= (1 + u) ^ (length l + 2) * (sqrt r + sqrt N)).
    { apply sqrt_split; auto. replace (2 * (length l + 2))%nat with (4 + 2 * length l)%nat by lia. rewrite pow_add, Rmult_assoc.
      eapply Rle_trans; [exact S3|]. apply Rmult_le_compat_l; [apply pow_le; lra|].
      clear - T2 P N0. set (p := (1 + u) ^ (2 * length l)) in *. rewrite Rmult_plus_distr_l.
      apply Rplus_le_compat; [exact T2|]. rewrite <- (Rmult_1_l N) at 1. apply Rmult_le_compat_r; lra. }
    apply Rabs_le_inv in LN. unfold close. set (c := (1 + u) ^ (length l + 2)) in *. pose proof (sqrt_pos N) as SN. split.
    - eapply Rle_trans; [exact E1|]. apply Rmult_le_compat_l; lra.
    - assert (K : sqrt W <= c * (sqrt r + sqrt N) + t) by lra. assert (t0 : 0 <= t) by (unfold t; apply Rmult_le_pos; [apply sqrt_pos|lra]).
      nra.
  Qed.

  (** ** Absolute errors *)
  Lemma mul_error (x y : F) : is_finite (b_mul np x y) = true ->
    Rabs (B2R (b_mul np x y) - B2R x * B2R y) <= u * Rabs (B2R x * B2R y) + eta.
  Proof. intros H. rewrite (mul_value x y H). apply rnd_near. Qed.
  Lemma plus_error (a b : F) : Rabs (rnd (B2R a + B2R b) - (B2R a + B2R b)) <= u * Rabs (B2R a + B2R b).
  Proof.
    destruct (FLT_plus_error_N_ex radix2 emin prec (fun z => negb (Z.even z)) (B2R a) (B2R b)) as [e [E1 E2]];
      [apply format_B2R|apply format_B2R|].
    change (rnd (B2R a + B2R b) = (B2R a + B2R b) * (1 + e)) in E2. apply (eps_u (prec := prec)) in E1.
    rewrite E2. replace ((B2R a + B2R b) * (1 + e) - (B2R a + B2R b)) with (e * (B2R a + B2R b)) by ring.
    rewrite Rabs_mult. apply Rmult_le_compat_r; [apply Rabs_pos|exact E1].
  Qed.
  Lemma minus_error (a b : F) : Rabs (rnd (B2R a - B2R b) - (B2R a - B2R b)) <= u * Rabs (B2R a - B2R b).
  Proof.
    destruct (FLT_plus_error_N_ex radix2 emin prec (fun z => negb (Z.even z)) (B2R a) (- B2R b)) as [e [E1 E2]];
      [apply format_B2R|apply generic_format_opp, format_B2R|].
    change (rnd (B2R a - B2R b) = (B2R a - B2R b) * (1 + e)) in E2. apply (eps_u (prec := prec)) in E1.
    rewrite E2. replace ((B2R a - B2R b) * (1 + e) - (B2R a - B2R b)) with (e * (B2R a - B2R b)) by ring.
    rewrite Rabs_mult. apply Rmult_le_compat_r; [apply Rabs_pos|exact E1].
  Qed.
  Lemma add_error (x y : F) : is_finite (b_add np x y) = true ->
    Rabs (B2R (b_add np x y) - (B2R x + B2R y)) <= u * Rabs (B2R x + B2R y).
  Proof.
    intros H. destruct (add_finite_args np x y H) as [Fx Fy].
    destruct (add_correct np x y Fx Fy (add_finite_bound np x y Fx Fy H)) as [_ E]. rewrite E. apply plus_error.
  Qed.
  Lemma sub_error (x y : F) : is_finite (b_sub np x y) = true ->
    Rabs (B2R (b_sub np x y) - (B2R x - B2R y)) <= u * Rabs (B2R x - B2R y).
  Proof.
    intros H. destruct (sub_finite_args np x y H) as [Fx Fy].
    assert (E : B2R (b_sub np x y) = rnd (B2R x - B2R y)).
    { apply sub_correct; auto. destruct (key_sub np x y Fx Fy) as [_ K]. rewrite key_finite in K by exact H.
      apply sat_finite. rewrite <- K. apply B2R_bound. }
    rewrite E. apply minus_error.
  Qed.
  Lemma abs_sum a b A B : Rabs a <= A -> Rabs b <= B -> Rabs (a + b) <= A + B.
  Proof. intros. eapply Rle_trans; [apply Rabs_triang|lra]. Qed.
  Lemma abs_diff a b A B : Rabs a <= A -> Rabs b <= B -> Rabs (a - b) <= A + B.
  Proof. intros. unfold Rminus. apply abs_sum; [auto|now rewrite Rabs_Ropp]. Qed.
  Lemma abs_prod a b A B : Rabs a <= A -> Rabs b <= B -> Rabs (a * b) <= A * B.
  Proof. intros. rewrite Rabs_mult. apply Rmult_le_compat; auto using Rabs_pos. Qed.

  (** ** Rastrigin *)
  Context {LM : Libm F}.
  Notation w := (b_mul np (b_of_Z 2) (fof_f64 pi_const) : F).
  Notation om := (2 * Binary.B2R 53 1024 pi_const).
  Lemma cos_lip a b : Rabs (cos a - cos b) <= Rabs (a - b).
  Proof.
    destruct (Rle_or_lt a b) as [L|L].
    - destruct (Req_dec a b) as [->|N]; [rewrite !Rminus_diag_eq by reflexivity; rewrite Rabs_R0; lra|].
      destruct (MVT_cor2 cos (fun x => - sin x) a b ltac:(lra)) as [c [E _]].
      { intros. apply derivable_pt_lim_cos. }
      rewrite Rabs_minus_sym, E, Rabs_mult, Rabs_Ropp, (Rabs_minus_sym a). rewrite <- (Rmult_1_l (Rabs (b - a))) at 2.
      apply Rmult_le_compat_r; [apply Rabs_pos|]. apply Rabs_le, SIN_bound.
    - destruct (MVT_cor2 cos (fun x => - sin x) b a ltac:(lra)) as [c [E _]].
      { intros. apply derivable_pt_lim_cos. }
      rewrite E, Rabs_mult, Rabs_Ropp. rewrite <- (Rmult_1_l (Rabs (a - b))) at 2.
      apply Rmult_le_compat_r; [apply Rabs_pos|]. apply Rabs_le, SIN_bound.
  Qed.
  Lemma sin_lip a b : Rabs (sin a - sin b) <= Rabs (a - b).
  Proof.
    rewrite <- !cos_shift. eapply Rle_trans; [apply cos_lip|]. right. rewrite Rabs_minus_sym. f_equal. ring.
  Qed.
  Variables (b : Z) (e : R).
  Notation B := (IZR b).
  Hypothesis Hb : (0 <= b)%Z.
  Section Waves.
    Hypothesis W8 : within 8 w.
    Hypothesis Wom : Rabs (B2R w - om) <= 8 * u.
    Hypothesis Hcos : trig_near cos e (8 * B) (fcos : F -> F).
    Hypothesis Lb : (8 * b <= 2 ^ prec)%Z.
    Lemma wave_error a s v : within a s -> within b v -> (a + (b * b + 10) <= 2 ^ prec)%Z ->
      within (a + (b * b + 10)) (wave np s v) /\
      Rabs (B2R (wave np s v) - (B2R s + ((B2R v)² - 10 * cos (om * B2R v)))) <=
        10 * e + u * (B² + 160 * B + 10 + 2 * IZR (a + (b * b + 10))) + 12 * eta.
    Proof.
      intros Hs Hv L. pose proof (within_pos _ _ Hs) as A0. destruct Hcos as [Cb Cn].
      pose proof (pow24 Hprec) as P24. simpl (2 ^ 24)%Z in P24.
      pose proof (bpow_gt_0 radix2 (- prec)) as U. pose proof (eta_pos (prec := prec) (emax := emax)) as Et.
      assert (Wv : within (8 * b) (b_mul np w v)) by (apply within_mul; auto).
      assert (Wc : within 1 (fcos (b_mul np w v) : F)) by (destruct (Cb (b_mul np w v)) as [C1 C2]; [apply Wv|split; auto]).
      assert (W10 : within 10 (b_of_Z 10 : F)) by (apply within_int; lia).
      assert (Wt : within (10 * 1) (b_mul np (b_of_Z 10) (fcos (b_mul np w v)))) by (apply within_mul; auto; lia).
      assert (Wq : within (b * b) (b_mul np v v)) by (apply within_mul; auto; lia).
      assert (Wp : within (a + b * b) (b_add np s (b_mul np v v))) by (apply within_add; auto; lia).
      assert (Ww : within (a + b * b + 10 * 1) (wave np s v)) by (apply within_sub; auto; lia).
      split; [eapply within_weaken; [exact Ww|lia]|].
      pose proof (mul_error _ _ (proj1 Wv)) as E1. pose proof (Cn _ (proj1 Wv)) as E2.
      pose proof (mul_error _ _ (proj1 Wt)) as E3. pose proof (mul_error _ _ (proj1 Wq)) as E4.
      pose proof (add_error _ _ (proj1 Wp)) as E5. pose proof (sub_error _ _ (proj1 Ww)) as E6. fold (wave np s v) in E6.
      destruct (of_Z_exact (prec := prec) (emax := emax) 10 ltac:(lia)) as [_ V10]. rewrite V10 in E3.
      destruct Wv as [_ Bv], Wc as [_ Bc], Wt as [_ Bt], Wq as [_ Bq], Wp as [_ Bp], Ww as [_ Bw].
      destruct Hs as [_ Bs], Hv as [_ Bx], W8 as [_ B8].
      specialize (E2 ltac:(rewrite mult_IZR in Bv; lra)).
      set (c := B2R (fcos (b_mul np w v))) in *. set (y := B2R (b_mul np w v)) in *.
      set (t := B2R (b_mul np (b_of_Z 10) (fcos (b_mul np w v)))) in *. set (q := B2R (b_mul np v v)) in *.
      set (p := B2R (b_add np s (b_mul np v v))) in *. set (z := B2R (wave np s v)) in *.
      set (x := B2R v) in *. set (s' := B2R s) in *. set (w' := B2R w) in *.
      rewrite !plus_IZR, !mult_IZR in *. set (A := IZR a) in *. fold (Rsqr B) in *. fold (Rsqr x) in *.
      pose proof (Rle_0_sqr B) as BB. assert (B0 : 0 <= B) by now apply IZR_le.
      assert (A0' : 0 <= A) by now apply IZR_le.
      (* the argument *)
      assert (Y : Rabs (y - om * x) <= 16 * (u * B) + eta).
      { replace (y - om * x) with ((y - w' * x) + (w' - om) * x) by ring.
        eapply Rle_trans; [apply Rabs_triang|].
        pose proof (abs_prod _ _ _ _ Wom Bx) as K1. pose proof (abs_prod _ _ _ _ B8 Bx) as K2.
        assert (K3 : u * Rabs (w' * x) <= u * (8 * B)) by (apply Rmult_le_compat_l; lra). lra. }
      assert (C : Rabs (c - cos (om * x)) <= e + (16 * (u * B) + eta)).
      { replace (c - cos (om * x)) with ((c - cos y) + (cos y - cos (om * x))) by ring.
        apply abs_sum; [exact E2|]. eapply Rle_trans; [apply cos_lip|exact Y]. }
      assert (T : Rabs (t - 10 * cos (om * x)) <= 10 * u + eta + 10 * (e + (16 * (u * B) + eta))).
      { replace (t - 10 * cos (om * x)) with ((t - 10 * c) + 10 * (c - cos (om * x))) by ring.
        apply abs_sum.
        - eapply Rle_trans; [exact E3|]. apply Rplus_le_compat_r. rewrite Rabs_mult, (Rabs_pos_eq 10) by lra.
          rewrite (Rmult_comm 10 u). apply Rmult_le_compat_l; lra.
        - rewrite Rabs_mult, (Rabs_pos_eq 10) by lra. apply Rmult_le_compat_l; lra. }
      assert (Q : Rabs (q - x²) <= u * B² + eta).
      { eapply Rle_trans; [exact E4|]. apply Rplus_le_compat_r. apply Rmult_le_compat_l; [lra|].
        apply (abs_prod x x B B); auto. }
      assert (Pp : Rabs (p - (s' + q)) <= u * (A + (B² + 10))).
      { eapply Rle_trans; [exact E5|]. apply Rmult_le_compat_l; [lra|].
        eapply Rle_trans; [apply (abs_sum _ _ _ _ Bs Bq)|]. lra. }
      assert (Z : Rabs (z - (p - t)) <= u * (A + (B² + 10))).
      { eapply Rle_trans; [exact E6|]. apply Rmult_le_compat_l; [lra|].
        eapply Rle_trans; [apply (abs_diff _ _ _ _ Bp Bt)|]. lra. }
      replace (z - (s' + (x² - 10 * cos (om * x)))) with
        ((z - (p - t)) + ((p - (s' + q)) + ((q - x²) - (t - 10 * cos (om * x))))) by ring.
      eapply Rle_trans; [apply (abs_sum _ _ _ _ Z (abs_sum _ _ _ _ Pp (abs_diff _ _ _ _ Q T)))|].
      right. ring.
    Qed.
    Lemma waves_error (M : R) (x : list F) : Forall (within b) x -> forall a s (S D : R), within a s ->
      (a + Z.of_nat (length x) * (b * b + 10) <= 2 ^ prec)%Z -> IZR (a + Z.of_nat (length x) * (b * b + 10)) <= M ->
      Rabs (B2R s - S) <= D ->
      within (a + Z.of_nat (length x) * (b * b + 10)) (fold_left (wave np) x s) /\
      Rabs (B2R (fold_left (wave np) x s) - (S + real_sum (map (fun v => v² - 10 * cos (om * v)) (map B2R x)))) <=
        D + INR (length x) * (10 * e + u * (B² + 160 * B + 10 + 2 * M) + 12 * eta).
    Proof.
      pose proof (bpow_gt_0 radix2 (- prec)) as U.
      induction 1 as [|v x Hv _ IH]; intros a s S D Hs L LM' H.
      - cbn [fold_left length map]. change (real_sum []) with 0. change (INR 0) with 0.
        split; [eapply within_weaken; [exact Hs|lia]|]. rewrite Rplus_0_r, Rmult_0_l, Rplus_0_r. exact H.
      - cbn [length] in *. cbn [fold_left map]. change (real_sum (?h :: ?t)) with (h + real_sum t).
        destruct (wave_error a s v Hs Hv) as [W1 W2]; [nia|].
        assert (Eq : (a + (b * b + 10) + Z.of_nat (length x) * (b * b + 10) = a + Z.of_nat (Datatypes.S (length x)) * (b * b + 10))%Z) by nia.
        set (tv := (B2R v)² - 10 * cos (om * B2R v)) in *.
        assert (Mb : IZR (a + (b * b + 10)) <= M) by (eapply Rle_trans; [|exact LM']; apply IZR_le; nia).
        destruct (IH (a + (b * b + 10))%Z (wave np s v) (S + tv)
                    (D + (10 * e + u * (B² + 160 * B + 10 + 2 * M) + 12 * eta)) W1) as [I1 I2].
        + lia.
        + rewrite Eq. exact LM'.
        + replace (B2R (wave np s v) - (S + tv)) with ((B2R s - S) + (B2R (wave np s v) - (B2R s + tv))) by ring.
          apply abs_sum; [exact H|]. eapply Rle_trans; [exact W2|].
          assert (u * (B² + 160 * B + 10 + 2 * IZR (a + (b * b + 10))) <= u * (B² + 160 * B + 10 + 2 * M))
            by (apply Rmult_le_compat_l; lra). lra.
        + split; [rewrite <- Eq; exact I1|]. rewrite S_INR.
          replace (S + (tv + real_sum (map (fun v0 => v0² - 10 * cos (om * v0)) (map B2R x))))
            with (S + tv + real_sum (map (fun v0 => v0² - 10 * cos (om * v0)) (map B2R x))) by ring.
          eapply Rle_trans; [exact I2|]. right. ring.
    Qed.
    Lemma rastrigin_real_split (r : list R) :
      rastrigin_real r = 10 * INR (length r) + real_sum (map (fun v => v² - 10 * cos (om * v)) r).
    Proof.
      unfold rastrigin_real. induction r as [|v r IH]; [cbn [map length]; change (real_sum []) with 0; simpl; ring|].
      cbn [map length]. change (real_sum (?h :: ?t)) with (h + real_sum t). rewrite IH, S_INR. ring.
    Qed.
    Lemma rastrigin_accurate (x : list F) : Forall (within b) x ->
      (Z.of_nat (length x) * (b ^ 2 + 20) <= 2 ^ prec)%Z ->
      Rabs (B2R (rastrigin_g x) - rastrigin_real (map B2R x)) <= rastrigin_rounding prec emax (length x) B e.
    Proof.
      intros H L. pose proof (bpow_gt_0 radix2 (- prec)) as U. pose proof (eta_pos (prec := prec) (emax := emax)) as Et.
      pose proof (pow24 Hprec) as P24. simpl (2 ^ 24)%Z in P24.
      pose proof (rastrigin_within np Hlit Hprec b x W8 (proj1 Hcos) H Lb L) as WF.
      rewrite (rastrigin_fold np Hlit) in *. rewrite rastrigin_real_split, map_length.
      set (n := length x) in *. set (N := Z.of_nat n) in *.
      assert (N0 : (0 <= N)%Z) by lia.
      destruct (waves_error (IZR (N * (b * b + 10))) x H 0 zero 0 0) as [V1 V2];
        [apply within_zero|fold n; fold N; nia|fold n; fold N; rewrite Z.add_0_l; lra|simpl; rewrite Rminus_0_r, Rabs_R0; lra|].
      fold n in V1, V2. fold N in V1. rewrite Z.add_0_l in V1. rewrite !Rplus_0_l in V2.
      assert (WN : within N (b_of_Z N : F)) by (apply within_int; nia).
      assert (W10 : within 10 (b_of_Z 10 : F)) by (apply within_int; lia).
      assert (E10 : B2R (b_mul np (b_of_Z 10) (b_of_Z N)) = 10 * INR n).
      { assert (Wm : within (10 * N) (b_mul np (b_of_Z 10) (b_of_Z N))) by (apply within_mul; auto; nia).
        rewrite (mul_value _ _ (proj1 Wm)).
        destruct (of_Z_exact (prec := prec) (emax := emax) 10 ltac:(lia)) as [_ ->].
        destruct (of_Z_exact (prec := prec) (emax := emax) N ltac:(nia)) as [_ ->].
        rewrite <- mult_IZR, (rnd_format (prec := prec) (emax := emax)) by (apply format_IZR; nia).
        rewrite mult_IZR. unfold N. now rewrite <- INR_IZR_INZ. }
      pose proof (add_error _ _ (proj1 WF)) as E. rewrite E10 in E.
      set (S := B2R (fold_left (wave np) x zero)) in *. set (r := B2R (b_add np _ _)) in *.
      set (T := real_sum _) in *.
      destruct V1 as [_ V1]. fold S in V1.
      assert (BN : IZR (N * (b * b + 10)) = INR n * (B² + 10)).
      { rewrite mult_IZR, plus_IZR, mult_IZR. unfold N. rewrite <- INR_IZR_INZ. reflexivity. }
      rewrite BN in V1, V2.
      assert (K : Rabs (10 * INR n + S) <= INR n * (B² + 20)).
      { eapply Rle_trans; [apply abs_sum; [|exact V1]|].
        - rewrite Rabs_pos_eq; [apply Rle_refl|]. pose proof (pos_INR n). lra.
        - right. ring. }
      replace (r - (10 * INR n + T)) with ((r - (10 * INR n + S)) + (S - T)) by ring.
      eapply Rle_trans; [apply abs_sum; [exact E|exact V2]|].
      assert (K' : u * Rabs (10 * INR n + S) <= u * (INR n * (B² + 20))) by (apply Rmult_le_compat_l; lra).
      unfold rastrigin_rounding. rewrite tiny_eta. unfold roundoff. rewrite plus_INR, mult_INR. change (INR 2) with 2.
      pose proof (pos_INR n) as Nn. set (m := INR n) in *. pose proof (Rle_0_sqr B) as BB.
      assert (G : 0 <= m * (u * (m * 20) + 10 * u)) by (apply Rmult_le_pos; [lra|nra]).
      apply Rle_trans with (u * (m * (B² + 20)) + m * (10 * e + u * (B² + 160 * B + 10 + 2 * (m * (B² + 10))) + 12 * eta)); [lra|].
      replace (m * (10 * e + u * ((2 * m + 2) * (B² + 20) + 160 * B) + 12 * eta)) with
        (u * (m * (B² + 20)) + m * (10 * e + u * (B² + 160 * B + 10 + 2 * (m * (B² + 10))) + 12 * eta) + m * (u * (m * 20) + 10 * u)) by ring.
      lra.
    Qed.
  End Waves.

  (** ** Schwefel *)
  Section Sines.
    Notation con := (Binary.B2R 53 1024 schwefel_const).
    Hypothesis Wc : within 419 (fof_f64 schwefel_const : F).
    Hypothesis Wcon : Rabs (B2R (fof_f64 schwefel_const : F) - con) <= 419 * u.
    Hypothesis Hsin : trig_near sin e B (fsin : F -> F).
    Definition swing (acc xi : F) : F := b_add np acc (b_mul np xi (fsin (b_sqrt np (b_abs xi)))).
    Lemma schwefel_fold (x : list F) :
      schwefel_g x = b_sub np (b_mul np (fof_f64 schwefel_const) (b_of_Z (Z.of_nat (length x)))) (fold_left swing x zero).
    Proof. reflexivity. Qed.
    Lemma abs_value (v : F) : B2R (b_abs v) = Rabs (B2R v).
    Proof.
      destruct v as [s|[|]|s pl h|s m ex h]; simpl; rewrite ?Rabs_R0; auto.
      rewrite <- F2R_Zabs, abs_cond_Zopp. reflexivity.
    Qed.
    Lemma root_value (v : F) : is_finite v = true ->
      is_finite (b_sqrt np (b_abs v)) = true /\ B2R (b_sqrt np (b_abs v)) = rnd (sqrt (Rabs (B2R v))).
    Proof.
      intros H. unfold b_sqrt.
      pose proof (Binary.Bsqrt_correct prec emax Hp He (np_sqrt np) mode_NE (b_abs v)) as [Q1 [Q2 _]].
      rewrite abs_value in Q1. split; [|exact Q1].
      destruct v as [s|s|s pl h|s m ex h]; try discriminate; [reflexivity|]. unfold is_finite. exact Q2.
    Qed.
    Lemma sqrt_le_self b' : 1 <= b' -> sqrt b' <= b'.
    Proof.
      intros H. rewrite <- (sqrt_square b') at 2 by lra. apply sqrt_le_1_alt. nra.
    Qed.
    Lemma swing_error a s v : within a s -> within b v -> (a + b <= 2 ^ prec)%Z ->
      within (a + b) (swing s v) /\
      Rabs (B2R (swing s v) - (B2R s + B2R v * sin (sqrt (Rabs (B2R v))))) <=
        B * e + u * (B * sqrt B + B + IZR (a + b)) + eta.
    Proof.
      intros Hs Hv L. pose proof (within_pos _ _ Hs) as A0. destruct Hsin as [Cb Cn].
      pose proof (bpow_gt_0 radix2 (- prec)) as U. pose proof (eta_pos (prec := prec) (emax := emax)) as Et.
      destruct (root_value v (proj1 Hv)) as [Fg Vg].
      assert (Wg : within 1 (fsin (b_sqrt np (b_abs v)) : F)) by (destruct (Cb _ Fg) as [C1 C2]; split; auto).
      assert (Wm : within (b * 1) (b_mul np v (fsin (b_sqrt np (b_abs v))))) by (apply within_mul; auto; lia).
      assert (Ws : within (a + b * 1) (swing s v)) by (apply within_add; auto; lia).
      rewrite Z.mul_1_r in Ws. split; [exact Ws|].
      assert (B0 : 0 <= B) by now apply IZR_le.
      destruct Hv as [_ Bx], Wg as [_ Bg].
      pose proof (mul_error _ _ (proj1 Wm)) as E1. pose proof (add_error _ _ (proj1 Ws)) as E2. fold (swing s v) in E2.
      rewrite Z.mul_1_r in Wm. destruct Wm as [_ Bm], Hs as [_ Bs].
      assert (Sb : sqrt (Rabs (B2R v)) <= sqrt B) by now apply sqrt_le_1_alt.
      assert (SB : sqrt B <= B).
      { destruct (Z.eq_dec b 0) as [->|N]; [simpl; rewrite sqrt_0; lra|]. apply sqrt_le_self. apply (IZR_le 1). lia. }
      pose proof (sqrt_pos (Rabs (B2R v))) as Sp.
      assert (Bg' : Rabs (B2R (b_sqrt np (b_abs v))) <= B).
      { rewrite Vg. apply rnd_within; [lia|]. rewrite Rabs_pos_eq by exact Sp. lra. }
      pose proof (Cn _ Fg Bg') as E3.
      assert (E4 : Rabs (B2R (b_sqrt np (b_abs v)) - sqrt (Rabs (B2R v))) <= u * sqrt B).
      { destruct (rnd_sqrt Two (b_abs v)) as (R0 & R1 & R2); [rewrite abs_value; apply Rabs_pos|].
        rewrite abs_value in R0, R1, R2. rewrite Vg.
        set (q := sqrt (Rabs (B2R v))) in *. set (r := rnd q) in *.
        assert (r <= q + u * q) by lra.
        assert (q <= r + u * q).
        { pose proof (u_small (prec := prec)) as U2. destruct (Rle_or_lt q r); nra. }
        apply Rle_trans with (u * q); [apply Rabs_le; lra|]. apply Rmult_le_compat_l; lra. }
      set (g := B2R (b_sqrt np (b_abs v))) in *. set (q := sqrt (Rabs (B2R v))) in *.
      set (c := B2R (fsin (b_sqrt np (b_abs v)))) in *. set (m := B2R (b_mul np v (fsin (b_sqrt np (b_abs v))))) in *.
      set (z := B2R (swing s v)) in *. set (x := B2R v) in *. set (s' := B2R s) in *.
      rewrite plus_IZR in *. set (A := IZR a) in *.
      assert (C : Rabs (c - sin q) <= e + u * sqrt B).
      { replace (c - sin q) with ((c - sin g) + (sin g - sin q)) by ring.
        apply abs_sum; [exact E3|]. eapply Rle_trans; [apply sin_lip|exact E4]. }
      assert (Mm : Rabs (m - x * sin q) <= u * B + eta + B * (e + u * sqrt B)).
      { replace (m - x * sin q) with ((m - x * c) + x * (c - sin q)) by ring.
        apply abs_sum; [|now apply abs_prod].
        eapply Rle_trans; [exact E1|]. apply Rplus_le_compat_r. apply Rmult_le_compat_l; [lra|].
        eapply Rle_trans; [apply (abs_prod _ _ _ _ Bx Bg)|]. lra. }
      assert (Z : Rabs (z - (s' + m)) <= u * (A + B)).
      { eapply Rle_trans; [exact E2|]. apply Rmult_le_compat_l; [lra|]. now apply abs_sum. }
      replace (z - (s' + x * sin q)) with ((z - (s' + m)) + (m - x * sin q)) by ring.
      eapply Rle_trans; [apply (abs_sum _ _ _ _ Z Mm)|]. right. ring.
    Qed.
    Lemma swings_error (M : R) (x : list F) : Forall (within b) x -> forall a s (S D : R), within a s ->
      (a + Z.of_nat (length x) * b <= 2 ^ prec)%Z -> IZR (a + Z.of_nat (length x) * b) <= M ->
      Rabs (B2R s - S) <= D ->
      within (a + Z.of_nat (length x) * b) (fold_left swing x s) /\
      Rabs (B2R (fold_left swing x s) - (S + real_sum (map (fun v => v * sin (sqrt (Rabs v))) (map B2R x)))) <=
        D + INR (length x) * (B * e + u * (B * sqrt B + B + M) + eta).
    Proof.
      pose proof (bpow_gt_0 radix2 (- prec)) as U.
      induction 1 as [|v x Hv _ IH]; intros a s S D Hs L LM' H.
      - cbn [fold_left length map]. change (real_sum []) with 0. change (INR 0) with 0.
        split; [eapply within_weaken; [exact Hs|lia]|]. rewrite Rplus_0_r, Rmult_0_l, Rplus_0_r. exact H.
      - cbn [length] in *. cbn [fold_left map]. change (real_sum (?h :: ?t)) with (h + real_sum t).
        destruct (swing_error a s v Hs Hv) as [W1 W2]; [nia|].
        assert (Eq : (a + b + Z.of_nat (length x) * b = a + Z.of_nat (Datatypes.S (length x)) * b)%Z) by nia.
        set (tv := B2R v * sin (sqrt (Rabs (B2R v)))) in *.
        assert (Mb : IZR (a + b) <= M) by (eapply Rle_trans; [|exact LM']; apply IZR_le; nia).
        destruct (IH (a + b)%Z (swing s v) (S + tv)
                    (D + (B * e + u * (B * sqrt B + B + M) + eta)) W1) as [I1 I2].
        + lia.
        + rewrite Eq. exact LM'.
        + replace (B2R (swing s v) - (S + tv)) with ((B2R s - S) + (B2R (swing s v) - (B2R s + tv))) by ring.
          apply abs_sum; [exact H|]. eapply Rle_trans; [exact W2|].
          assert (u * (B * sqrt B + B + IZR (a + b)) <= u * (B * sqrt B + B + M))
            by (apply Rmult_le_compat_l; lra). lra.
        + split; [rewrite <- Eq; exact I1|]. rewrite S_INR.
          replace (S + (tv + real_sum (map (fun v0 => v0 * sin (sqrt (Rabs v0))) (map B2R x))))
            with (S + tv + real_sum (map (fun v0 => v0 * sin (sqrt (Rabs v0))) (map B2R x))) by ring.
          eapply Rle_trans; [exact I2|]. right. ring.
    Qed.
    Lemma schwefel_real_split (r : list R) :
      schwefel_real r = con * INR (length r) - real_sum (map (fun v => v * sin (sqrt (Rabs v))) r).
    Proof.
      unfold schwefel_real. induction r as [|v r IH]; [cbn [map length]; change (real_sum []) with 0; change (INR 0) with 0; ring|].
      cbn [map length]. change (real_sum (?h :: ?t)) with (h + real_sum t). rewrite IH, S_INR. ring.
    Qed.
    Lemma schwefel_accurate (x : list F) : Forall (within b) x ->
      (Z.of_nat (length x) * (b + 419) <= 2 ^ prec)%Z ->
      Rabs (B2R (schwefel_g x) - schwefel_real (map B2R x)) <= schwefel_rounding prec emax (length x) B e.
    Proof.
      intros H L. pose proof (bpow_gt_0 radix2 (- prec)) as U. pose proof (eta_pos (prec := prec) (emax := emax)) as Et.
      destruct x as [|x0 x'] eqn:Ex.
      { assert (Z0 : B2R (schwefel_g []) = 0).
        { rewrite schwefel_fold. cbn [length fold_left]. change (b_of_Z (Z.of_nat 0)) with zero.
          destruct Wc as [Fc _]. destruct (fof_f64 schwefel_const : F) as [s|s|s pl h|s m ex h]; try discriminate; destruct s; reflexivity. }
        rewrite Z0. unfold schwefel_real, schwefel_rounding. cbn [map length]. change (real_sum []) with 0. change (INR 0) with 0.
        rewrite Rminus_0_r, Rabs_R0. lra. }
      rewrite <- Ex in *.
      assert (N1 : (1 <= Z.of_nat (length x))%Z) by (rewrite Ex; cbn [length]; lia). clear Ex.
      pose proof (schwefel_within np Hprec b x Wc (proj1 Hsin) H L) as WF.
      rewrite schwefel_fold in *. rewrite schwefel_real_split, map_length.
      set (n := length x) in *. set (N := Z.of_nat n) in *.
      destruct (swings_error (IZR (N * b)) x H 0 zero 0 0) as [V1 V2];
        [apply within_zero|fold n; fold N; nia|fold n; fold N; rewrite Z.add_0_l; lra|simpl; rewrite Rminus_0_r, Rabs_R0; lra|].
      fold n in V1, V2. fold N in V1. rewrite Z.add_0_l in V1. rewrite !Rplus_0_l in V2.
      assert (WN : within N (b_of_Z N : F)) by (apply within_int; nia).
      assert (Wm : within (419 * N) (b_mul np (fof_f64 schwefel_const) (b_of_Z N))) by (apply within_mul; auto; nia).
      pose proof (mul_error _ _ (proj1 Wm)) as E1.
      destruct (of_Z_exact (prec := prec) (emax := emax) N ltac:(nia)) as [_ EN]. rewrite EN in E1.
      assert (EI : IZR N = INR n) by (unfold N; now rewrite <- INR_IZR_INZ). rewrite EI in E1.
      pose proof (sub_error _ _ (proj1 WF)) as E2. destruct Wm as [_ Bm], V1 as [_ V1], Wc as [_ Bc].
      rewrite mult_IZR, EI in Bm, V1, V2.
      set (k := B2R (fof_f64 schwefel_const : F)) in *. set (m := B2R (b_mul np _ _)) in *.
      set (S := B2R (fold_left swing x zero)) in *. set (r := B2R (b_sub np _ _)) in *. set (T := real_sum _) in *.
      assert (Nn : 1 <= INR n) by (rewrite <- EI; now apply (IZR_le 1)). set (d := INR n) in *.
      assert (B0 : 0 <= B) by now apply IZR_le.
      assert (Mm : Rabs (m - con * d) <= u * (419 * d) + eta + 419 * u * d).
      { replace (m - con * d) with ((m - k * d) + (k - con) * d) by ring.
        apply abs_sum.
        - eapply Rle_trans; [exact E1|]. apply Rplus_le_compat_r. apply Rmult_le_compat_l; [lra|].
          apply abs_prod; [exact Bc|]. rewrite Rabs_pos_eq; lra.
        - apply abs_prod; [exact Wcon|]. rewrite Rabs_pos_eq; lra. }
      assert (R : Rabs (r - (m - S)) <= u * (419 * d + d * B)).
      { eapply Rle_trans; [exact E2|]. apply Rmult_le_compat_l; [lra|]. now apply abs_diff. }
      replace (r - (con * d - T)) with ((r - (m - S)) + ((m - con * d) - (S - T))) by ring.
      eapply Rle_trans; [apply (abs_sum _ _ _ _ R (abs_diff _ _ _ _ Mm V2))|].
      unfold schwefel_rounding. rewrite tiny_eta. unfold roundoff. rewrite plus_INR. change (INR 2) with 2. fold d.
      assert (G : 0 <= (d - 1) * eta) by (apply Rmult_le_pos; lra).
      replace (d * (B * e + u * (B * sqrt B + (d + 2) * B + 1257) + 2 * eta)) with
        (u * (419 * d + d * B) + (u * (419 * d) + eta + 419 * u * d + d * (B * e + u * (B * sqrt B + B + d * B) + eta)) + (d - 1) * eta) by ring.
      lra.
    Qed.
  End Sines.
End Acc.
