(** * Error of rounded sums and means *)

From Coq Require Import List Arith ZArith Bool Reals Lia Lra Psatz.
From Flocq Require Import Core IEEE754.BinarySingleNaN IEEE754.Binary.
From Flocq Require Import Relative Plus_error.
From Verif Require Import Base FloatModel SpecGa SpecStat FloatFacts ArithFacts.
Import ListNotations.

Section Sum.
  Context {prec emax : Z} {Hp : Prec_gt_0 prec} {He : Prec_lt_emax prec emax}.
  Variable np : nan_policy prec emax.
  Notation F := (bfloat prec emax).
  Notation fexp := (SpecFloat.fexp prec emax).
  Notation rnd x := (round radix2 fexp (round_mode mode_NE) x).
  Notation B2R := (Binary.B2R prec emax).
  Notation u := (bpow radix2 (- prec)).
  Notation asum l := (real_sum (map (fun x : F => Rabs (B2R x)) l)).
  Local Open Scope R_scope.

  Lemma u_ro_is : u_ro radix2 prec = u.
  Proof.
    unfold u_ro. rewrite bpow_plus. change (bpow radix2 1) with 2. lra.
  Qed.
  Lemma u_pos : 0 < u. Proof. apply bpow_gt_0. Qed.
  Lemma pow_u n : 1 <= (1 + u) ^ n.
  Proof. apply pow_R1_Rle. pose proof u_pos. lra. Qed.
  Lemma eps_u e : Rabs e <= u_ro radix2 prec / (1 + u_ro radix2 prec) -> Rabs e <= u.
  Proof.
    rewrite u_ro_is. intros H. eapply Rle_trans; [exact H|]. pose proof u_pos.
    apply (Rmult_le_reg_r (1 + u)); [lra|]. unfold Rdiv. rewrite Rmult_assoc, Rinv_l by lra. nra.
  Qed.
  Lemma asum_nonneg (l : list F) : 0 <= asum l.
  Proof.
    induction l as [|x l IH]; [apply Rle_refl|]. cbn [map]. change (real_sum (?h :: ?t)) with (h + real_sum t).
    pose proof (Rabs_pos (B2R x)). lra.
  Qed.
  Lemma sum_le_asum (l : list F) : Rabs (real_sum (map B2R l)) <= asum l.
  Proof.
    induction l as [|x l IH]; [cbn; rewrite Rabs_R0; apply Rle_refl|].
    cbn [map]. change (real_sum (?h :: ?t)) with (h + real_sum t).
    eapply Rle_trans; [apply Rabs_triang|]. lra.
  Qed.

  Lemma sum_error (l : list F) : forall a : F, is_finite a = true ->
    (forall x, In x l -> is_finite x = true) ->
    (1 + u) ^ length l * (Rabs (B2R a) + asum l) < bpow radix2 emax ->
    is_finite (fold_left (b_add np) l a) = true /\
    Rabs (B2R (fold_left (b_add np) l a) - (B2R a + real_sum (map B2R l)))
      <= ((1 + u) ^ length l - 1) * (Rabs (B2R a) + asum l).
  Proof.
    pose proof u_pos as U.
    induction l as [|x l IH]; intros a Ha Hl B.
    - cbn [fold_left map real_sum fold_right length pow]. split; auto.
      replace (B2R a - (B2R a + 0)) with 0 by ring. rewrite Rabs_R0. lra.
    - cbn [fold_left map length] in *. change (real_sum (?h :: ?t)) with (h + real_sum t) in *.
      rewrite <- tech_pow_Rmult in *. pose proof (pow_u (length l)) as P.
      assert (B' : (1 + u) * (1 + u) ^ length l * (Rabs (B2R a) + (Rabs (B2R x) + asum l)) < bpow radix2 emax)
        by exact B.
      clear B. set (Q := (1 + u) ^ length l) in *.
      pose proof (asum_nonneg l) as S. set (T := asum l) in *.
      pose proof (Rabs_pos (B2R a)) as Pa. pose proof (Rabs_pos (B2R x)) as Px.
      pose proof (Rabs_triang (B2R a) (B2R x)) as Tr.
      assert (Hx : is_finite x = true) by (apply Hl; now left).
      destruct (FLT_plus_error_N_ex radix2 (SpecFloat.emin prec emax) prec (fun z => negb (Z.even z))
        (B2R a) (B2R x)) as [e [E1 E2]]; [apply format_B2R|apply format_B2R|].
      apply eps_u in E1.
      change (rnd (B2R a + B2R x) = (B2R a + B2R x) * (1 + e)) in E2.
      assert (A : Rabs (rnd (B2R a + B2R x)) <= (1 + u) * (Rabs (B2R a) + Rabs (B2R x))).
      { rewrite E2, Rabs_mult. assert (Rabs (1 + e) <= 1 + u).
        { eapply Rle_trans; [apply Rabs_triang|]. rewrite Rabs_R1. lra. }
        rewrite Rmult_comm. apply Rmult_le_compat; auto using Rabs_pos. }
      assert (D : Rabs (rnd (B2R a + B2R x) - (B2R a + B2R x)) <= u * (Rabs (B2R a) + Rabs (B2R x))).
      { rewrite E2. replace ((B2R a + B2R x) * (1 + e) - (B2R a + B2R x)) with (e * (B2R a + B2R x)) by ring.
        rewrite Rabs_mult. apply Rmult_le_compat; auto using Rabs_pos. }
      destruct (add_correct np a x Ha Hx) as [F1 F2].
      { eapply Rle_lt_trans; [exact A|]. eapply Rle_lt_trans; [|exact B'].
        rewrite Rmult_assoc. apply Rmult_le_compat_l; [lra|]. nra. }
      rewrite <- F2 in A, D. 
      destruct (IH (b_add np a x) F1) as [I1 I2].
      { intros y Hy. apply Hl. now right. }
      { eapply Rle_lt_trans; [|exact B'].
        replace ((1 + u) * Q * (Rabs (B2R a) + (Rabs (B2R x) + T)))
          with (Q * ((1 + u) * (Rabs (B2R a) + Rabs (B2R x)) + (1 + u) * T)) by ring.
        apply Rmult_le_compat_l; [lra|]. nra. }
      split; [exact I1|].
      set (R := B2R (fold_left (b_add np) l (b_add np a x))) in *.
      set (M := B2R (b_add np a x)) in *. set (Y := real_sum (map B2R l)) in *.
      replace (R - (B2R a + (B2R x + Y))) with ((R - (M + Y)) + (M - (B2R a + B2R x))) by ring.
      eapply Rle_trans; [apply Rabs_triang|].
      assert (G : (Q - 1) * (Rabs M + T) <= (Q - 1) * ((1 + u) * (Rabs (B2R a) + Rabs (B2R x)) + T))
        by (apply Rmult_le_compat_l; lra).
      assert (K : 0 <= u * Q * T) by (apply Rmult_le_pos; [apply Rmult_le_pos|]; lra).
      lra.
  Qed.

  (** Sums from zero: the first addition is exact. *)
  Lemma float_sum_error (l : list F) : l <> [] ->
    (forall x, In x l -> is_finite x = true) ->
    (1 + u) ^ (length l - 1) * asum l < bpow radix2 emax ->
    is_finite (float_sum np l) = true /\
    Rabs (B2R (float_sum np l) - real_sum (map B2R l)) <= ((1 + u) ^ (length l - 1) - 1) * asum l.
  Proof.
    destruct l as [|x l]; [congruence|]. intros _ Hl B.
    cbn [length] in *. replace (S (length l) - 1)%nat with (length l) in * by lia. unfold float_sum. cbn [fold_left map] in *.
    change (real_sum (?h :: ?t)) with (h + real_sum t) in *.
    set (z := Binary.B754_zero false : F).
    assert (Hx : is_finite x = true) by (apply Hl; now left).
    assert (E : rnd (B2R z + B2R x) = B2R x).
    { change (B2R z) with 0. rewrite Rplus_0_l. apply rnd_B2R. }
    destruct (add_correct np z x eq_refl Hx) as [Z1 Z2]; [rewrite E; apply B2R_bound|]. rewrite E in Z2.
    destruct (sum_error l (b_add np z x) Z1) as [I1 I2].
    - intros y Hy. apply Hl. now right.
    - rewrite Z2. exact B.
    - rewrite Z2 in I2. auto.
  Qed.

  (** ** Means *)
  Lemma mean_error (s : F) (l : list F) : l <> [] -> (Z.of_nat (length l) <= 2 ^ prec)%Z ->
    is_finite s = true ->
    Rabs (B2R s - real_sum (map B2R l)) <= ((1 + u) ^ (length l - 1) - 1) * asum l ->
    is_finite (b_div np s (float_count (length l))) = true /\
    Rabs (B2R (b_div np s (float_count (length l))) - real_sum (map B2R l) / INR (length l))
      <= ((1 + u) ^ length l - 1) * (asum l / INR (length l)) + bpow radix2 (SpecFloat.emin prec emax) / 2.
  Proof.
    intros Hl Hn Hs H. pose proof u_pos as U.
    assert (N : (1 <= length l)%nat) by (destruct l; [congruence|simpl; lia]).
    unfold float_count. destruct (of_Z_exact (Z.of_nat (length l))) as [C1 C2]; [lia|].
    rewrite <- INR_IZR_INZ in C2.
    assert (NR : 1 <= INR (length l)) by (apply (le_INR 1); exact N).
    set (n := INR (length l)) in *.
    assert (Bd : Rabs (rnd (B2R s / B2R (b_of_Z (Z.of_nat (length l)) : F))) < bpow radix2 emax).
    { rewrite C2. apply Rle_lt_trans with (Rabs (B2R s)); [|apply B2R_bound].
      apply abs_round_le_generic.
      - apply BinarySingleNaN.fexp_correct. exact Hp.
      - apply (valid_rnd_round_mode mode_NE).
      - apply generic_format_abs, format_B2R.
      - unfold Rdiv. rewrite Rabs_mult, Rabs_inv, (Rabs_pos_eq n) by lra.
        rewrite <- (Rmult_1_r (Rabs (B2R s))) at 2. apply Rmult_le_compat_l; [apply Rabs_pos|].
        rewrite <- Rinv_1. apply Rinv_le; lra. }
    destruct (div_correct np s (b_of_Z (Z.of_nat (length l))) Hs) as [D1 D2]; [rewrite C2; lra|exact Bd|].
    split; [exact D1|]. rewrite D2, C2. clear D1 D2 Bd C1 C2.
    destruct (relative_error_N_FLT'_ex radix2 (SpecFloat.emin prec emax) prec Hp (fun z => negb (Z.even z))
      (B2R s / n)) as [e [d [E1 [E2 [_ E3]]]]].
    apply eps_u in E1.
    change (rnd (B2R s / n) = B2R s / n * (1 + e) + d) in E3. rewrite E3.
    set (S := real_sum (map B2R l)) in *. pose proof (sum_le_asum l) as SA. fold S in SA.
    pose proof (asum_nonneg l) as A0. set (A := asum l) in *.
    assert (Pw : (1 + u) ^ length l = (1 + u) * (1 + u) ^ (length l - 1)).
    { rewrite tech_pow_Rmult. f_equal. lia. }
    rewrite Pw. pose proof (pow_u (length l - 1)) as P1. set (Q := (1 + u) ^ (length l - 1)) in *.
    replace (B2R s / n * (1 + e) + d - S / n) with (((B2R s - S) * (1 + e) + S * e) / n + d) by (field; lra).
    eapply Rle_trans; [apply Rabs_triang|]. apply Rplus_le_compat; [|lra].
    unfold Rdiv. rewrite Rabs_mult, Rabs_inv, (Rabs_pos_eq n), <- Rmult_assoc by lra.
    apply Rmult_le_compat_r; [apply Rlt_le, Rinv_0_lt_compat; lra|].
    eapply Rle_trans; [apply Rabs_triang|]. rewrite !Rabs_mult.
    assert (E4 : Rabs (1 + e) <= 1 + u) by (eapply Rle_trans; [apply Rabs_triang|]; rewrite Rabs_R1; lra).
    assert (G1 : Rabs (B2R s - S) * Rabs (1 + e) <= ((Q - 1) * A) * (1 + u))
      by (apply Rmult_le_compat; auto using Rabs_pos).
    assert (G2 : Rabs S * Rabs e <= A * u) by (apply Rmult_le_compat; auto using Rabs_pos).
    lra.
  Qed.
  Lemma float_mean_error (l : list F) : l <> [] -> (Z.of_nat (length l) <= 2 ^ prec)%Z ->
    (forall x, In x l -> is_finite x = true) ->
    (1 + u) ^ (length l - 1) * asum l < bpow radix2 emax ->
    is_finite (b_div np (float_sum np l) (float_count (length l))) = true /\
    Rabs (B2R (b_div np (float_sum np l) (float_count (length l))) - real_sum (map B2R l) / INR (length l))
      <= ((1 + u) ^ length l - 1) * (asum l / INR (length l)) + bpow radix2 (SpecFloat.emin prec emax) / 2.
  Proof.
    intros H1 H2 H3 H4. destruct (float_sum_error l H1 H3 H4) as [F1 F2]. now apply mean_error.
  Qed.
End Sum.

(** ** Where the library takes means *)
From Verif Require Import Logic GaModel GaComponents StatModel StatFacts CrossFacts SpecMean.
Section Uses.
  Context {prec emax : Z} {Hp : Prec_gt_0 prec} {He : Prec_lt_emax prec emax}.
  Variable np : nan_policy prec emax.
  Notation F := (bfloat prec emax).

  Lemma float_mean_near (l : list F) : l <> [] -> summable l ->
    near_mean (b_div np (float_sum np l) (float_count (length l))) l.
  Proof. intros H1 [H2 [H3 H4]]. exact (float_mean_error np l H1 H3 H2 H4). Qed.
  Lemma mean_of_near (l : list F) : l <> [] -> summable l -> near_mean (@mean_of F (FloatIEEE np) l) l.
  Proof.
    destruct l as [|x l]; [congruence|]. intros N [H2 [H3 H4]].
    apply (mean_error np _ (x :: l)); auto.
    - apply (sum_error np l x); [apply H2; now left|intros y Hy; apply H2; now right|].
      cbn [length] in H4. replace (S (length l) - 1)%nat with (length l) in H4 by lia. exact H4.
    - cbn [length]. replace (S (length l) - 1)%nat with (length l) by lia.
      apply (sum_error np l x); [apply H2; now left|intros y Hy; apply H2; now right|].
      cbn [length] in H4. replace (S (length l) - 1)%nat with (length l) in H4 by lia. exact H4.
  Qed.
  Lemma cross_mean_near (parents : list F) : 2 <= length parents -> summable parents ->
    exists c, @cross_mean F (@NumOpsFloat F (FloatIEEE np)) parents = Ret [c] /\ near_mean c parents.
  Proof.
    intros L S. exists (b_div np (float_sum np parents) (float_count (length parents))). split.
    - unfold cross_mean. destruct (Nat.leb_spec 2 (length parents)); [|lia].
      cbn [oassert obind no_add no_zero NumOpsFloat].
      assert (G : forall l a, ofold (fun x y : F => Ret (@fadd F (FloatIEEE np) x y)) l a = Ret (fold_left (b_add np) l a)).
      { induction l as [|x l IH]; intros a; [reflexivity|]. cbn [ofold fold_left obind]. apply IH. }
      rewrite G. reflexivity.
    - apply float_mean_near; auto. destruct parents; [simpl in L; lia|congruence].
  Qed.
End Uses.

Lemma average_goal_near {T} np64 (l : list (option (T * f64))) a :
  get_average_goal np64 l = Some a -> summable (goals l) -> near_mean a (goals l).
Proof.
  intros H S. rewrite (average_value np64 l a H). apply float_mean_near; auto.
  intros E. unfold goals in E. apply map_eq_nil in E.
  assert (N : get_average_goal np64 l = None).
  { apply average_none. intros [x|] Hx; auto. exfalso.
    assert (I : In x (present l)).
    { unfold present. apply in_flat_map. exists (Some x). split; [exact Hx|now left]. }
    rewrite E in I. destruct I. }
  congruence.
Qed.
Lemma average_convergence_near {T} np64 (c : list (list (option (T * f64)))) l i :
  get_average_convergence np64 c = Ret l -> i < length l -> column c i <> [] -> summable (column c i) ->
  exists a, nth_error l i = Some (Some a) /\ near_mean a (column c i).
Proof.
  intros H L N S. destruct (average_convergence np64 c) as [l' [E [_ A]]]. rewrite H in E. inversion E; subst l'.
  eexists. split; [apply (A i L); exact N|]. now apply float_mean_near.
Qed.
Lemma average_near {prec emax} {Hp : Prec_gt_0 prec} {He : Prec_lt_emax prec emax} (np : nan_policy prec emax)
  np64 (l : list (option (list (bfloat prec emax) * f64))) v goal j x :
  @get_average _ (FloatIEEE np) np64 l = Ret (Some (v, goal)) -> nth_error v j = Some x ->
  summable (components j l) -> near_mean x (components j l).
Proof.
  intros H Hx S.
  assert (M : ~ mixed l).
  { intros M. apply (average_panic (FT := FloatIEEE np) np64) in M. congruence. }
  destruct (average_spec (FT := FloatIEEE np) np64 l M) as [A1 A2].
  destruct (present l) as [|s p] eqn:P; [rewrite A1 in H by reflexivity; discriminate|].
  destruct (A2 s (or_introl eq_refl)) as [v' [g' [E [_ [L C]]]]]. rewrite H in E. inversion E; subst v' g'.
  assert (J : j < length v) by (apply nth_error_Some; congruence).
  rewrite (C j J) in Hx. inversion Hx; subst x. apply mean_of_near; auto.
  unfold components. rewrite P. cbn [flat_map].
  destruct (nth_error (fst s) j) eqn:Q; [discriminate|]. apply nth_error_None in Q. lia.
Qed.
