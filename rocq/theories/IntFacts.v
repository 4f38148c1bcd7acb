(** * Integer genes: CrossMean, RandomCreator and the random initializers *)

From Coq Require Import List Arith ZArith Bool Reals Lia Lra.
From Flocq Require Import Core IEEE754.BinarySingleNaN IEEE754.Binary.
From Verif Require Import Base Logic FloatModel Rng GaModel GaComponents PsoModel PsoComponents SpecGa SpecRand SpecInt
  FloatFacts RandFacts ArithFacts CreateFacts PostFacts.
Import ListNotations.
Local Open Scope Z_scope.

Lemma in_range_iff mn mx n : in_range mn mx n = true <-> mn <= n <= mx.
Proof. unfold in_range. rewrite andb_true_iff, !Z.leb_le. tauto. Qed.
Lemma in_range_false mn mx n : in_range mn mx n = false <-> ~ mn <= n <= mx.
Proof. rewrite <- in_range_iff. destruct (in_range mn mx n); split; congruence. Qed.

Lemma zsum_app a b : zsum (a ++ b) = zsum a + zsum b.
Proof. induction a as [|x a IH]; simpl; auto. rewrite IH. ring. Qed.

(** ** Sums with overflow checks *)
Lemma add_int dbg mn mx a b : @no_add Z (NumOpsInt dbg mn mx) a b =
  if in_range mn mx (a + b) then Ret (a + b) else if dbg then Panic else Ret (wrap mn mx (a + b)).
Proof. reflexivity. Qed.
Lemma sum_fits mn mx l : forall a,
  (forall k, mn <= a + zsum (firstn k l) <= mx) ->
  forall dbg, ofold (@no_add Z (NumOpsInt dbg mn mx)) l a = Ret (a + zsum l).
Proof.
  induction l as [|x l IH]; intros a H dbg; cbn [ofold].
  - f_equal. simpl. ring.
  - pose proof (H 1%nat) as H1. simpl in H1. rewrite Z.add_0_r in H1.
    rewrite add_int, (proj2 (in_range_iff mn mx (a + x)) H1). cbn [obind].
    rewrite IH.
    + f_equal. cbn [zsum fold_right]. fold (zsum l). ring.
    + intros k. specialize (H (S k)). cbn [firstn zsum fold_right] in H. fold (zsum (firstn k l)) in H.
      rewrite Z.add_assoc in H. exact H.
Qed.
Lemma sum_overflows mn mx l : forall a k, ~ mn <= a + zsum (firstn k l) <= mx -> mn <= a <= mx ->
  ofold (@no_add Z (NumOpsInt true mn mx)) l a = Panic.
Proof.
  induction l as [|x l IH]; intros a k H Ha.
  - rewrite firstn_nil in H. simpl in H. rewrite Z.add_0_r in H. tauto.
  - destruct k as [|k]; [simpl in H; rewrite Z.add_0_r in H; tauto|].
    cbn [ofold]. rewrite add_int.
    destruct (in_range mn mx (a + x)) eqn:E; [|reflexivity]. cbn [obind].
    apply (IH (a + x) k); [|now apply in_range_iff].
    cbn [firstn zsum fold_right] in H. fold (zsum (firstn k l)) in H. rewrite Z.add_assoc in H. exact H.
Qed.

(** Wrapping sums are the sum modulo the size of the type. *)
Lemma wrap_range mn mx n : mn <= mx -> mn <= wrap mn mx n <= mx.
Proof. intros H. unfold wrap. pose proof (Z.mod_pos_bound (n - mn) (mx - mn + 1)). lia. Qed.
Lemma wrap_in mn mx n : mn <= n <= mx -> wrap mn mx n = n.
Proof. intros H. unfold wrap. rewrite Z.mod_small by lia. ring. Qed.
Lemma wrap_wrap_add mn mx a b : mn <= mx -> wrap mn mx (wrap mn mx a + b) = wrap mn mx (a + b).
Proof.
  intros H. unfold wrap.
  replace ((a - mn) mod (mx - mn + 1) + mn + b - mn) with ((a - mn) mod (mx - mn + 1) + b) by ring.
  rewrite Z.add_mod_idemp_l by lia. replace (a - mn + b) with (a + b - mn) by ring. reflexivity.
Qed.
Lemma sum_wraps mn mx l : mn <= mx -> forall a, mn <= a <= mx ->
  ofold (@no_add Z (NumOpsInt false mn mx)) l a = Ret (wrap mn mx (a + zsum l)).
Proof.
  intros M. induction l as [|x l IH]; intros a Ha.
  - cbn [ofold zsum fold_right]. rewrite Z.add_0_r, wrap_in by exact Ha. reflexivity.
  - cbn [ofold]. rewrite add_int.
    assert (G : (if in_range mn mx (a + x) then Ret (a + x) else Ret (wrap mn mx (a + x))) = Ret (wrap mn mx (a + x))).
    { destruct (in_range mn mx (a + x)) eqn:E; auto. rewrite wrap_in; auto. now apply in_range_iff. }
    cbv iota.
    rewrite G. cbn [obind]. rewrite IH by now apply wrap_range.
    rewrite wrap_wrap_add by exact M. cbn [zsum fold_right]. fold (zsum l). now rewrite Z.add_assoc.
Qed.

(** ** The quotient *)
Lemma quot_between s n lo hi : 0 < n -> n * lo <= s <= n * hi -> lo <= Z.quot s n <= hi.
Proof.
  intros Hn [H1 H2]. split.
  - destruct (Z_le_gt_dec 0 s) as [P|P].
    + rewrite Z.quot_div_nonneg by lia. apply Z.div_le_lower_bound; lia.
    + assert (E : Z.quot s n = - ((- s) / n)).
      { rewrite <- (Z.opp_involutive s) at 1. rewrite Z.quot_opp_l by lia.
        rewrite Z.quot_div_nonneg by lia. reflexivity. }
      rewrite E. assert (K : (- s) / n <= - lo); [|lia].
      apply Z.div_le_upper_bound; lia.
  - destruct (Z_le_gt_dec 0 s) as [P|P].
    + rewrite Z.quot_div_nonneg by lia. apply Z.div_le_upper_bound; lia.
    + assert (E : Z.quot s n = - ((- s) / n)).
      { rewrite <- (Z.opp_involutive s) at 1. rewrite Z.quot_opp_l by lia.
        rewrite Z.quot_div_nonneg by lia. reflexivity. }
      rewrite E. assert (K : - hi <= (- s) / n); [|lia].
      apply Z.div_le_lower_bound; lia.
Qed.
Lemma zsum_between lo hi l : Forall (fun x => lo <= x <= hi) l ->
  Z.of_nat (length l) * lo <= zsum l <= Z.of_nat (length l) * hi.
Proof.
  induction 1 as [|x l H _ IH]; [simpl; lia|].
  cbn [length zsum fold_right]. fold (zsum l). rewrite Nat2Z.inj_succ. lia.
Qed.

(** ** CrossMean *)
Lemma int_mean_after mn mx dbg l s : mn <= 0 -> (2 <= length l)%nat -> Z.of_nat (length l) <= mx ->
  mn <= s <= mx ->
  ofold (@no_add Z (NumOpsInt dbg mn mx)) l 0 = Ret s ->
  @cross_mean Z (NumOpsInt dbg mn mx) l = Ret [Z.quot s (Z.of_nat (length l))].
Proof.
  intros M L N S E. unfold cross_mean.
  destruct (Nat.leb_spec 2 (length l)) as [_|]; [|lia]. cbn [oassert obind].
  change (@no_zero Z (NumOpsInt dbg mn mx)) with 0. rewrite E. cbn [obind].
  cbn [no_of_nat no_div NumOpsInt].
  rewrite (proj2 (in_range_iff mn mx (Z.of_nat (length l)))) by lia. cbn [unwrap obind].
  destruct (Z.eqb_spec (Z.of_nat (length l)) 0); [lia|].
  assert (Q : mn <= Z.quot s (Z.of_nat (length l)) <= mx).
  { apply quot_between; [lia|]. nia. }
  rewrite (proj2 (in_range_iff _ _ _) Q). reflexivity.
Qed.

Theorem int_mean_fits mn mx dbg parents lo hi : mn <= 0 -> (2 <= length parents)%nat ->
  Z.of_nat (length parents) <= mx -> sums_fit mn mx parents ->
  Forall (fun x => lo <= x <= hi) parents ->
  exists c, @cross_mean Z (NumOpsInt dbg mn mx) parents = Ret [c] /\
    c = Z.quot (zsum parents) (Z.of_nat (length parents)) /\ lo <= c <= hi.
Proof.
  intros M L N S B. exists (Z.quot (zsum parents) (Z.of_nat (length parents))).
  split; [|split; [reflexivity|]].
  - apply int_mean_after; auto.
    + specialize (S (length parents)). now rewrite firstn_all in S.
    + rewrite (sum_fits mn mx parents 0); [now rewrite Z.add_0_l|]. intros k. apply S.
  - apply quot_between; [lia|]. now apply zsum_between.
Qed.
Theorem int_mean_panics mn mx parents : mn <= 0 <= mx ->
  (length parents < 2)%nat \/ ~ sums_fit mn mx parents \/ mx < Z.of_nat (length parents) ->
  @cross_mean Z (NumOpsInt true mn mx) parents = Panic.
Proof.
  intros M H. unfold cross_mean.
  destruct (Nat.leb_spec 2 (length parents)) as [L|L]; [|reflexivity]. cbn [oassert obind].
  destruct (forallb (fun k => in_range mn mx (zsum (firstn k parents))) (seq 0 (S (length parents)))) eqn:E.
  - assert (F : sums_fit mn mx parents).
    { intros k. rewrite forallb_forall in E.
      destruct (Nat.le_gt_cases k (length parents)) as [K|K].
      - apply in_range_iff, E, in_seq. lia.
      - rewrite firstn_all2 by lia. rewrite <- (firstn_all parents).
        apply in_range_iff, E, in_seq. lia. }
    destruct H as [H|[H|H]]; [lia|tauto|].
    change (@no_zero Z (NumOpsInt true mn mx)) with 0.
    rewrite (sum_fits mn mx parents 0) by (intros k; apply F). cbn [obind no_of_nat NumOpsInt].
    rewrite (proj2 (in_range_false mn mx (Z.of_nat (length parents)))) by lia. reflexivity.
  - assert (K : exists k, in_range mn mx (zsum (firstn k parents)) = false).
    { clear - E. revert E. generalize (seq 0 (S (length parents))).
      induction l as [|k l IH]; cbn [forallb]; [discriminate|].
      destruct (in_range mn mx (zsum (firstn k parents))) eqn:Q; [exact IH|]. intros _. now exists k. }
    destruct K as [k K]. change (@no_zero Z (NumOpsInt true mn mx)) with 0.
    rewrite (sum_overflows mn mx parents 0 k); [reflexivity| |lia].
    now apply in_range_false.
Qed.
Theorem int_mean_count mn mx dbg parents : mn <= 0 <= mx ->
  (length parents < 2)%nat \/ mx < Z.of_nat (length parents) ->
  @cross_mean Z (NumOpsInt dbg mn mx) parents = Panic.
Proof.
  intros M H. destruct dbg; [apply int_mean_panics; tauto|]. unfold cross_mean.
  destruct (Nat.leb_spec 2 (length parents)) as [L|L]; [|reflexivity]. cbn [oassert obind].
  destruct H as [H|H]; [lia|].
  change (@no_zero Z (NumOpsInt false mn mx)) with 0.
  rewrite (sum_wraps mn mx parents) by lia. cbn [obind no_of_nat NumOpsInt].
  now rewrite (proj2 (in_range_false mn mx (Z.of_nat (length parents)))) by lia.
Qed.
Theorem int_mean_wraps mn mx parents : mn <= 0 -> (2 <= length parents)%nat ->
  Z.of_nat (length parents) <= mx ->
  exists s, @cross_mean Z (NumOpsInt false mn mx) parents = Ret [Z.quot s (Z.of_nat (length parents))] /\
    mn <= s <= mx /\ (mx - mn + 1 | s - zsum parents).
Proof.
  intros M L N. exists (wrap mn mx (zsum parents)).
  assert (R : mn <= wrap mn mx (zsum parents) <= mx) by (apply wrap_range; lia).
  split; [|split; [exact R|]].
  - apply int_mean_after; auto. rewrite (sum_wraps mn mx parents); [|lia|lia]. reflexivity.
  - unfold wrap. pose proof (Z.div_mod (zsum parents - mn) (mx - mn + 1)) as D.
    exists (- ((zsum parents - mn) / (mx - mn + 1))). lia.
Qed.

(** ** Random creation *)
Lemma b64_of_Z n : Z.abs n <= 2 ^ 53 -> is_finite (b_of_Z n : f64) = true /\
  Binary.B2R 53 1024 (b_of_Z n) = IZR n.
Proof. intros H. apply (@of_Z_exact 53 1024 _ _ n H). Qed.
Lemma int_le lo hi : Z.abs lo <= 2 ^ 53 -> Z.abs hi <= 2 ^ 53 -> lo <= hi -> leb (b_of_Z lo : f64) (b_of_Z hi) = true.
Proof.
  intros A B L. destruct (b64_of_Z lo A) as [F1 E1]. destruct (b64_of_Z hi B) as [F2 E2].
  apply leb_key. repeat split; auto using finite_not_nan. rewrite !key_finite by auto.
  rewrite E1, E2. now apply IZR_le.
Qed.
Lemma int_width np lo hi : Z.abs lo <= 2 ^ 53 -> Z.abs hi <= 2 ^ 53 ->
  is_finite (b_sub np (b_of_Z hi : f64) (b_of_Z lo)) = true.
Proof.
  intros A B. destruct (b64_of_Z lo A) as [F1 E1]. destruct (b64_of_Z hi B) as [F2 E2].
  destruct (@sub_correct 53 1024 _ _ np (b_of_Z hi) (b_of_Z lo) F2 F1) as [C _]; [|exact C].
  rewrite E1, E2. rewrite <- minus_IZR.
  assert (T : (Rabs (IZR (hi - lo)) <= bpow radix2 54)%R).
  { rewrite <- abs_IZR, <- (IZR_Zpower radix2 54) by lia. apply IZR_le. change (radix2 ^ 54) with (2 ^ 53 + 2 ^ 53). lia. }
  apply Rle_lt_trans with (bpow radix2 54); [|apply bpow_lt; lia].
  apply abs_round_le_generic.
  - apply BinarySingleNaN.fexp_correct. reflexivity.
  - apply (valid_rnd_round_mode mode_NE).
  - apply generic_format_bpow. unfold SpecFloat.fexp, SpecFloat.emin. lia.
  - exact T.
Qed.
Lemma between_finite (a b x : f64) : is_finite a = true -> is_finite b = true ->
  leb a x = true -> leb x b = true -> is_finite x = true.
Proof.
  intros Fa Fb H1 H2. apply leb_key in H1. destruct H1 as [_ [NX K1]]. apply leb_key in H2. destruct H2 as [_ [_ K2]].
  pose proof (key_bound _ Fa) as B1. pose proof (key_bound _ Fb) as B2.
  revert K1 K2 B1 B2. generalize (key a) (key b). intros ka kb K1 K2 B1 B2.
  destruct x as [s|[]|s pl h|s m e h]; unfold key in K1, K2; try reflexivity; try (exfalso; lra).
  discriminate NX.
Qed.
Lemma trunc_between lo hi (x : f64) : Z.abs lo <= 2 ^ 53 -> Z.abs hi <= 2 ^ 53 ->
  leb (b_of_Z lo) x = true -> leb x (b_of_Z hi) = true ->
  is_finite x = true /\ lo <= toward_zero x <= hi.
Proof.
  intros A B H1 H2. destruct (b64_of_Z lo A) as [F1 E1]. destruct (b64_of_Z hi B) as [F2 E2].
  assert (FX : is_finite x = true) by (apply (between_finite (b_of_Z lo) (b_of_Z hi)); assumption).
  split; [exact FX|].
  apply leb_key in H1. destruct H1 as [_ [_ K1]]. apply leb_key in H2. destruct H2 as [_ [_ K2]].
  rewrite !key_finite in K1, K2 by assumption. rewrite E1 in K1. rewrite E2 in K2.
  unfold toward_zero.
  assert (R : Binary.Btrunc 53 1024 x = Ztrunc (Binary.B2R 53 1024 x)).
  { apply eq_IZR. rewrite (Binary.Btrunc_correct 53 1024 Hemax64 x).
    unfold round, F2R, scaled_mantissa, cexp, FIX_exp. cbn [Fnum Fexp Z.opp bpow]. now rewrite !Rmult_1_r. }
  rewrite R. split.
  - rewrite <- (Ztrunc_IZR lo). now apply Ztrunc_le.
  - rewrite <- (Ztrunc_IZR hi). now apply Ztrunc_le.
Qed.

Definition int_gene np (i : Z * Z) (r : rng) : Z :=
  toward_zero (@drawn_incl f64 (FloatIEEE np) _ (b_of_Z (fst i)) (b_of_Z (snd i)) r 0).
Lemma gene_int_consumes np mn mx i : mn <= fst i -> fst i <= snd i -> snd i <= mx ->
  Z.abs (fst i) <= 2 ^ 53 -> Z.abs (snd i) <= 2 ^ 53 ->
  consumes 1 (@random_gene Z (NumGeneInt mn mx) np i) (int_gene np i).
Proof.
  destruct i as [lo hi]. cbn [fst snd]. intros M1 L M2 A B r. unfold random_gene, cbind, cpure.
  cbn [fst snd ng_to_f64 ng_from_f64 NumGeneInt unwrap obind]. unfold FT64.
  pose proof (int_le lo hi A B L) as E. destruct (b64_of_Z lo A) as [F1 _]. destruct (b64_of_Z hi B) as [F2 _].
  assert (N : @uniform_incl f64 (FloatIEEE np) (b_of_Z lo) (b_of_Z hi) = Ret (b_of_Z lo, b_of_Z hi)).
  { unfold uniform_incl. cbn [fle ffinite FloatIEEE]. now rewrite E, F1, F2. }
  rewrite N. set (x := @drawn_incl f64 (FloatIEEE np) _ (b_of_Z lo) (b_of_Z hi) r 0).
  destruct (drawn_incl_in (SA := Sampler64) np (b_of_Z lo) (b_of_Z hi) r 0 E (int_width np lo hi A B)) as [H1 H2].
  fold x in H1, H2. destruct (trunc_between lo hi x A B H1 H2) as [FX [T1 T2]].
  unfold int_gene. cbn [fst snd]. fold x.
  assert (S : @sample_incl f64 (FloatIEEE np) _ (b_of_Z lo, b_of_Z hi) r = (Ret x, shift 1 r)) by reflexivity.
  rewrite S. unfold toward_zero in *. rewrite FX.
  rewrite (proj2 (in_range_iff mn mx (Binary.Btrunc 53 1024 x))) by lia. reflexivity.
Qed.

Lemma int_create np mn mx n (intervals : list (Z * Z)) r :
  (forall lo hi, In (lo, hi) intervals ->
     mn <= lo /\ lo <= hi /\ hi <= mx /\ Z.abs lo <= 2 ^ 53 /\ Z.abs hi <= 2 ^ 53) ->
  exists vs, @random_create Z (NumGeneInt mn mx) np (RandomCreator n intervals) r
      = (Ret vs, shift (n * length intervals) r) /\
    length vs = n /\
    forall j v, nth_error vs j = Some v ->
      length v = length intervals /\
      forall k g lo hi, nth_error v k = Some g -> nth_error intervals k = Some (lo, hi) ->
        g = toward_zero (@drawn_incl f64 (FloatIEEE np) _ (b_of_Z lo) (b_of_Z hi) r (j * length intervals + k)) /\
        lo <= g <= hi.
Proof.
  intros H.
  destruct (@create_spec Z (NumGeneInt mn mx) np (RandomCreator n intervals) (int_gene np)) with (r := r)
    as [vs [R1 [R2 R3]]].
  { intros [lo hi] Hi. cbn [rc_intervals] in Hi. destruct (H lo hi Hi) as [H1 [H2 [H3 [H4 H5]]]].
    now apply gene_int_consumes. }
  cbn [rc_intervals rc_population_size] in *.
  exists vs. split; [exact R1|]. split; [exact R2|]. intros j v Hj. destruct (R3 j v Hj) as [L1 L2].
  split; [exact L1|]. intros k g lo hi Hg Hi.
  pose proof (L2 k g (lo, hi) Hg Hi) as E. unfold int_gene in E. cbn [fst snd] in E.
  assert (D : @drawn_incl f64 (FloatIEEE np) _ (b_of_Z lo) (b_of_Z hi) (shift (j * length intervals + k) r) 0
    = @drawn_incl f64 (FloatIEEE np) _ (b_of_Z lo) (b_of_Z hi) r (j * length intervals + k)).
  { unfold drawn_incl, shift. rewrite Nat.add_0_r. reflexivity. }
  rewrite D in E. split; [exact E|]. rewrite E.
  apply nth_error_In in Hi. destruct (H lo hi Hi) as [H1 [H2 [H3 [H4 H5]]]].
  pose proof (int_le lo hi H4 H5 H2) as Le.
  destruct (drawn_incl_in (SA := Sampler64) np (b_of_Z lo) (b_of_Z hi) r (j * length intervals + k) Le
    (int_width np lo hi H4 H5)) as [K1 K2].
  now apply trunc_between.
Qed.

(** [RandomCreator] *)
Theorem random_creator_int np mn mx size intervals c r :
  @random_creator_new Z (NumGeneInt mn mx) size intervals = Ret c ->
  (forall lo hi, In (lo, hi) intervals ->
     mn <= lo /\ hi <= mx /\ Z.abs lo <= 2 ^ 53 /\ Z.abs hi <= 2 ^ 53) ->
  exists vs, @random_create Z (NumGeneInt mn mx) np c r = (Ret vs, shift (size * length intervals) r) /\
    length vs = size /\
    forall j v, nth_error vs j = Some v ->
      length v = length intervals /\
      forall k g lo hi, nth_error v k = Some g -> nth_error intervals k = Some (lo, hi) ->
        g = toward_zero (@drawn_incl f64 (FloatIEEE np) _ (b_of_Z lo) (b_of_Z hi) r (j * length intervals + k)) /\
        lo <= g <= hi.
Proof.
  intros E H. destruct (@new_panics Z (NumGeneInt mn mx) size intervals) as [[P _]|[P [_ [_ L]]]]; [congruence|].
  rewrite P in E. inversion E; subst c. apply int_create.
  intros lo hi Hi. destruct (H lo hi Hi) as [H1 [H2 [H3 H4]]]. specialize (L (lo, hi) Hi).
  change (lo <? hi = true) in L. apply Z.ltb_lt in L. repeat split; auto; lia.
Qed.
(** The random initializers of particle swarms. *)
Theorem random_vectors_int np mn mx n intervals r :
  (forall lo hi, In (lo, hi) intervals ->
     mn <= lo /\ lo < hi /\ hi <= mx /\ Z.abs lo <= 2 ^ 53 /\ Z.abs hi <= 2 ^ 53) ->
  exists vs, @random_vectors Z (NumGeneInt mn mx) np intervals n r = (Ret vs, shift (n * length intervals) r) /\
    length vs = n /\
    forall j v, nth_error vs j = Some v ->
      length v = length intervals /\
      forall k g lo hi, nth_error v k = Some g -> nth_error intervals k = Some (lo, hi) ->
        g = toward_zero (@drawn_incl f64 (FloatIEEE np) _ (b_of_Z lo) (b_of_Z hi) r (j * length intervals + k)) /\
        lo <= g <= hi.
Proof.
  intros H. rewrite (@random_vectors_create Z (NumGeneInt mn mx)).
  - apply int_create. intros lo hi Hi. destruct (H lo hi Hi) as [H1 [H2 [H3 [H4 H5]]]]. repeat split; auto; lia.
  - intros [lo hi] Hi. change (lo <? hi = true). apply Z.ltb_lt. apply (H lo hi Hi).
Qed.
Theorem random_creator_int_new mn mx size intervals :
  (exists c, @random_creator_new Z (NumGeneInt mn mx) size intervals = Ret c) <->
  ((0 < size)%nat /\ intervals <> [] /\ forall lo hi, In (lo, hi) intervals -> lo < hi).
Proof.
  destruct (@new_panics Z (NumGeneInt mn mx) size intervals) as [[P Q]|[P [Q1 [Q2 Q3]]]]; rewrite P.
  - split; [intros [c E]; discriminate|]. intros [H1 [H2 H3]]. destruct Q as [->|[->|[[lo hi] [Hi E]]]]; [lia|tauto|].
    change (lo <? hi = false) in E. apply Z.ltb_ge in E. specialize (H3 lo hi Hi). lia.
  - split; [|eauto]. intros _. repeat split; auto. intros lo hi Hi. specialize (Q3 (lo, hi) Hi).
    change (lo <? hi = true) in Q3. now apply Z.ltb_lt in Q3.
Qed.
