(** * Conversions between f32 and f64, and RandomCreator *)

From Coq Require Import List Arith ZArith Bool Lia Reals Lra.
From Flocq Require Import Core IEEE754.BinarySingleNaN IEEE754.Binary.
From Verif Require Import Base Logic FloatModel Rng GaModel GaComponents SpecGa SpecRand FloatFacts
  RandFacts PairFacts.
Import ListNotations.

(** ** Conversions *)
Section Conv.
  Context {p1 e1 p2 e2 : Z} {Hp1 : Prec_gt_0 p1} {He1 : Prec_lt_emax p1 e1}
    {Hp : Prec_gt_0 p2} {He : Prec_lt_emax p2 e2}.
  Variable nan : bfloat p1 e1 -> a_nan p2 e2.
  Notation fexp2 := (SpecFloat.fexp p2 e2).
  Notation rnd x := (round radix2 fexp2 (round_mode mode_NE) x).

  Lemma fconv_correct (x : bfloat p1 e1) : is_finite x = true ->
    (Rabs (rnd (Binary.B2R p1 e1 x)) < bpow radix2 e2)%R ->
    is_finite (fconv nan x) = true /\ Binary.B2R p2 e2 (fconv nan x) = rnd (Binary.B2R p1 e1 x).
  Proof.
    destruct x as [s|s|s pl h|s m e h]; simpl; try discriminate; intros _ H.
    - split; auto. symmetry. apply round_0. apply (valid_rnd_round_mode mode_NE).
    - pose proof (Binary.binary_normalize_correct p2 e2 Hp He mode_NE (cond_Zopp s (Zpos m)) e s) as C.
      rewrite Rlt_bool_true in C by exact H.
      destruct C as [C1 [C2 _]]. split; [exact C2|exact C1].
  Qed.

  (** Values between two representable values convert to a value between them. *)
  Lemma fconv_between (x : bfloat p1 e1) (lo hi : bfloat p2 e2) :
    is_finite x = true -> is_finite lo = true -> is_finite hi = true ->
    (Binary.B2R p2 e2 lo <= Binary.B2R p1 e1 x <= Binary.B2R p2 e2 hi)%R ->
    is_finite (fconv nan x) = true /\
    (Binary.B2R p2 e2 lo <= Binary.B2R p2 e2 (fconv nan x) <= Binary.B2R p2 e2 hi)%R.
  Proof.
    intros Hx Hlo Hhi [H1 H2].
    assert (L : (Binary.B2R p2 e2 lo <= rnd (Binary.B2R p1 e1 x))%R).
    { apply round_ge_generic; auto using Binary.generic_format_B2R.
      - apply BinarySingleNaN.fexp_correct; auto.
      - apply (valid_rnd_round_mode mode_NE). }
    assert (U : (rnd (Binary.B2R p1 e1 x) <= Binary.B2R p2 e2 hi)%R).
    { apply round_le_generic; auto using Binary.generic_format_B2R.
      - apply BinarySingleNaN.fexp_correct; auto.
      - apply (valid_rnd_round_mode mode_NE). }
    destruct (fconv_correct x Hx) as [F E].
    - apply Rabs_lt. pose proof (key_bound lo Hlo) as K1. pose proof (key_bound hi Hhi) as K2.
      rewrite key_finite in K1, K2 by auto. lra.
    - split; auto. rewrite E. lra.
  Qed.
End Conv.

(** Every f32 is an f64. *)
Lemma fconv_32_64 (np : f32 -> a_nan 53 1024) (x : f32) : is_finite x = true ->
  is_finite (fconv np x) = true /\
  Binary.B2R 53 1024 (fconv np x) = Binary.B2R 24 128 x.
Proof.
  intros H.
  assert (G : generic_format radix2 (SpecFloat.fexp 53 1024) (Binary.B2R 24 128 x)).
  { pose proof (Binary.FLT_format_B2R 24 128 Hprec32 x) as [f F1 F2 F3].
    apply (generic_format_FLT radix2 (-1074) 53). exists f; auto.
    - eapply Z.lt_le_trans; [exact F2|]. apply Zpower_le. lia.
    - change (SpecFloat.emin 24 128) with (-149)%Z in F3. lia. }
  assert (R : round radix2 (SpecFloat.fexp 53 1024) (round_mode mode_NE) (Binary.B2R 24 128 x)
              = Binary.B2R 24 128 x).
  { apply round_generic; auto. apply (valid_rnd_round_mode mode_NE). }
  rewrite <- R. apply fconv_correct; auto. rewrite R.
  apply Rlt_trans with (bpow radix2 128); [apply (Binary.abs_B2R_lt_emax 24 128 x)|].
  apply bpow_lt. lia.
Qed.

(** The difference of two f32 fits an f64. *)
Lemma width_32_finite (np : nan_policy 53 1024) (lo hi : f32) :
  is_finite lo = true -> is_finite hi = true ->
  is_finite (b_sub np (fconv (np_of32 np) hi) (fconv (np_of32 np) lo)) = true.
Proof.
  intros Hlo Hhi.
  destruct (fconv_32_64 (np_of32 np) lo Hlo) as [F1 E1].
  destruct (fconv_32_64 (np_of32 np) hi Hhi) as [F2 E2].
  pose proof (Binary.Bminus_correct 53 1024 Hprec64 Hemax64 (np_sub np) mode_NE _ _ F2 F1) as C.
  rewrite E1, E2 in C. rewrite Rlt_bool_true in C.
  - destruct C as [_ [C _]]. exact C.
  - apply Rle_lt_trans with (bpow radix2 129); [|apply bpow_lt; lia].
    apply abs_round_le_generic.
    + apply BinarySingleNaN.fexp_correct. reflexivity.
    + apply (valid_rnd_round_mode mode_NE).
    + apply generic_format_bpow. unfold SpecFloat.fexp, SpecFloat.emin. lia.
    + pose proof (Binary.abs_B2R_lt_emax 24 128 lo). pose proof (Binary.abs_B2R_lt_emax 24 128 hi).
      change 129%Z with (128 + 1)%Z. rewrite bpow_plus. change (bpow radix2 1) with 2%R.
      eapply Rle_trans; [apply Rabs_triang|]. rewrite Rabs_Ropp. lra.
Qed.

(** ** RandomCreator *)
Lemma sub_finite {prec emax} {Hp : Prec_gt_0 prec} {He : Prec_lt_emax prec emax}
  (np : nan_policy prec emax) (x y : bfloat prec emax) :
  is_finite (b_sub np x y) = true -> is_finite x = true /\ is_finite y = true.
Proof.
  unfold b_sub, Binary.Bminus.
  destruct x as [s|s|s pl h|s m e h], y as [s'|s'|s' pl' h'|s' m' e' h']; simpl; auto;
    unfold is_finite; try (rewrite Binary.is_finite_build_nan; discriminate);
    try (simpl; discriminate).
  destruct s, s'; simpl; try discriminate; rewrite Binary.is_finite_build_nan; discriminate.
Qed.

Lemma new_panics {G} {NG : NumGene G} size (intervals : list (G * G)) :
  (random_creator_new size intervals = Panic /\
   (size = 0 \/ intervals = [] \/ exists i, In i intervals /\ ng_lt (fst i) (snd i) = false)) \/
  (random_creator_new size intervals = Ret (RandomCreator size intervals) /\
   0 < size /\ intervals <> [] /\ forall i, In i intervals -> ng_lt (fst i) (snd i) = true).
Proof.
  unfold random_creator_new.
  destruct size as [|size]; [left; split; auto|].
  destruct intervals as [|i0 l0]; [left; split; auto|].
  assert (A : forall l, (ofold (fun _ i => oassert (ng_lt (fst i) (snd i))) l tt = Panic /\
      exists i, In i l /\ ng_lt (fst i) (snd i) = false) \/
      (ofold (fun _ i => oassert (ng_lt (fst i) (snd i))) l tt = Ret tt /\
       forall i, In i l -> ng_lt (fst i) (snd i) = true)).
  { induction l as [|i l IH]; simpl.
    - right. split; [auto|intros i []].
    - destruct (ng_lt (fst i) (snd i)) eqn:E; simpl.
      + destruct IH as [[-> [j [Hj Ej]]]|[-> H]]; [left|right].
        * split; [auto|exists j; auto].
        * split; [auto|intros j [<-|Hj]; auto].
      + left. split; [auto|exists i; auto]. }
  change (0 <? S size) with true. cbn [oassert obind negb].
  destruct (A (i0 :: l0)) as [[E H]|[E H]].
  - left. rewrite E. split; auto.
  - right. rewrite E. split; [reflexivity|]. split; [lia|]. split; [discriminate|auto].
Qed.

(** What [create] returns, given what a single gene is. *)
Lemma create_consumes {G} {NG : NumGene G} np c (gene : G * G -> rng -> G) :
  (forall i, In i (rc_intervals c) -> consumes 1 (random_gene np i) (gene i)) ->
  consumes (rc_population_size c * (length (rc_intervals c) * 1)) (random_create np c)
    (fun r => map (fun j =>
       map (fun ki => gene (snd ki) (shift (fst ki * 1) (shift (j * (length (rc_intervals c) * 1)) r)))
           (enumerate (rc_intervals c))) (seq 0 (rc_population_size c))).
Proof.
  intros H. unfold random_create. 
  exact (consumes_replicate _ _ _ (rc_population_size c)
           (consumes_mapM 1 (random_gene np) gene (rc_intervals c) H)).
Qed.

Lemma nth_error_enumerate {A} (l : list A) k : nth_error (enumerate l) k =
  match nth_error l k with Some x => Some (k, x) | None => None end.
Proof.
  unfold enumerate.
  assert (G : forall a, nth_error (combine (seq a (length l)) l) k =
     match nth_error l k with Some x => Some (a + k, x) | None => None end).
  { revert k. induction l as [|x l IH]; intros [|k] a; simpl; auto.
    - now rewrite Nat.add_0_r.
    - rewrite IH. destruct (nth_error l k); auto. do 2 f_equal. lia. }
  apply G.
Qed.

Lemma create_spec {G} {NG : NumGene G} np c (gene : G * G -> rng -> G) :
  (forall i, In i (rc_intervals c) -> consumes 1 (random_gene np i) (gene i)) ->
  forall r, exists vs,
    random_create np c r = (Ret vs, shift (rc_population_size c * length (rc_intervals c)) r) /\
    length vs = rc_population_size c /\
    forall j v, nth_error vs j = Some v ->
      length v = length (rc_intervals c) /\
      forall k g i, nth_error v k = Some g -> nth_error (rc_intervals c) k = Some i ->
        g = gene i (shift (j * length (rc_intervals c) + k) r).
Proof.
  intros H r. eexists. split; [rewrite (create_consumes np c gene H), Nat.mul_1_r; reflexivity|].
  split; [now rewrite map_length, seq_length|].
  intros j v Hv. apply nth_error_map_seq in Hv. destruct Hv as [Hj ->].
  split.
  - rewrite map_length. unfold enumerate. rewrite combine_length, seq_length. lia.
  - intros k g i Hk Hi. rewrite nth_error_map, nth_error_enumerate, Hi in Hk. simpl in Hk.
    inversion Hk. rewrite shift_shift. f_equal. f_equal. lia.
Qed.

Lemma gene64_consumes np i : ltb (fst i) (snd i) = true ->
  is_finite (fst i) = true -> is_finite (snd i) = true ->
  consumes 1 (@random_gene f64 NumGene64 np i)
    (fun r => @drawn_incl f64 (FloatIEEE np) _ (fst i) (snd i) r 0).
Proof.
  destruct i as [lo hi]. intros H F1 F2 r. unfold random_gene, cbind, cpure.
  cbn [fst snd] in *. cbn [ng_to_f64 ng_from_f64 NumGene64 unwrap obind]. unfold uniform_incl. cbn [fle FloatIEEE].
  assert (L : leb lo hi = true).
  { apply ltb_key in H. apply leb_key. intuition lra. }
  unfold FT64. cbn [fle ffinite FloatIEEE]. rewrite L, F1, F2. reflexivity.
Qed.

Lemma drawn_incl_in {prec emax} {Hp : Prec_gt_0 prec} {He : Prec_lt_emax prec emax}
  {SA : Sampler (bfloat prec emax)} (np : nan_policy prec emax) lo hi r k :
  leb lo hi = true -> is_finite (b_sub np hi lo) = true ->
  leb lo (@drawn_incl _ (FloatIEEE np) SA lo hi r k) = true /\
  leb (@drawn_incl _ (FloatIEEE np) SA lo hi r k) hi = true.
Proof.
  intros H W. unfold drawn_incl. cbn [ffinite fsub fle FloatIEEE]. rewrite W.
  destruct (leb lo (fraw (r k))) eqn:E1; simpl; [destruct (leb (fraw (r k)) hi) eqn:E2; auto|];
    split; auto; fkeys; apply leb_key; repeat split; auto; lra.
Qed.

Theorem random_creator_f64 np size intervals c r :
  @random_creator_new f64 NumGene64 size intervals = Ret c ->
  (forall i, In i intervals -> is_finite (b_sub np (snd i) (fst i)) = true) ->
  exists vs, @random_create f64 NumGene64 np c r = (Ret vs, shift (size * length intervals) r) /\
    length vs = size /\
    forall j v, nth_error vs j = Some v ->
      length v = length intervals /\
      forall k g lo hi, nth_error v k = Some g -> nth_error intervals k = Some (lo, hi) ->
        g = @drawn_incl f64 (FloatIEEE np) _ lo hi r (j * length intervals + k) /\
        leb lo g = true /\ leb g hi = true.
Proof.
  intros HN HW. destruct (@new_panics f64 NumGene64 size intervals) as [[E _]|[E [_ [_ L]]]]; [congruence|].
  assert (c = RandomCreator size intervals) by congruence. subst c.
  destruct (@create_spec f64 NumGene64 np (RandomCreator size intervals)
             (fun i r => @drawn_incl f64 (FloatIEEE np) _ (fst i) (snd i) r 0)) with (r := r)
    as [vs [R1 [R2 R3]]].
  { intros i Hi. destruct (sub_finite _ _ _ (HW i Hi)). apply gene64_consumes; auto. apply L. exact Hi. }
  exists vs. split; [exact R1|]. split; [exact R2|]. intros j v Hj.
  destruct (R3 j v Hj) as [L1 L2]. split; [exact L1|].
  intros k g lo hi Hk Hi. specialize (L2 k g (lo, hi) Hk Hi). cbn [fst snd] in L2.
  assert (D : g = @drawn_incl f64 (FloatIEEE np) _ lo hi r (j * length intervals + k)).
  { rewrite L2. cbn [rc_intervals]. unfold drawn_incl, shift. now rewrite Nat.add_0_r. }
  split; [exact D|]. rewrite D. apply nth_error_In in Hi. apply drawn_incl_in.
  - specialize (L _ Hi). cbn in L. fkeys. apply leb_key. repeat split; auto. lra.
  - apply (HW _ Hi).
Qed.

Theorem random_creator_f32 np64 np32 size intervals c r :
  @random_creator_new f32 (NumGene32 np64 np32) size intervals = Ret c ->
  (forall i, In i intervals -> is_finite (fst i) = true /\ is_finite (snd i) = true) ->
  exists vs, @random_create f32 (NumGene32 np64 np32) np64 c r = (Ret vs, shift (size * length intervals) r) /\
    length vs = size /\
    forall j v, nth_error vs j = Some v ->
      length v = length intervals /\
      forall k g lo hi, nth_error v k = Some g -> nth_error intervals k = Some (lo, hi) ->
        g = fconv (np_of64 np32)
              (@drawn_incl f64 (FloatIEEE np64) _ (fconv (np_of32 np64) lo) (fconv (np_of32 np64) hi)
                 r (j * length intervals + k)) /\
        leb lo g = true /\ leb g hi = true.
Proof.
  intros HN HF. destruct (@new_panics f32 (NumGene32 np64 np32) size intervals) as [[E _]|[E [_ [_ L]]]];
    [congruence|].
  assert (c = RandomCreator size intervals) by congruence. subst c.
  assert (LE : forall i, In i intervals ->
             leb (fconv (np_of32 np64) (fst i)) (fconv (np_of32 np64) (snd i)) = true).
  { intros i Hi. destruct (HF i Hi) as [F1 F2]. specialize (L i Hi). cbn in L.
    destruct (fconv_32_64 (np_of32 np64) _ F1) as [G1 G2].
    destruct (fconv_32_64 (np_of32 np64) _ F2) as [G3 G4].
    apply leb_key. repeat split; auto using finite_not_nan. rewrite !key_finite by auto.
    rewrite G2, G4. fkeys. rewrite !key_finite in * by auto. lra. }
  destruct (@create_spec f32 (NumGene32 np64 np32) np64 (RandomCreator size intervals)
             (fun i r => fconv (np_of64 np32)
                (@drawn_incl f64 (FloatIEEE np64) _ (fconv (np_of32 np64) (fst i))
                    (fconv (np_of32 np64) (snd i)) r 0))) with (r := r)
    as [vs [R1 [R2 R3]]].
  { intros [lo hi] Hi r0. unfold random_gene, cbind, cpure.
    cbn [fst snd ng_to_f64 ng_from_f64 NumGene32 unwrap obind]. unfold uniform_incl, FT64. cbn [fle ffinite FloatIEEE].
    pose proof (LE _ Hi) as LE0. destruct (HF _ Hi) as [F1 F2]. cbn [fst snd] in LE0, F1, F2.
    destruct (fconv_32_64 (np_of32 np64) _ F1) as [G1 _].
    destruct (fconv_32_64 (np_of32 np64) _ F2) as [G3 _]. rewrite LE0, G1, G3. reflexivity. }
  exists vs. split; [exact R1|]. split; [exact R2|]. intros j v Hj.
  destruct (R3 j v Hj) as [L1 L2]. split; [exact L1|].
  intros k g lo hi Hk Hi. specialize (L2 k g (lo, hi) Hk Hi). cbn [fst snd] in L2.
  assert (D : g = fconv (np_of64 np32)
     (@drawn_incl f64 (FloatIEEE np64) _ (fconv (np_of32 np64) lo) (fconv (np_of32 np64) hi)
                 r (j * length intervals + k))).
  { rewrite L2. cbn [rc_intervals]. unfold drawn_incl, shift. now rewrite Nat.add_0_r. }
  split; [exact D|]. rewrite D. apply nth_error_In in Hi.
  destruct (HF _ Hi) as [F1 F2]. cbn [fst snd] in F1, F2. specialize (LE _ Hi). cbn [fst snd] in LE.
  set (x := drawn_incl _ _ _ _).
  assert (X : leb (fconv (np_of32 np64) lo) x = true /\ leb x (fconv (np_of32 np64) hi) = true).
  { apply drawn_incl_in; auto. apply width_32_finite; auto. }
  destruct X as [X1 X2].
  destruct (fconv_32_64 (np_of32 np64) _ F1) as [G1 G2].
  destruct (fconv_32_64 (np_of32 np64) _ F2) as [G3 G4].
  fkeys.
  assert (FX : is_finite x = true).
  { pose proof (key_bound _ G1). pose proof (key_bound _ G3). clearbody x.
    destruct x as [|[]| |]; auto; simpl in *; lra. }
  rewrite !(key_finite x), !(key_finite (fconv _ _)) in * by auto. rewrite G2, G4 in *.
  destruct (fconv_between (np_of64 np32) x lo hi FX F1 F2) as [C1 C2]; [split; assumption|].
  split; apply leb_key; repeat split; auto using finite_not_nan;
    rewrite !key_finite by auto; lra.
Qed.
