(** * Facts about the statistics *)

From Coq Require Import List Arith ZArith Bool Lia Reals Lra.
From Flocq Require Import Core IEEE754.BinarySingleNaN IEEE754.Binary.
From Verif Require Import Base Logic FloatModel GaModel StatModel FloatFacts ArithFacts SatFacts SpecStat SpecReal.
Import ListNotations.

(** ** Non-negative floats *)
Section NonNeg.
  Context {prec emax : Z} {Hp : Prec_gt_0 prec} {He : Prec_lt_emax prec emax}.
  Variable np : nan_policy prec emax.
  Notation F := (bfloat prec emax).
  Notation B2R := (Binary.B2R prec emax).
  Notation rnd' := (round radix2 (SpecFloat.fexp prec emax) (round_mode mode_NE)).

  Lemma non_negative_key (x : F) : non_negative x <-> is_nan x = false /\ (0 <= key x)%R.
  Proof.
    unfold non_negative. rewrite leb_key. change (key (Binary.B754_zero false : F)) with 0%R.
    split; intuition.
  Qed.
  Lemma non_negative_zero : non_negative (Binary.B754_zero false : F).
  Proof. reflexivity. Qed.
  Lemma inf_cases (x : F) : is_nan x = false ->
    is_finite x = true \/ x = Binary.B754_infinity false \/ x = Binary.B754_infinity true.
  Proof. destruct x as [s|[|]|s pl h|s m e h]; simpl; auto; discriminate. Qed.
  Lemma non_negative_cases (x : F) : non_negative x ->
    (is_finite x = true /\ (0 <= B2R x)%R) \/ x = Binary.B754_infinity false.
  Proof.
    rewrite non_negative_key. intros [N K]. destruct (inf_cases x N) as [H|[H|H]]; auto.
    - left. split; auto. now rewrite <- key_finite.
    - subst. simpl in K. pose proof (bpow_gt_0 radix2 emax). lra.
  Qed.
  Lemma non_negative_add (x y : F) : non_negative x -> non_negative y -> non_negative (b_add np x y).
  Proof.
    intros Hx Hy. destruct (non_negative_cases x Hx) as [[Fx Kx]| ->], (non_negative_cases y Hy) as [[Fy Ky]| ->].
    - destruct (key_add np x y Fx Fy) as [N K]. apply non_negative_key. split; auto. rewrite K.
      apply sat_pos. lra.
    - destruct x as [s|[|]|s pl h|s m e h]; try discriminate; reflexivity.
    - destruct y as [s|[|]|s pl h|s m e h]; try discriminate; reflexivity.
    - reflexivity.
  Qed.
  Lemma non_negative_square (x : F) : is_nan x = false -> non_negative (b_mul np x x).
  Proof.
    intros N. destruct (inf_cases x N) as [H|[->| ->]]; try reflexivity.
    destruct (key_mul np x x H H) as [N' K]. apply non_negative_key. split; auto. rewrite K.
    apply sat_pos. nra.
  Qed.
  Lemma non_negative_mul (x y : F) : non_negative x -> is_finite y = true -> (0 < B2R y)%R ->
    non_negative (b_mul np x y).
  Proof.
    intros Hx Fy Py. destruct (non_negative_cases x Hx) as [[Fx Kx]| ->].
    - destruct (key_mul np x y Fx Fy) as [N K]. apply non_negative_key. split; auto. rewrite K.
      apply sat_pos. nra.
    - pose proof (sign_pos y Py) as S. destruct y as [s|[|]|s pl h|s m e h]; try discriminate; simpl in *; try lra.
      subst. reflexivity.
  Qed.
  Lemma non_negative_div (x y : F) : non_negative x -> is_finite y = true -> (0 < B2R y)%R ->
    non_negative (b_div np x y).
  Proof.
    intros Hx Fy Py. destruct (non_negative_cases x Hx) as [[Fx Kx]| ->].
    - destruct (key_div np x y Fx Fy) as [N K]; [lra|]. apply non_negative_key. split; auto. rewrite K.
      apply sat_pos. apply Rmult_le_pos; auto. left. now apply Rinv_0_lt_compat.
    - pose proof (sign_pos y Py) as S. destruct y as [s|[|]|s pl h|s m e h]; try discriminate; simpl in *; try lra.
      subst. reflexivity.
  Qed.
  Lemma non_negative_sqrt (x : F) : non_negative x -> non_negative (b_sqrt np x).
  Proof.
    intros Hx. destruct (non_negative_cases x Hx) as [[Fx Kx]| ->]; [|reflexivity].
    destruct (Binary.Bsqrt_correct prec emax Hp He (np_sqrt np) mode_NE x) as [A [B _]].
    change (Binary.Bsqrt prec emax Hp He (np_sqrt np) mode_NE x) with (b_sqrt np x) in *.
    assert (FS : is_finite (b_sqrt np x) = true).
    { unfold is_finite. rewrite B. destruct x as [s|[|]|s pl h|[|] m e h]; auto; try discriminate. }
    apply non_negative_key. split; [now apply finite_not_nan|]. rewrite key_finite by auto. rewrite A.
    apply rnd_pos. apply sqrt_ge_0.
  Qed.
  Lemma add_not_nan (x y : F) : is_nan x = false -> is_finite y = true -> is_nan (b_add np x y) = false.
  Proof.
    intros N Fy. destruct (inf_cases x N) as [H|[->| ->]].
    - now apply key_add.
    - destruct y as [s|[|]|s pl h|s m e h]; try discriminate; reflexivity.
    - destruct y as [s|[|]|s pl h|s m e h]; try discriminate; reflexivity.
  Qed.
  Lemma sub_not_nan (x y : F) : is_finite x = true -> is_nan y = false -> is_nan (b_sub np x y) = false.
  Proof.
    intros Fx N. destruct (inf_cases y N) as [H|[->| ->]].
    - now apply key_sub.
    - destruct x as [s|[|]|s pl h|s m e h]; try discriminate; reflexivity.
    - destruct x as [s|[|]|s pl h|s m e h]; try discriminate; reflexivity.
  Qed.
  Lemma div_not_nan (x y : F) : is_nan x = false -> is_finite y = true -> (0 < B2R y)%R ->
    is_nan (b_div np x y) = false.
  Proof.
    intros N Fy Py. destruct (inf_cases x N) as [H|[->| ->]].
    - apply key_div; auto. lra.
    - pose proof (sign_pos y Py) as S. destruct y as [s|[|]|s pl h|s m e h]; try discriminate; reflexivity.
    - pose proof (sign_pos y Py) as S. destruct y as [s|[|]|s pl h|s m e h]; try discriminate; reflexivity.
  Qed.

  (** Counts below 2^prec are exact; larger ones are positive and may be infinite. *)
  Lemma count_exact n : (Z.of_nat n <= 2 ^ prec)%Z ->
    is_finite (float_count n : F) = true /\ B2R (float_count n) = INR n.
  Proof.
    intros H. unfold float_count. rewrite INR_IZR_INZ. apply of_Z_exact. lia.
  Qed.

  Lemma count_positive n : (64 < emax)%Z -> usize n -> 0 < n ->
    is_finite (float_count n : F) = true /\ (0 < B2R (float_count n))%R.
  Proof.
    intros E U N. unfold float_count, usize in *. pose proof prec_pos as PP.
    assert (L : (rnd' (IZR (Z.of_nat n)) <= bpow radix2 64)%R).
    { rewrite <- (rnd_format (prec:=prec) (emax:=emax) (bpow radix2 64)).
      - apply rnd_le. rewrite <- (IZR_Zpower radix2) by lia. apply IZR_le. simpl radix_val. lia.
      - apply generic_format_bpow. unfold SpecFloat.fexp, SpecFloat.emin. pose proof prec_emax. lia. }
    assert (G : (1 <= rnd' (IZR (Z.of_nat n)))%R).
    { rewrite <- (rnd_format (prec:=prec) (emax:=emax) 1).
      - apply rnd_le. apply IZR_le. lia.
      - apply (format_IZR 1). simpl. pose proof (Z.pow_gt_1 2 prec). lia. }
    assert (Bd : (Rabs (rnd' (IZR (Z.of_nat n))) < bpow radix2 emax)%R).
    { rewrite Rabs_pos_eq by lra. eapply Rle_lt_trans; [exact L|]. now apply bpow_lt. }
    destruct (of_Z_correct _ Bd) as [A B]. split; auto. rewrite B. lra.
  Qed.

  (** ** Sums *)
  Lemma float_sum_not_nan xs : Forall (fun x => is_finite x = true) xs ->
    forall a : F, is_nan a = false -> is_nan (fold_left (b_add np) xs a) = false.
  Proof.
    induction 1 as [|x xs Hx _ IH]; simpl; auto. intros a Na. apply IH. now apply add_not_nan.
  Qed.
  Lemma representable_format r : @representable prec emax r -> rounded (prec:=prec) (emax:=emax) r = r /\ (Rabs r < bpow radix2 emax)%R.
  Proof.
    intros [x [Fx <-]]. split; [apply rnd_B2R|apply B2R_bound].
  Qed.
  Lemma real_sum_snoc rs r : real_sum (rs ++ [r]) = (real_sum rs + r)%R.
  Proof. unfold real_sum. induction rs; simpl; lra. Qed.
  Lemma float_sum_exact (xs : list F) :
    Forall (fun x => is_finite x = true) xs -> exact_sums prec emax (map B2R xs) ->
    is_finite (float_sum np xs) = true /\ B2R (float_sum np xs) = real_sum (map B2R xs).
  Proof.
    unfold float_sum. induction xs as [|x l IH] using rev_ind; intros HF HE; [split; auto|].
    rewrite map_app in HE |- *. simpl in HE |- *. rewrite real_sum_snoc, fold_left_app. simpl.
    apply Forall_app in HF. destruct HF as [HF HX]. inversion HX; subst.
    destruct IH as [I1 I2]; auto.
    { intros k. destruct (le_lt_dec k (length (map B2R l))) as [L|L].
      - specialize (HE k). rewrite firstn_app in HE. replace (k - _) with 0 in HE by lia.
        rewrite firstn_O, app_nil_r in HE. exact HE.
      - rewrite firstn_all2 by lia. specialize (HE (length (map B2R l))).
        rewrite firstn_app, firstn_all, Nat.sub_diag, firstn_O, app_nil_r in HE. exact HE. }
    specialize (HE (S (length (map B2R l)))).
    rewrite firstn_all2 in HE by (rewrite app_length; simpl; lia). rewrite real_sum_snoc in HE.
    destruct (representable_format _ HE) as [R1 R2]. rewrite <- I2 in *. unfold rounded in R1.
    destruct (add_correct np (fold_left (b_add np) l (Binary.B754_zero false)) x) as [A1 A2]; auto.
    - rewrite R1. exact R2.
    - split; auto. rewrite A2. exact R1.
  Qed.
End NonNeg.

(** ** Averages and deviations *)
Section Goals.
  Context {T : Type}.
  Variable np64 : nan_policy 53 1024.
  Notation results := (list (option (T * f64))).

  Lemma somes_present {A} (l : list (option A)) : somes l = present l.
  Proof. induction l as [|[x|] l IH]; simpl; congruence. Qed.
  Lemma present_app {A} (l1 l2 : list (option A)) : present (l1 ++ l2) = present l1 ++ present l2.
  Proof. apply flat_map_app. Qed.
  Lemma present_nil {A} (l : list (option A)) : present l = [] <-> forall o, In o l -> o = None.
  Proof.
    induction l as [|[x|] l IH]; simpl.
    - split; auto. intros _ o [].
    - split; [discriminate|]. intros H. discriminate (H (Some x) (or_introl eq_refl)).
    - rewrite IH. split; intros H o; [intros [<-|H']; auto|auto].
  Qed.
  Lemma length_goals (l : results) : length (goals l) = length (present l).
  Proof. apply map_length. Qed.
  Lemma fold_snd (f : f64 -> f64) (l : list (T * f64)) a :
    fold_left (fun acc s => b_add np64 acc (f (snd s))) l a =
    fold_left (b_add np64) (map f (map snd l)) a.
  Proof. revert a. induction l; simpl; auto. Qed.
  Lemma map_id' {A} (l : list A) : map (fun x => x) l = l.
  Proof. apply map_id. Qed.

  Notation mean64 := (mean64 np64).
  Lemma average_goal (l : results) : get_average_goal np64 l =
    if length (present l) =? 0 then None else Some (mean64 (goals l)).
  Proof.
    unfold get_average_goal, mean64. rewrite somes_present, length_goals.
    rewrite (fold_snd (fun x => x)), map_id'. reflexivity.
  Qed.
  Notation deviation64 := (deviation64 np64).
  Lemma present_length {A} (l : list (option A)) : length (present l) <= length l.
  Proof. induction l as [|[x|] l IH]; simpl; lia. Qed.
  Lemma deviation_goal (l : results) : get_standard_deviation_goal np64 l =
    if length (present l) <? 2 then None else Some (deviation64 (goals l)).
  Proof.
    unfold get_standard_deviation_goal, deviation64. rewrite average_goal, somes_present, length_goals.
    pose proof (present_length l). destruct (Nat.eqb_spec (length (present l)) 0) as [E|E].
    - rewrite E. reflexivity.
    - destruct (Nat.ltb_spec (length (present l)) 2) as [L|L].
      + destruct (Nat.ltb_spec (length l) 2); auto.
      + destruct (Nat.ltb_spec (length l) 2); [lia|].
        rewrite (fold_snd (fun g => b_mul np64 (b_sub np64 g (mean64 (goals l))) (b_sub np64 g (mean64 (goals l))))).
        reflexivity.
  Qed.

  Lemma average_none (l : results) : get_average_goal np64 l = None <-> forall o, In o l -> o = None.
  Proof.
    rewrite average_goal, <- present_nil. destruct (present l); simpl; split; congruence.
  Qed.
  Lemma average_value (l : results) a : get_average_goal np64 l = Some a ->
    a = b_div np64 (float_sum np64 (goals l)) (float_count (length (goals l))).
  Proof. rewrite average_goal. destruct (_ =? 0); intros H; inversion H; reflexivity. Qed.
  Lemma deviation_none (l : results) : get_standard_deviation_goal np64 l = None <-> length (present l) < 2.
  Proof. rewrite deviation_goal. destruct (Nat.ltb_spec (length (present l)) 2); split; intros; try lia; congruence. Qed.

  Lemma mean_not_nan gs : usize (length gs) -> gs <> [] -> Forall (fun g => is_finite g = true) gs ->
    is_nan (mean64 gs) = false.
  Proof.
    intros U N H. unfold mean64. assert (P : 0 < length gs) by (destruct gs; [congruence|simpl; lia]).
    destruct (count_positive (prec:=53) (emax:=1024) (length gs) eq_refl U P) as [C1 C2].
    apply div_not_nan; auto. unfold float_sum. apply float_sum_not_nan; auto.
  Qed.
  Lemma float_sum_non_negative (gs : list f64) : Forall non_negative gs ->
    forall a : f64, non_negative a -> non_negative (fold_left (b_add np64) gs a).
  Proof. induction 1; simpl; auto. intros a Ha. apply IHForall. now apply non_negative_add. Qed.
  Lemma deviation_non_negative (l : results) d : usize (length l) ->
    Forall (fun g => is_finite g = true) (goals l) -> get_standard_deviation_goal np64 l = Some d ->
    non_negative d.
  Proof.
    rewrite deviation_goal. intros U HF. pose proof (present_length l) as PL. rewrite <- length_goals in PL. rewrite <- length_goals.
    destruct (Nat.ltb_spec (length (goals l)) 2) as [L|L]; [discriminate|]. intros E. inversion E. subst d.
    unfold deviation64. apply non_negative_sqrt. unfold usize in *.
    destruct (count_positive (prec:=53) (emax:=1024) (length (goals l) - 1)) as [C1 C2];
      [reflexivity|unfold usize; lia|lia|].
    apply non_negative_div; auto. apply float_sum_non_negative; [|apply non_negative_zero].
    apply Forall_forall. intros x Hx. apply in_map_iff in Hx. destruct Hx as [g [<- Hg]].
    apply non_negative_square. apply sub_not_nan.
    - rewrite Forall_forall in HF. auto.
    - apply mean_not_nan; auto; [unfold usize; change (Binary.binary_float 53 1024) with f64 in *; lia|]. intros E'. rewrite E' in L. simpl in L. lia.
  Qed.

  Lemma missing_ignored (l1 l2 : results) :
    get_average_goal np64 (l1 ++ None :: l2) = get_average_goal np64 (l1 ++ l2) /\
    get_standard_deviation_goal np64 (l1 ++ None :: l2) = get_standard_deviation_goal np64 (l1 ++ l2).
  Proof.
    rewrite !average_goal, !deviation_goal. unfold goals. rewrite !present_app. auto.
  Qed.

  (** *** Exact data *)
  Notation B2R := (Binary.B2R 53 1024).
  Notation rnd := (rounded (prec:=53) (emax:=1024)).
  Lemma Rabs_div_count r n : 0 < n -> (Rabs (r / INR n) <= Rabs r)%R.
  Proof.
    intros N. assert (1 <= INR n)%R by (apply (le_INR 1); lia).
    unfold Rdiv. rewrite Rabs_mult. rewrite <- (Rmult_1_r (Rabs r)) at 2.
    apply Rmult_le_compat_l; [apply Rabs_pos|]. rewrite Rabs_inv, Rabs_pos_eq by lra.
    rewrite <- Rinv_1. apply Rinv_le; lra.
  Qed.
  Lemma rnd_abs_le (x : f64) r : (Rabs r <= Rabs (B2R x))%R -> (Rabs (rnd r) < bpow radix2 1024)%R.
  Proof.
    intros H. eapply Rle_lt_trans; [|apply (B2R_bound x)].
    unfold rounded. apply abs_round_le_generic; auto.
    - apply (BinarySingleNaN.fexp_correct 53 1024 Hprec64).
    - apply valid_rnd_round_mode.
    - apply generic_format_abs. apply format_B2R.
  Qed.
  Lemma div_count_exact (x : f64) n : is_finite x = true -> 0 < n -> (Z.of_nat n <= 2 ^ 53)%Z ->
    is_finite (b_div np64 x (float_count n)) = true /\ B2R (b_div np64 x (float_count n)) = rnd (B2R x / INR n).
  Proof.
    intros Fx N B. destruct (count_exact (prec:=53) (emax:=1024) n B) as [C1 C2].
    assert (0 < INR n)%R by (apply lt_0_INR; lia).
    destruct (div_correct np64 x (float_count n)) as [A1 A2]; auto.
    - rewrite C2. lra.
    - rewrite C2. apply (rnd_abs_le x). now apply Rabs_div_count.
    - split; auto. rewrite A2, C2. reflexivity.
  Qed.
  Lemma mean_exact gs : Forall (fun g => is_finite g = true) gs -> gs <> [] ->
    (Z.of_nat (length gs) <= 2 ^ 53)%Z -> exact_sums 53 1024 (map B2R gs) ->
    is_finite (mean64 gs) = true /\ B2R (mean64 gs) = rnd (real_sum (map B2R gs) / INR (length gs)).
  Proof.
    intros HF N B HE. destruct (float_sum_exact np64 gs HF HE) as [S1 S2]. unfold mean64.
    destruct (div_count_exact (float_sum np64 gs) (length gs)) as [A1 A2]; auto.
    - destruct gs; [congruence|simpl; lia].
    - split; auto. etransitivity; [exact A2|]. rewrite S2. reflexivity.
  Qed.
  (** The deviation when every intermediate result but the last two is representable. *)
  Lemma deviation_exact gs m :
    let sq := fun r => ((r - m) * (r - m))%R in
    Forall (fun g => is_finite g = true) gs -> 2 <= length gs ->
    (Z.of_nat (length gs) <= 2 ^ 53)%Z -> exact_sums 53 1024 (map B2R gs) ->
    m = (real_sum (map B2R gs) / INR (length gs))%R -> @representable 53 1024 m ->
    (forall g, In g gs -> @representable 53 1024 (B2R g - m) /\ @representable 53 1024 (sq (B2R g))) ->
    exact_sums 53 1024 (map sq (map B2R gs)) ->
    is_finite (deviation64 gs) = true /\
    B2R (deviation64 gs) = rnd (sqrt (rnd (real_sum (map sq (map B2R gs)) / INR (length gs - 1)))).
  Proof.
    intros sq HF N B HE Em Rm HD HS.
    destruct (mean_exact gs HF) as [M1 M2]; auto.
    { intros ->. simpl in N. lia. }
    rewrite <- Em in M2. rewrite (proj1 (representable_format m Rm)) in M2.
    set (f := fun g => b_mul np64 (b_sub np64 g (mean64 gs)) (b_sub np64 g (mean64 gs))).
    assert (Hf : forall g, In g gs -> is_finite (f g) = true /\ B2R (f g) = sq (B2R g)).
    { intros g Hg. destruct (HD g Hg) as [D1 D2]. rewrite Forall_forall in HF. specialize (HF g Hg).
      apply representable_format in D1. apply representable_format in D2. unfold rounded in *.
      destruct D1 as [D1 D1'], D2 as [D2 D2']. unfold f.
      destruct (sub_correct np64 g (mean64 gs)) as [S1 S2]; auto.
      { rewrite M2, D1. exact D1'. }
      rewrite M2, D1 in S2.
      destruct (mul_correct np64 (b_sub np64 g (mean64 gs)) (b_sub np64 g (mean64 gs))) as [P1 P2]; auto.
      { rewrite S2. unfold sq in D2, D2'. rewrite D2. exact D2'. }
      split; auto. rewrite P2, S2. exact D2. }
    assert (Em' : map B2R (map f gs) = map sq (map B2R gs)).
    { rewrite !map_map. apply map_ext_in. intros g Hg. now apply Hf. }
    destruct (float_sum_exact np64 (map f gs)) as [T1 T2].
    { apply Forall_forall. intros x Hx. apply in_map_iff in Hx. destruct Hx as [g [<- Hg]]. now apply Hf. }
    { rewrite Em'. exact HS. }
    rewrite Em' in T2.
    destruct (div_count_exact (float_sum np64 (map f gs)) (length gs - 1)) as [Q1 Q2]; auto; try lia.
    unfold deviation64. fold f.
    set (q := b_div np64 (float_sum np64 (map f gs)) (float_count (length gs - 1))) in *.
    assert (Q2' : B2R q = rnd (real_sum (map sq (map B2R gs)) / INR (length gs - 1))).
    { etransitivity; [exact Q2|]. now rewrite T2. }
    assert (QN : non_negative q).
    { apply non_negative_key. split; [now apply finite_not_nan|]. rewrite key_finite by auto. rewrite Q2'.
      apply rnd_pos. apply Rmult_le_pos.
      - clear. induction (map B2R gs) as [|r rs IH]; [simpl; lra|].
        change (0 <= sq r + real_sum (map sq rs))%R. pose proof (Rle_0_sqr (r - m)).
        unfold Rsqr in *. unfold sq at 1. lra.
      - left. apply Rinv_0_lt_compat. apply lt_0_INR. lia. }
    destruct (Binary.Bsqrt_correct 53 1024 Hprec64 Hemax64 (np_sqrt np64) mode_NE q) as [A1 [A2 _]].
    split.
    - unfold is_finite in *. etransitivity; [exact A2|].
      destruct q as [s|[|]|s pl h|[|] mm e h]; auto; discriminate.
    - etransitivity; [exact A1|]. rewrite Q2'. reflexivity.
  Qed.

  Lemma deviation_value (l : results) d : get_standard_deviation_goal np64 l = Some d -> d = deviation64 (goals l).
  Proof. rewrite deviation_goal. destruct (_ <? 2); intros H; inversion H; reflexivity. Qed.
End Goals.

(** ** Uniting *)
Lemma nth_error_united {A} (a b : list A) :
  (forall i, i < length a -> nth_error (a ++ b) i = nth_error a i) /\
  (forall i, nth_error (a ++ b) (length a + i) = nth_error b i).
Proof.
  split; intros.
  - now apply nth_error_app1.
  - rewrite nth_error_app2 by lia. f_equal. lia.
Qed.
Lemma unite_runs {T} (a b : statistics T) :
  get_run_count (unite a b) = get_run_count a + get_run_count b /\
  length (convergence (unite a b)) = length (convergence a) + length (convergence b) /\
  (forall i, i < get_run_count a -> nth_error (results (unite a b)) i = nth_error (results a) i) /\
  (forall i, nth_error (results (unite a b)) (get_run_count a + i) = nth_error (results b) i) /\
  (forall i, i < length (convergence a) -> nth_error (convergence (unite a b)) i = nth_error (convergence a) i) /\
  (forall i, nth_error (convergence (unite a b)) (length (convergence a) + i) = nth_error (convergence b) i).
Proof.
  unfold get_run_count, unite. simpl. rewrite !app_length.
  destruct (nth_error_united (results a) (results b)), (nth_error_united (convergence a) (convergence b)).
  auto 10.
Qed.
Lemma unite_laws {T} (a b c : statistics T) :
  unite a (unite b c) = unite (unite a b) c /\ unite statistics_new a = a /\ unite a statistics_new = a.
Proof.
  unfold unite, statistics_new. destruct a; simpl. rewrite !app_assoc, !app_nil_r. auto.
Qed.
Lemma ccd_unite_runs (a b : call_count_data) :
  length (ccd_unite a b) = length a + length b /\
  (forall i, i < length a -> nth_error (ccd_unite a b) i = nth_error a i) /\
  (forall i, nth_error (ccd_unite a b) (length a + i) = nth_error b i).
Proof.
  unfold ccd_unite. rewrite app_length. destruct (nth_error_united a b). auto.
Qed.
Lemma ccd_unite_laws (a b c : call_count_data) :
  ccd_unite a (ccd_unite b c) = ccd_unite (ccd_unite a b) c /\ ccd_unite ccd_new a = a /\ ccd_unite a ccd_new = a.
Proof. unfold ccd_unite, ccd_new. rewrite app_assoc, app_nil_r. auto. Qed.

(** ** Average convergence *)
Lemma omap_ext {A B} (f : A -> outcome B) g l : (forall x, In x l -> f x = Ret (g x)) -> omap f l = Ret (map g l).
Proof.
  induction l as [|x l IH]; simpl; auto. intros H. rewrite H by auto. simpl. rewrite IH by auto. reflexivity.
Qed.

Section Convergence.
  Context {T : Type}.
  Variable np64 : nan_policy 53 1024.
  Notation table := (list (list (option (T * f64)))).

  Lemma min_fold (c : table) m :
    (fold_left (fun min_len x => if length x <? min_len then length x else min_len) c m = m \/
     exists row, In row c /\
       length row = fold_left (fun min_len x => if length x <? min_len then length x else min_len) c m) /\
    fold_left (fun min_len x => if length x <? min_len then length x else min_len) c m <= m /\
    (forall row, In row c ->
       fold_left (fun min_len x => if length x <? min_len then length x else min_len) c m <= length row).
  Proof.
    revert m. induction c as [|r c IH]; simpl; intros m; [intuition|].
    destruct (IH (if length r <? m then length r else m)) as [A [B C]].
    destruct (Nat.ltb_spec (length r) m) as [L|L]; (split; [|split]).
    - destruct A as [A|[row [A1 A2]]]; right; [exists r|exists row]; auto.
    - lia.
    - intros row [<-|H]; auto.
    - destruct A as [A|[row [A1 A2]]]; [auto|right; exists row; auto].
    - lia.
    - intros row [<-|H]; auto. lia.
  Qed.
  Lemma min_iterations (c : table) : exists n, get_min_iterations c = Ret n /\ shortest c n.
  Proof.
    unfold get_min_iterations, shortest. destruct c as [|first c]; [eexists; split; [reflexivity|auto]|].
    eexists. split; [reflexivity|]. right.
    destruct (min_fold (first :: c) (length first)) as [A [B C]]. split; auto.
    destruct A as [A|[row [A1 A2]]]; [exists first|exists row]; auto. split; [now left|auto].
  Qed.

  Lemma column_app (c1 c2 : table) i : column (c1 ++ c2) i = column c1 i ++ column c2 i.
  Proof. apply flat_map_app. Qed.
  Definition add_cell (c : table) (i : nat) '(sum, sum_count) run : outcome (f64 * nat) :=
    let! row := index c run in
    let! cell := index row i in
    Ret (match cell with
         | Some (_, g) => (b_add np64 sum g, sum_count + 1)
         | None => (sum, sum_count)
         end).
  Lemma column_fold (suf : table) : forall pre i sum n,
    (forall row, In row suf -> i < length row) ->
    ofold (add_cell (pre ++ suf) i) (seq (length pre) (length suf)) (sum, n) =
    Ret (fold_left (b_add np64) (column suf i) sum, n + length (column suf i)).
  Proof.
    induction suf as [|row suf IH]; intros pre i sum n H; simpl.
    - f_equal. f_equal. lia.
    - unfold index at 1. rewrite nth_error_app2, Nat.sub_diag by lia. simpl.
      unfold index. destruct (nth_error row i) as [cell|] eqn:E.
      2: { apply nth_error_None in E. specialize (H row (or_introl eq_refl)). lia. }
      simpl. replace (pre ++ row :: suf) with ((pre ++ [row]) ++ suf) by (rewrite <- app_assoc; reflexivity).
      replace (S (length pre)) with (length (pre ++ [row])) by (rewrite app_length; simpl; lia).
      destruct cell as [[x g]|]; rewrite IH by (intros; apply H; simpl; auto); simpl; f_equal; f_equal; lia.
  Qed.
  Lemma average_convergence (c : table) : exists l,
    get_average_convergence np64 c = Ret l /\ shortest c (length l) /\
    forall i, i < length l ->
      (column c i = [] -> nth_error l i = Some None) /\
      (column c i <> [] -> nth_error l i =
         Some (Some (b_div np64 (float_sum np64 (column c i)) (float_count (length (column c i)))))).
  Proof.
    destruct (min_iterations c) as [n [E S]]. unfold get_average_convergence. rewrite E. cbn [obind].
    assert (R : forall i row, i < n -> In row c -> i < length row).
    { intros i row Hi Hr. destruct S as [[-> _]|[_ S]]; [contradiction|]. specialize (S row Hr). lia. }
    exists (map (fun i => if length (column c i) =? 0 then None else
                    Some (b_div np64 (float_sum np64 (column c i)) (float_count (length (column c i))))) (seq 0 n)).
    split.
    - rewrite omap_ext with
        (g := fun i => if length (column c i) =? 0 then None else
                    Some (b_div np64 (float_sum np64 (column c i)) (float_count (length (column c i))))); auto.
      intros i Hi. apply in_seq in Hi.
      pose proof (column_fold c [] i (b_of_Z 0) 0) as C. simpl in C.
      match goal with |- context [ofold ?f ?l ?s] => change (ofold f l s) with (ofold (add_cell c i) l s) end.
      rewrite C by (intros; apply R; auto; lia). simpl.
      destruct (length (column c i)); reflexivity.
    - rewrite map_length, seq_length. split; auto. intros i Hi.
      assert (N : nth_error (seq 0 n) i = Some i).
      { rewrite (nth_error_nth' (seq 0 n) 0) by (rewrite seq_length; lia). now rewrite seq_nth. }
      rewrite (map_nth_error _ i _ N).
      destruct (column c i) as [|g gs]; split; intros H; try congruence; reflexivity.
  Qed.
  Lemma average_convergence_none (c : table) l i : get_average_convergence np64 c = Ret l -> i < length l ->
    (nth_error l i = Some None <-> forall row, In row c -> nth_error row i = Some None).
  Proof.
    intros E Hi. destruct (average_convergence c) as [l' [E' [S H]]]. rewrite E in E'. inversion E'. subst l'.
    destruct (H i Hi) as [H1 H2].
    assert (C : column c i = [] <-> forall row, In row c -> nth_error row i = Some None).
    { assert (R : forall row, In row c -> i < length row).
      { intros row Hr. destruct S as [[-> _]|[_ S]]; [contradiction|]. specialize (S row Hr). lia. }
      clear - R. induction c as [|row c IH]; simpl; [intuition|].
      destruct (nth_error row i) as [[[x g]|]|] eqn:Er; simpl.
      - split; [discriminate|]. intros H. specialize (H row (or_introl eq_refl)). congruence.
      - rewrite IH by (intros; apply R; simpl; auto). split; intros H r; [intros [<-|Hr]; auto|auto].
      - apply nth_error_None in Er. specialize (R row (or_introl eq_refl)). lia. }
    rewrite <- C. split; auto. intros G. destruct (column c i) as [|g gs]; auto.
    rewrite H2 in G by discriminate. discriminate.
  Qed.
End Convergence.

(** ** Averages of vectors *)
Section Vectors.
  Context {T : Type} {FT : FloatTrait T} (np64 : nan_policy 53 1024).
  Notation sol := (list T * f64)%type.

  Lemma vectorize_spec (v1 v2 : list T) f :
    (length v1 = length v2 -> vectorize v1 v2 f = Ret (map (fun xy => f (fst xy) (snd xy)) (combine v1 v2))) /\
    (length v1 <> length v2 -> vectorize v1 v2 f = Panic).
  Proof.
    unfold vectorize. destruct (Nat.eqb_spec (length v1) (length v2)); split; intros; try lia; reflexivity.
  Qed.
  Definition comps (j : nat) (l : list sol) : list T :=
    flat_map (fun xg => match nth_error (fst xg) j with Some x => [x] | None => [] end) l.

  Definition add_vec (solution : option (list T)) (cur : sol) : outcome (option (list T)) :=
    match solution with
    | None => Ret (Some (fst cur))
    | Some vector =>
        let! _ := oassert (length (fst cur) =? length vector) in
        let! v := vectorize vector (fst cur) fadd in
        Ret (Some v)
    end.
  Lemma nth_zip f (v1 v2 : list T) j x y : nth_error v1 j = Some x -> nth_error v2 j = Some y ->
    nth_error (map (fun xy : T * T => f (fst xy) (snd xy)) (combine v1 v2)) j = Some (f x y : T).
  Proof.
    revert v2 j. induction v1 as [|a v1 IH]; intros [|b v2] [|j]; simpl; try discriminate.
    - intros E1 E2. now inversion E1; inversion E2.
    - apply IH.
  Qed.
  Lemma add_vecs (l : list sol) : forall v,
    (Forall (fun s => length (fst s) = length v) l -> exists w,
       ofold add_vec l (Some v) = Ret (Some w) /\ length w = length v /\
       forall j x, nth_error v j = Some x -> nth_error w j = Some (fold_left fadd (comps j l) x)) /\
    (~ Forall (fun s => length (fst s) = length v) l -> ofold add_vec l (Some v) = Panic).
  Proof.
    induction l as [|[y g] l IH]; intros v; simpl.
    - split; [|intros H; destruct H; constructor]. intros _. exists v. auto.
    - split.
      + intros H. inversion H as [|? ? H1 H2]. subst. simpl in H1. rewrite H1, Nat.eqb_refl. simpl.
        rewrite (proj1 (vectorize_spec v y fadd)) by auto. simpl.
        destruct (IH (map (fun xy => fadd (fst xy) (snd xy)) (combine v y))) as [A _].
        destruct A as [w [A1 [A2 A3]]].
        { rewrite map_length, combine_length, <- H1, Nat.min_id. rewrite H1. exact H2. }
        rewrite map_length, combine_length, <- H1, Nat.min_id in A2.
        exists w. split; auto. split; [congruence|]. intros j x Hj.
        destruct (nth_error y j) as [z|] eqn:Ez.
        2: { apply nth_error_None in Ez. assert (nth_error v j <> None) as NN by congruence.
             apply nth_error_Some in NN. lia. }
        simpl. apply A3. now apply nth_zip.
      + intros H. destruct (Nat.eqb_spec (length y) (length v)) as [E|E]; [|reflexivity]. simpl.
        rewrite (proj1 (vectorize_spec v y fadd)) by auto. simpl.
        apply IH. rewrite map_length, combine_length, <- E, Nat.min_id. rewrite E. intros C. apply H.
        constructor; auto.
  Qed.

  Lemma mixed_head (s : sol) (l : list (option sol)) t : present l = s :: t ->
    (mixed l <-> ~ Forall (fun q => length (fst q) = length (fst s)) t).
  Proof.
    intros E. unfold mixed. rewrite E. split.
    - intros [p [q [Hp [Hq H]]]] F. rewrite Forall_forall in F. apply H.
      destruct Hp as [<-|Hp], Hq as [<-|Hq]; auto; try (symmetry; auto; fail).
      rewrite (F p Hp), (F q Hq). auto.
    - intros H. apply neg_Forall_Exists_neg in H; [|intros; apply Nat.eq_dec].
      apply Exists_exists in H. destruct H as [q [Hq Hn]]. exists q, s. simpl. auto.
  Qed.

  Lemma comps_present j (l : list (option sol)) : components j l = comps j (present l).
  Proof. reflexivity. Qed.
  Lemma comps_length j (l : list sol) d : j < d -> Forall (fun q => length (fst q) = d) l ->
    length (comps j l) = length l.
  Proof.
    intros L. induction 1 as [|[x g] l H _ IH]; simpl; auto. simpl in H.
    destruct (nth_error x j) eqn:E; [simpl; auto|]. apply nth_error_None in E. lia.
  Qed.

  Lemma average_panic (l : list (option sol)) : get_average np64 l = Panic <-> mixed l.
  Proof.
    unfold get_average. rewrite average_goal, somes_present.
    destruct (present l) as [|s t] eqn:E; simpl.
    - split; [discriminate|]. intros [p [q [Hp _]]]. rewrite E in Hp. contradiction.
    - rewrite (mixed_head s l t E). destruct s as [x g]. simpl.
      match goal with |- context [ofold ?f ?l ?s] => change (ofold f l s) with (ofold add_vec l s) end.
      destruct (add_vecs t x) as [A B].
      destruct (Forall_dec (fun q : sol => length (fst q) = length x) (fun q => Nat.eq_dec _ _) t) as [D|D].
      + destruct (A D) as [w [A1 _]]. rewrite A1. simpl. split; [discriminate|contradiction].
      + rewrite (B D). simpl. split; auto.
  Qed.
  Lemma average_spec (l : list (option sol)) : ~ mixed l ->
    (present l = [] -> get_average np64 l = Ret None) /\
    (forall s, In s (present l) -> exists v goal,
       get_average np64 l = Ret (Some (v, goal)) /\ get_average_goal np64 l = Some goal /\
       length v = length (fst s) /\
       forall j, j < length v -> nth_error v j = Some (mean_of (components j l))).
  Proof.
    intros M. unfold get_average. rewrite average_goal, somes_present.
    destruct (present l) as [|[x g] t] eqn:E; simpl; (split; [intros H; try discriminate; auto|]).
    - intros s [].
    - rewrite (mixed_head _ l t E) in M. simpl in M.
      destruct (Forall_dec (fun q : sol => length (fst q) = length x) (fun q => Nat.eq_dec _ _) t) as [D|D];
        [|contradiction].
      destruct (add_vecs t x) as [A _]. destruct (A D) as [w [A1 [A2 A3]]].
      intros s Hs.
      match goal with |- context [ofold ?f ?l ?s] => change (ofold f l s) with (ofold add_vec l s) end.
      rewrite A1. simpl. eexists _, _. split; [reflexivity|].
      split; [reflexivity|]. rewrite map_length. split.
      + destruct Hs as [<-|Hs]; auto. rewrite Forall_forall in D. rewrite (D s Hs). auto.
      + intros j Hj. rewrite comps_present, E. simpl.
        destruct (nth_error x j) as [y|] eqn:Ey.
        2: { apply nth_error_None in Ey. lia. }
        erewrite map_nth_error by (apply A3; exact Ey). simpl. f_equal. unfold mean_of. simpl. f_equal.
        rewrite (comps_length j t (length x)) by (auto; lia). reflexivity.
  Qed.

  Definition add_dev (avg : list T) (sum : option (list T)) (cur : sol) : outcome (option (list T)) :=
    let diff_2 := fun x y => fmul (fsub x y) (fsub x y) in
    match sum with
    | None => let! d := vectorize (fst cur) avg diff_2 in Ret (Some d)
    | Some vector =>
        let! _ := oassert (length (fst cur) =? length vector) in
        let! d := vectorize (fst cur) avg diff_2 in
        let! v := vectorize vector d fadd in
        Ret (Some v)
    end.
  Definition devs (avg : list T) (s : sol) : sol :=
    (map (fun xy => fmul (fsub (fst xy) (snd xy)) (fsub (fst xy) (snd xy))) (combine (fst s) avg), snd s).
  Lemma devs_length avg s : length (fst s) = length avg -> length (fst (devs avg s)) = length avg.
  Proof. intros H. simpl. now rewrite map_length, combine_length, H, Nat.min_id. Qed.
  Lemma add_dev_map avg (l : list sol) : Forall (fun s => length (fst s) = length avg) l ->
    forall o, ofold (add_dev avg) l o = ofold add_vec (map (devs avg) l) o.
  Proof.
    induction 1 as [|s l Hs _ IH]; simpl; auto. intros o.
    assert (E : add_dev avg o s = add_vec o (devs avg s)).
    { unfold add_dev, add_vec. rewrite (proj1 (vectorize_spec (fst s) avg _)) by auto. simpl.
      rewrite map_length, combine_length, <- Hs, Nat.min_id. reflexivity. }
    rewrite E. destruct (add_vec o (devs avg s)); simpl; auto.
  Qed.
  Lemma comps_devs j m avg (l : list sol) : nth_error avg j = Some m ->
    comps j (map (devs avg) l) = map (squared_deviation m) (comps j l).
  Proof.
    intros Hm. induction l as [|[x g] l IH]; simpl; auto. rewrite IH.
    destruct (nth_error x j) as [y|] eqn:Ey.
    - rewrite (nth_zip (fun a b => fmul (fsub a b) (fsub a b)) x avg j y m) by auto. reflexivity.
    - replace (nth_error _ j) with (@None T); auto. symmetry. apply nth_error_None.
      rewrite map_length, combine_length. apply nth_error_None in Ey. lia.
  Qed.
  Lemma present_two (l : list (option sol)) : mixed l -> 2 <= length (present l).
  Proof.
    intros [p [q [Hp [Hq N]]]]. destruct (present l) as [|a [|b t]]; simpl in *; try lia; try contradiction.
    destruct Hp as [<-|[]], Hq as [<-|[]]. congruence.
  Qed.
  Lemma deviation_panic (l : list (option sol)) : mixed l -> get_standard_deviation np64 l = Panic.
  Proof.
    intros M. unfold get_standard_deviation. apply average_panic in M. now rewrite M.
  Qed.
  Lemma deviation_spec (l : list (option sol)) : ~ mixed l ->
    (length (present l) < 2 -> get_standard_deviation np64 l = Ret None) /\
    (2 <= length (present l) -> forall s, In s (present l) -> exists v goal,
       get_standard_deviation np64 l = Ret (Some (v, goal)) /\ get_standard_deviation_goal np64 l = Some goal /\
       length v = length (fst s) /\
       forall j, j < length v -> nth_error v j = Some (deviation_of (components j l))).
  Proof.
    intros M. destruct (average_spec l M) as [A1 A2]. unfold get_standard_deviation. rewrite deviation_goal. split.
    - intros L. destruct (Nat.ltb_spec (length (present l)) 2); [|lia].
      destruct (present l) as [|s t].
      + rewrite A1 by auto. reflexivity.
      + destruct (A2 s (or_introl eq_refl)) as [v [goal [E _]]]. rewrite E. reflexivity.
    - intros L s Hs. destruct (A2 s Hs) as [v [goal [E [_ [LV HV]]]]]. rewrite E. simpl.
      destruct (Nat.ltb_spec (length (present l)) 2); [lia|]. rewrite somes_present.
      destruct (Nat.ltb_spec (length (present l)) 2); [lia|].
      match goal with |- context [ofold ?f ?l ?s] => change (ofold f l s) with (ofold (add_dev v) l s) end.
      destruct (present l) as [|[x g] t] eqn:P; [contradiction|].
      rewrite (mixed_head _ l t P) in M. simpl in M.
      destruct (Forall_dec (fun q : sol => length (fst q) = length x) (fun q => Nat.eq_dec _ _) t) as [D|D];
        [|contradiction].
      assert (LX : length x = length v).
      { destruct Hs as [<-|Hs]; auto. rewrite Forall_forall in D. rewrite <- (D s Hs). auto. }
      rewrite LX in D. rewrite add_dev_map by (constructor; auto). simpl.
      destruct (add_vecs (map (devs v) t) (fst (devs v (x, g)))) as [A _].
      destruct A as [w [W1 [W2 W3]]].
      { rewrite devs_length by auto. apply Forall_forall. intros q Hq. apply in_map_iff in Hq.
        destruct Hq as [q' [<- Hq]]. rewrite Forall_forall in D. apply devs_length. auto. }
      simpl in W1. rewrite W1. simpl. eexists _, _. split; [reflexivity|]. split; [reflexivity|].
      rewrite map_length. rewrite devs_length in W2 by auto. split; [congruence|].
      intros j Hj. rewrite W2 in Hj. specialize (HV j Hj). rewrite comps_present, P in HV |- *.
      simpl in HV |- *.
      destruct (nth_error x j) as [y|] eqn:Ey.
      2: { apply nth_error_None in Ey. lia. }
      simpl in HV |- *.
      erewrite map_nth_error.
      2: { apply W3. simpl. apply (nth_zip (fun a b => fmul (fsub a b) (fsub a b)) x v j y); eauto. }
      simpl. unfold deviation_of. simpl. f_equal. f_equal. rewrite (comps_devs j _ v t HV).
      rewrite (comps_length j t (length v)) by (auto; lia). rewrite Nat.sub_0_r. reflexivity.
  Qed.
  Lemma deviation_panic_iff (l : list (option sol)) : get_standard_deviation np64 l = Panic <-> mixed l.
  Proof.
    split; [|apply deviation_panic]. intros E. apply average_panic. unfold get_standard_deviation in E.
    destruct (get_average np64 l) as [o| |] eqn:A; [|auto|discriminate].
    assert (M : ~ mixed l) by (rewrite <- average_panic, A; discriminate).
    destruct (deviation_spec l M) as [D1 D2]. unfold get_standard_deviation in *. rewrite A in *.
    destruct (le_lt_dec 2 (length (present l))) as [L|L].
    - destruct (present l) as [|s t] eqn:P; [simpl in L; lia|].
      destruct (D2 L s (or_introl eq_refl)) as [v [goal [D _]]]. rewrite E in D. discriminate.
    - rewrite D1 in E by auto. discriminate.
  Qed.
End Vectors.

(** In exact arithmetic these are the mean and the sample standard deviation. *)
Lemma sum1_real (xs : list R) : @sum1 R FloatR xs = real_sum xs.
Proof.
  destruct xs as [|x xs]; auto. simpl. revert x. induction xs as [|y xs IH]; intros x; simpl.
  - unfold real_sum. simpl. lra.
  - rewrite IH. unfold real_sum. simpl. lra.
Qed.
Lemma mean_real (xs : list R) : @mean_of R FloatR xs = (real_sum xs / INR (length xs))%R.
Proof. unfold mean_of. rewrite sum1_real. simpl. unfold fof_nat. simpl. now rewrite <- INR_IZR_INZ. Qed.
Lemma deviation_real (xs : list R) : @deviation_of R FloatR xs =
  sqrt (real_sum (map (fun x => Rsqr (x - real_sum xs / INR (length xs))) xs) / INR (length xs - 1)).
Proof.
  unfold deviation_of. rewrite sum1_real. unfold fof_nat, squared_deviation. cbn [fsqrt fdiv fof_Z fmul fsub FloatR].
  rewrite <- INR_IZR_INZ. rewrite mean_real. reflexivity.
Qed.

(** ** Success rate *)
Section Rate.
  Context {T : Type} (np64 : nan_policy 53 1024).
  Notation sol := (list T * f64)%type.
  Notation B2R := (Binary.B2R 53 1024).
  Lemma count_success p (l : list (option sol)) :
    length (filter p (somes l)) = length (filter (succeeds p) l).
  Proof. induction l as [|[s|] l IH]; simpl; auto. destruct (p s); simpl; auto. Qed.
  Lemma filter_all {A} (f : A -> bool) l : length (filter f l) = length l <-> forall x, In x l -> f x = true.
  Proof.
    induction l as [|x l IH]; simpl; [intuition|].
    assert (LL : length (filter f l) <= length l).
    { clear. induction l as [|y l IH]; simpl; auto. destruct (f y); simpl; lia. }
    destruct (f x) eqn:E; simpl.
    - split; [intros H|intros H; f_equal; apply IH; auto]. intros y [<-|Hy]; auto. apply IH; auto.
    - split; intros H; [lia|]. rewrite (H x) in E by auto. discriminate.
  Qed.
  Lemma filter_none {A} (f : A -> bool) l : length (filter f l) = 0 <-> forall x, In x l -> f x = false.
  Proof.
    induction l as [|x l IH]; simpl; [intuition|]. destruct (f x) eqn:E; simpl.
    - split; [lia|]. intros H. rewrite (H x) in E by auto. discriminate.
    - rewrite IH. split; intros H; [intros y [<-|Hy]; auto|auto].
  Qed.

  Notation rnd := (rounded (prec:=53) (emax:=1024)).
  Lemma format_bpow_53 m : (Z.abs m <= 2 ^ 53)%Z -> generic_format radix2 (SpecFloat.fexp 53 1024) (IZR m * bpow radix2 (-53)).
  Proof.
    intros H. destruct (Z.eq_dec (Z.abs m) (2 ^ 53)) as [E|E].
    - assert (G : generic_format radix2 (SpecFloat.fexp 53 1024) (bpow radix2 0)).
      { apply generic_format_bpow. unfold SpecFloat.fexp, SpecFloat.emin. lia. }
      assert (P : (IZR (2 ^ 53) * bpow radix2 (-53) = bpow radix2 0)%R).
      { change (2 ^ 53)%Z with (radix_val radix2 ^ 53)%Z. rewrite (IZR_Zpower radix2 53) by lia. rewrite <- bpow_plus. reflexivity. }
      destruct (Zabs_spec m) as [[_ Hn]|[_ Hn]]; rewrite Hn in E.
      + rewrite E, P. exact G.
      + replace m with (- 2 ^ 53)%Z by lia. rewrite opp_IZR, Ropp_mult_distr_l_reverse, P. now apply generic_format_opp.
    - apply generic_format_FLT with (emin := SpecFloat.emin 53 1024) (prec := 53%Z).
      apply FLT_spec with (Float radix2 m (-53)); unfold F2R; simpl; [reflexivity|lia|unfold SpecFloat.emin; lia].
  Qed.
  Lemma rnd_ge_format r g : generic_format radix2 (SpecFloat.fexp 53 1024) g -> (g <= r)%R -> (g <= rnd r)%R.
  Proof.
    intros G H. unfold rounded. rewrite <- (rnd_format (prec:=53) (emax:=1024) g G). now apply rnd_le.
  Qed.
  Lemma rnd_le_format r g : generic_format radix2 (SpecFloat.fexp 53 1024) g -> (r <= g)%R -> (rnd r <= g)%R.
  Proof.
    intros G H. unfold rounded. rewrite <- (rnd_format (prec:=53) (emax:=1024) g G). now apply rnd_le.
  Qed.
  Lemma ratio_bounds k n : 0 < n -> k <= n -> (Z.of_nat n <= 2 ^ 53)%Z ->
    let r := rnd (INR k / INR n) in
    (0 <= r <= 1)%R /\ (r = 1%R <-> k = n) /\ (r = 0%R <-> k = 0).
  Proof.
    intros N K B r. assert (P : (0 < INR n)%R) by (apply lt_0_INR; lia).
    assert (I : (bpow radix2 (-53) <= / INR n)%R).
    { change (-53)%Z with (- (53))%Z. rewrite bpow_opp. apply Rinv_le; auto. rewrite INR_IZR_INZ.
      rewrite <- (IZR_Zpower radix2) by lia. apply IZR_le. exact B. }
    assert (E1 : (IZR (2 ^ 53) * bpow radix2 (-53) = 1)%R).
    { change (2 ^ 53)%Z with (radix_val radix2 ^ 53)%Z. rewrite (IZR_Zpower radix2 53) by lia. rewrite <- bpow_plus. reflexivity. }
    assert (B0 : (0 <= r)%R).
    { apply rnd_pos. apply Rmult_le_pos; [apply pos_INR|]. left. now apply Rinv_0_lt_compat. }
    assert (B1 : (r <= 1)%R).
    { rewrite <- E1. apply rnd_le_format; [apply format_bpow_53; lia|]. rewrite E1.
      apply (Rmult_le_reg_r (INR n)); auto. unfold Rdiv. rewrite Rmult_assoc, Rinv_l, Rmult_1_r, Rmult_1_l by lra.
      now apply le_INR. }
    split; auto. split; split.
    - intros E. destruct (Nat.eq_dec k n) as [|D]; auto. exfalso.
      assert (L : (r <= IZR (2 ^ 53 - 1) * bpow radix2 (-53))%R).
      { apply rnd_le_format; [apply format_bpow_53; lia|]. rewrite minus_IZR, Rmult_minus_distr_r, E1, Rmult_1_l.
        assert (KN : (INR k <= INR n - 1)%R).
        { change 1%R with (INR 1). rewrite <- (minus_INR n 1) by lia. apply le_INR. lia. }
        apply Rle_trans with ((INR n - 1) / INR n)%R.
        - apply Rmult_le_compat_r; auto. left. now apply Rinv_0_lt_compat.
        - unfold Rdiv. rewrite Rmult_minus_distr_r, Rinv_r by lra. lra. }
      rewrite minus_IZR, Rmult_minus_distr_r, E1, Rmult_1_l, E in L. pose proof (bpow_gt_0 radix2 (-53)). lra.
    - intros ->. unfold r, Rdiv. rewrite Rinv_r by lra. rewrite <- E1 at 1. unfold rounded.
      rewrite rnd_format; [exact E1|]. apply format_bpow_53. lia.
    - intros E. destruct k as [|k]; auto. exfalso.
      assert (L : (1 * bpow radix2 (-53) <= r)%R).
      { apply rnd_ge_format; [apply (format_bpow_53 1); lia|]. rewrite Rmult_1_l.
        apply Rle_trans with (/ INR n)%R; auto. rewrite <- (Rmult_1_l (/ INR n)).
        apply Rmult_le_compat_r; [left; now apply Rinv_0_lt_compat|]. apply (le_INR 1). lia. }
      pose proof (bpow_gt_0 radix2 (-53)). lra.
    - intros ->. unfold r, Rdiv. rewrite Rmult_0_l. apply rnd_0.
  Qed.

  Lemma rate_none p (l : list (option sol)) : get_success_rate np64 p l = None <-> l = [].
  Proof. destruct l; simpl; split; intros; auto; discriminate. Qed.
  Lemma rate_value p (l : list (option sol)) : l <> [] -> (Z.of_nat (length l) <= 2 ^ 53)%Z ->
    exists r, get_success_rate np64 p l = Some r /\ is_finite r = true /\
      B2R r = rnd (INR (length (filter (succeeds p) l)) / INR (length l)) /\
      (0 <= B2R r <= 1)%R /\
      (B2R r = 1%R <-> forall o, In o l -> succeeds p o = true) /\
      (B2R r = 0%R <-> forall o, In o l -> succeeds p o = false).
  Proof.
    intros N B.
    exists (b_div np64 (b_of_Z (Z.of_nat (length (filter p (somes l))))) (b_of_Z (Z.of_nat (length l)))). split.
    { unfold get_success_rate. destruct l; [congruence|reflexivity]. }
    rewrite count_success. set (k := length (filter (succeeds p) l)).
    assert (K : k <= length l).
    { unfold k. clear. induction l as [|y l IH]; simpl; auto. destruct (succeeds p y); simpl; lia. }
    assert (P : 0 < length l) by (destruct l; [congruence|simpl; lia]).
    destruct (count_exact (prec:=53) (emax:=1024) k) as [C1 C2]; [lia|].
    destruct (div_count_exact np64 (float_count k) (length l) C1 P B) as [D1 D2]. rewrite C2 in D2.
    destruct (ratio_bounds k (length l) P K B) as [R1 [R2 R3]]. unfold float_count in *.
    split; auto. split; auto. change (@Binary.B2R 53 1024) with (Binary.B2R 53 1024).
    match goal with |- (0 <= ?r <= 1)%R /\ _ => replace r with (rnd (INR k / INR (length l))) by (symmetry; exact D2) end.
    split; auto. rewrite R2, R3. unfold k. split; [apply filter_all|apply filter_none].
  Qed.
End Rate.

(** ** Success predicates *)
Section Predicates.
  Context {prec emax : Z} {Hp : Prec_gt_0 prec} {He : Prec_lt_emax prec emax}.
  Variable np : nan_policy prec emax.
  Notation F := (bfloat prec emax).
  Notation B2R := (Binary.B2R prec emax).
  Lemma abs_key (x : F) : is_nan (b_abs x) = is_nan x /\ key (b_abs x) = Rabs (key x).
  Proof.
    split; [destruct x; reflexivity|]. pose proof (bpow_gt_0 radix2 emax).
    destruct x as [s|[|]|s pl h|s m e h]; simpl; rewrite ?Rabs_R0, ?Rabs_Ropp; auto;
      try (rewrite Rabs_pos_eq; lra).
    rewrite <- F2R_Zabs. destruct s; reflexivity.
  Qed.
  Lemma rnd_abs r : rounded (prec:=prec) (emax:=emax) (Rabs r) = Rabs (rounded (prec:=prec) (emax:=emax) r).
  Proof. unfold rounded. apply round_NE_abs. apply (BinarySingleNaN.fexp_correct prec emax Hp). Qed.
  Lemma sat_abs r : sat (prec:=prec) (emax:=emax) (Rabs r) = Rabs (sat (prec:=prec) (emax:=emax) r).
  Proof.
    pose proof (bpow_gt_0 radix2 emax) as M. pose proof (rnd_abs r) as E. unfold rounded in E. unfold sat.
    rewrite E. set (q := round _ _ _ r). unfold Rmax, Rmin, Rabs.
    repeat (destruct (Rle_dec _ _) || destruct (Rcase_abs _)); try lra.
  Qed.
  (** The distance computed in floats, as a real number (the overflow threshold
      stands for infinity). *)
  Lemma distance_key (x y : F) : is_finite x = true -> is_finite y = true ->
    is_nan (b_abs (b_sub np x y)) = false /\
    key (b_abs (b_sub np x y)) = sat (prec:=prec) (emax:=emax) (Rabs (B2R x - B2R y)).
  Proof.
    intros Hx Hy. destruct (key_sub np x y Hx Hy) as [N K]. destruct (abs_key (b_sub np x y)) as [A B].
    rewrite A, B, K, sat_abs. auto.
  Qed.
  Lemma sat_below (r : R) (d : F) : is_finite d = true ->
    (sat (prec:=prec) (emax:=emax) r < B2R d)%R -> (r < B2R d)%R.
  Proof.
    intros Fd H. apply Rnot_le_lt. intros G. apply (sat_le (prec:=prec) (emax:=emax)) in G.
    rewrite sat_B2R in G. lra.
  Qed.

  Lemma sub_nan (x y : F) : is_nan x = true \/ is_nan y = true -> is_nan (b_sub np x y) = true.
  Proof.
    unfold b_sub, Binary.Bminus, is_nan.
    destruct x as [s|s|s pl h|s m e h], y as [s'|s'|s' pl' h'|s' m' e' h']; simpl; intros [H|H];
      try discriminate; reflexivity.
  Qed.
  Lemma sat_lt (r : R) (d : F) : is_finite d = true ->
    ((sat (prec:=prec) (emax:=emax) r < B2R d)%R <-> (rounded (prec:=prec) (emax:=emax) r < B2R d)%R).
  Proof.
    intros Fd. pose proof (B2R_bound d) as BD. apply Rabs_lt_inv in BD. unfold sat.
    pose proof (bpow_gt_0 radix2 emax). unfold rounded. set (q := round _ _ _ r).
    unfold Rmax, Rmin. repeat destruct (Rle_dec _ _); split; intros; lra.
  Qed.
  Lemma sat_le' (r : R) (d : F) : is_finite d = true ->
    ((sat (prec:=prec) (emax:=emax) r <= B2R d)%R <-> (rounded (prec:=prec) (emax:=emax) r <= B2R d)%R).
  Proof.
    intros Fd. pose proof (B2R_bound d) as BD. apply Rabs_lt_inv in BD. unfold sat.
    pose proof (bpow_gt_0 radix2 emax). unfold rounded. set (q := round _ _ _ r).
    unfold Rmax, Rmin. repeat destruct (Rle_dec _ _); split; intros; lra.
  Qed.
  Lemma close_lt (x y d : F) : is_finite x = true -> is_finite y = true -> is_finite d = true ->
    (ltb (b_abs (b_sub np x y)) d = true <-> (rounded (prec:=prec) (emax:=emax) (distance x y) < B2R d)%R) /\
    (ltb (b_abs (b_sub np x y)) d = true -> (distance x y < B2R d)%R) /\
    (@representable prec emax (B2R x - B2R y) ->
       (ltb (b_abs (b_sub np x y)) d = true <-> (distance x y < B2R d)%R)).
  Proof.
    intros Hx Hy Hd. destruct (distance_key x y Hx Hy) as [N K].
    assert (A : ltb (b_abs (b_sub np x y)) d = true <-> (rounded (prec:=prec) (emax:=emax) (distance x y) < B2R d)%R).
    { rewrite ltb_key, K, key_finite by auto. fold (distance x y). rewrite (sat_lt _ d Hd).
      pose proof (finite_not_nan d Hd). intuition. }
    split; auto. split.
    - rewrite A. rewrite <- (sat_lt _ d Hd). now apply sat_below.
    - intros R. rewrite A. unfold distance. rewrite rnd_abs, (proj1 (representable_format _ R)). reflexivity.
  Qed.
  Lemma close_le (x y d : F) : is_finite x = true -> is_finite y = true -> is_finite d = true ->
    (ltb d (b_abs (b_sub np x y)) = false <-> (rounded (prec:=prec) (emax:=emax) (distance x y) <= B2R d)%R) /\
    ((distance x y <= B2R d)%R -> ltb d (b_abs (b_sub np x y)) = false) /\
    (@representable prec emax (B2R x - B2R y) ->
       (ltb d (b_abs (b_sub np x y)) = false <-> (distance x y <= B2R d)%R)).
  Proof.
    intros Hx Hy Hd. destruct (distance_key x y Hx Hy) as [N K].
    assert (A : ltb d (b_abs (b_sub np x y)) = false <-> (rounded (prec:=prec) (emax:=emax) (distance x y) <= B2R d)%R).
    { rewrite ltb_false by (auto; now apply finite_not_nan). rewrite K, key_finite by auto. fold (distance x y).
      apply sat_le'; auto. }
    split; auto. split.
    - rewrite A. intros H. unfold rounded. rewrite <- (rnd_B2R d). now apply rnd_le.
    - intros R. rewrite A. unfold distance. rewrite rnd_abs, (proj1 (representable_format _ R)). reflexivity.
  Qed.
End Predicates.

Section GoalPredicate.
  Variable np64 : nan_policy 53 1024.
  Lemma predicate_goal_nan {X} (e d : f64) (s : X * f64) :
    is_nan (snd s) = true \/ is_nan e = true \/ is_nan d = true -> predicate_success_goal np64 e d s = false.
  Proof.
    unfold predicate_success_goal. intros H.
    destruct (ltb (b_abs (b_sub np64 (snd s) e)) d) eqn:E; auto. apply ltb_key in E.
    destruct E as [E1 [E2 _]]. rewrite (proj1 (abs_key _)) in E1.
    destruct H as [H|[H|H]]; try congruence; rewrite sub_nan in E1 by auto; discriminate.
  Qed.
  Lemma predicate_goal_finite {X} (e d : f64) (s : X * f64) :
    is_finite (snd s) = true -> is_finite e = true -> is_finite d = true ->
    (predicate_success_goal np64 e d s = true <->
       (rounded (prec:=53) (emax:=1024) (distance (snd s) e) < value64 d)%R) /\
    (predicate_success_goal np64 e d s = true -> (distance (snd s) e < value64 d)%R) /\
    (@representable 53 1024 (value64 (snd s) - value64 e) ->
       (predicate_success_goal np64 e d s = true <-> (distance (snd s) e < value64 d)%R)).
  Proof. intros. unfold predicate_success_goal. now apply close_lt. Qed.
  Lemma predicate_goal_infinite {X} (e d : f64) (s : X * f64) :
    is_finite (snd s) = false -> is_finite e = true -> predicate_success_goal np64 e d s = false.
  Proof.
    intros H He. unfold predicate_success_goal. destruct (is_nan (snd s)) eqn:N.
    - apply predicate_goal_nan. auto.
    - destruct (snd s) as [a|a|a pl h|a m ee h]; try discriminate.
      destruct e as [a'|a'|a' pl' h'|a' m' e' h']; try discriminate;
        destruct a, d as [b|[|]|b pl' h|[|] m ee h]; reflexivity.
  Qed.
End GoalPredicate.

Section VecPredicate.
  Context {prec emax : Z} {Hp : Prec_gt_0 prec} {He : Prec_lt_emax prec emax}.
  Variable np : nan_policy prec emax.
  Notation F := (bfloat prec emax).
  Notation B2R := (Binary.B2R prec emax).
  Notation pred := (@predicate_success_vec F (FloatIEEE np)).
  Lemma predicate_vec_spec (e d : list F) (s : list F * f64) :
    pred (e, d) s = true <->
    forall j x a b, nth_error (fst s) j = Some x -> nth_error e j = Some a -> nth_error d j = Some b ->
      ltb b (b_abs (b_sub np x a)) = false.
  Proof.
    unfold predicate_success_vec. simpl. destruct s as [v g]. simpl. revert e d.
    induction v as [|x v IH]; intros [|a e] [|b d]; simpl;
      try (split; auto; intros _ [|j] ? ? ?; simpl; intros; discriminate).
    - rewrite andb_true_iff, IH, negb_true_iff. split.
      + intros [H1 H2] [|j] x' a' b'; simpl.
        * intros E1 E2 E3. inversion E1; inversion E2; inversion E3. now subst.
        * apply H2.
      + intros H. split; [apply (H 0 x a b); reflexivity|]. intros j. apply (H (S j)).
  Qed.
  Lemma predicate_vec_finite (e d : list F) (s : list F * f64) :
    length (fst s) = length e -> length d = length e ->
    Forall (fun x => is_finite x = true) (fst s) -> Forall (fun x => is_finite x = true) e ->
    Forall (fun x => is_finite x = true) d ->
    (pred (e, d) s = true <->
       forall j x a b, nth_error (fst s) j = Some x -> nth_error e j = Some a -> nth_error d j = Some b ->
         (rounded (prec:=prec) (emax:=emax) (distance x a) <= B2R b)%R) /\
    ((forall j x a b, nth_error (fst s) j = Some x -> nth_error e j = Some a -> nth_error d j = Some b ->
        (distance x a <= B2R b)%R) -> pred (e, d) s = true) /\
    ((forall j x a, nth_error (fst s) j = Some x -> nth_error e j = Some a ->
        @representable prec emax (B2R x - B2R a)) ->
     (pred (e, d) s = true <->
        forall j x a b, nth_error (fst s) j = Some x -> nth_error e j = Some a -> nth_error d j = Some b ->
          (distance x a <= B2R b)%R)).
  Proof.
    intros L1 L2 F1 F2 F3.
    assert (C : forall j x a b, nth_error (fst s) j = Some x -> nth_error e j = Some a -> nth_error d j = Some b ->
              is_finite x = true /\ is_finite a = true /\ is_finite b = true).
    { rewrite Forall_forall in *. intros j x a b E1 E2 E3. apply nth_error_In in E1, E2, E3. auto. }
    rewrite predicate_vec_spec. split; [|split].
    - split; intros H j x a b E1 E2 E3; destruct (C _ _ _ _ E1 E2 E3) as [C1 [C2 C3]];
        apply (proj1 (close_le np x a b C1 C2 C3)); eauto.
    - intros H j x a b E1 E2 E3; destruct (C _ _ _ _ E1 E2 E3) as [C1 [C2 C3]].
      apply (proj1 (proj2 (close_le np x a b C1 C2 C3))); eauto.
    - intros R. split; intros H j x a b E1 E2 E3; destruct (C _ _ _ _ E1 E2 E3) as [C1 [C2 C3]];
        apply (proj2 (proj2 (close_le np x a b C1 C2 C3))); eauto.
  Qed.
End VecPredicate.
Section VecPredicateNew.
  Lemma predicate_vec_new {T} (e d : list T) :
    (length e = length d -> predicate_success_vec_new e d = Ret (e, d)) /\
    (length e <> length d -> predicate_success_vec_new e d = Panic).
  Proof.
    unfold predicate_success_vec_new. destruct (Nat.eqb_spec (length e) (length d)); split; intros; try lia; reflexivity.
  Qed.
End VecPredicateNew.

(** ** Call counters *)
Definition elem_step (c : call_count_data) (o : option nat) : outcome call_count_data :=
  match o with None => Ret (next_run c) | Some n => ccd_add n c end.
Definition add_last (c : call_count_data) (h : list nat) : call_count_data :=
  match h with
  | [] => c
  | _ => match rev c with [] => [list_sum h] | k :: t => rev t ++ [k + list_sum h] end
  end.
Lemma ccd_add_spec n c : ccd_add n c = Ret (add_last c [n]).
Proof.
  unfold ccd_add, add_last. destruct c as [|k c] using rev_ind; simpl.
  - rewrite Nat.add_0_r. reflexivity.
  - rewrite rev_app_distr. simpl. rewrite rev_involutive, app_length. simpl.
    destruct (Nat.eqb_spec (length c + 1) 0); [lia|]. rewrite app_length. simpl.
    replace (length c + 1 - 1) with (length c) by lia.
    assert (I : forall x, index (c ++ [x]) (length c) = Ret x).
    { intros x. unfold index. rewrite nth_error_app2, Nat.sub_diag by lia. reflexivity. }
    assert (U : forall x y, update (c ++ [x]) (length c) y = Ret (c ++ [y])).
    { intros x y. clear. induction c as [|a c IH]; simpl; auto. rewrite IH. reflexivity. }
    rewrite I. simpl. rewrite U, Nat.add_0_r. reflexivity.
Qed.
Lemma add_last_nil c n : add_last c [n] <> [].
Proof.
  unfold add_last. destruct (rev c); [discriminate|]. destruct (rev l); discriminate.
Qed.
Lemma add_last_cons c n h : add_last (add_last c [n]) h = add_last c (n :: h).
Proof.
  unfold add_last at 2 3. destruct (rev c) as [|k t]; unfold add_last.
  - destruct h; simpl; [reflexivity|]. rewrite !Nat.add_0_r. reflexivity.
  - destruct h as [|a h]; [reflexivity|]. rewrite rev_app_distr. simpl. rewrite Nat.add_0_r, rev_involutive.
    f_equal. f_equal. lia.
Qed.
Lemma add_last_zero c h : add_last (c ++ [0]) h = c ++ [list_sum h].
Proof.
  unfold add_last. destruct h as [|a h]; simpl; auto. rewrite rev_app_distr. simpl. now rewrite rev_involutive.
Qed.
Lemma elem_steps ops : forall c, ofold elem_step ops c =
  Ret (let (h, r) := by_run ops in add_last c h ++ map list_sum r).
Proof.
  induction ops as [|[n|] ops IH]; intros c; simpl.
  - now rewrite app_nil_r.
  - rewrite ccd_add_spec. cbn [obind]. rewrite IH. destruct (by_run ops) as [h r]. now rewrite add_last_cons.
  - rewrite IH. destruct (by_run ops) as [h r]. unfold next_run. rewrite add_last_zero. simpl.
    now rewrite <- app_assoc.
Qed.
Lemma increment_add c : increment c = ccd_add 1 c.
Proof. reflexivity. Qed.

Lemma count_step_elementary c op : count_step c op = ofold elem_step (elementary op) c.
Proof.
  destruct op as [| |n|runs]; simpl; auto.
  - rewrite increment_add. destruct (ccd_add 1 c); reflexivity.
  - destruct (ccd_add n c); reflexivity.
  - revert c. induction runs as [|n runs IH]; intros c; simpl.
    + unfold ccd_unite. now rewrite app_nil_r.
    + rewrite ccd_add_spec. unfold next_run. rewrite add_last_zero. simpl. rewrite <- IH.
      unfold ccd_unite. rewrite <- app_assoc. simpl. now rewrite Nat.add_0_r.
Qed.
Lemma counter_runs ops : ofold count_step ops ccd_new = Ret (calls_by_run ops).
Proof.
  assert (E : forall c, ofold count_step ops c = ofold elem_step (flat_map elementary ops) c).
  { induction ops as [|op ops IH]; intros c; simpl; auto. rewrite ofold_app, count_step_elementary.
    destruct (ofold elem_step (elementary op) c); simpl; auto. }
  rewrite E, elem_steps. unfold calls_by_run. destruct (by_run _) as [[|n h] r]; reflexivity.
Qed.
Lemma fold_sum l : forall a, fold_left Nat.add l a = a + list_sum l.
Proof. induction l as [|x l IH]; intros a; simpl; [lia|]. rewrite IH. lia. Qed.
Lemma average_calls (np64 : nan_policy 53 1024) (c : call_count_data) :
  (get_average_call_count np64 c = None <-> c = []) /\
  (c <> [] -> (Z.of_nat (length c) <= 2 ^ 53)%Z -> (Z.of_nat (list_sum c) <= 2 ^ 53)%Z ->
   exists a, get_average_call_count np64 c = Some a /\ is_finite a = true /\
     value64 a = rounded (prec:=53) (emax:=1024) (INR (list_sum c) / INR (length c))).
Proof.
  unfold get_average_call_count. rewrite fold_sum. simpl. split.
  - destruct c; simpl; split; intros; auto; discriminate.
  - intros N B1 B2. destruct (Nat.eqb_spec (length c) 0) as [E|E]; [destruct c; [congruence|discriminate]|].
    eexists. split; [reflexivity|].
    destruct (count_exact (prec:=53) (emax:=1024) (list_sum c) B2) as [C1 C2].
    destruct (div_count_exact np64 (float_count (list_sum c)) (length c) C1) as [D1 D2]; auto; try lia.
    split; auto. rewrite C2 in D2. exact D2.
Qed.
