(** * CrossMean, FloatCrossGeometricMean and FloatCrossExp *)

From Coq Require Import List Arith ZArith Bool Reals Lia Lra.
From Flocq Require Import Core IEEE754.BinarySingleNaN IEEE754.Binary IEEE754.Bits.
From Verif Require Import Base Logic FloatModel Rng GaModel GaComponents SpecGa SpecRand SpecBits
  FloatFacts RandFacts ArithFacts BitFacts.
Import ListNotations.

(** ** CrossMean *)
Section Mean.
  Context {prec emax : Z} {Hp : Prec_gt_0 prec} {He : Prec_lt_emax prec emax}.
  Variable np : nan_policy prec emax.
  Notation F := (bfloat prec emax).
  Notation B2R := (Binary.B2R prec emax).

  Lemma cross_mean_float_shape (parents : list F) :
    (length parents < 2 -> @cross_mean F (@NumOpsFloat F (FloatIEEE np)) parents = Panic) /\
    (2 <= length parents -> exists c, @cross_mean F (@NumOpsFloat F (FloatIEEE np)) parents = Ret [c]).
  Proof.
    unfold cross_mean. split; intros H.
    - destruct (Nat.leb_spec 2 (length parents)); [lia|reflexivity].
    - destruct (Nat.leb_spec 2 (length parents)); [|lia]. cbn [oassert obind no_add no_zero NumOpsFloat].
      assert (G : forall l a, exists b, ofold (fun x y : F => Ret (@fadd F (FloatIEEE np) x y)) l a = Ret b).
      { induction l as [|x l IH]; intros a; simpl; eauto. }
      destruct (G parents (@fzero F (FloatIEEE np))) as [b E]. rewrite E. cbn [obind]. simpl. eauto.
  Qed.

  Lemma cross_mean_two (x y : F) :
    is_finite x = true -> is_finite y = true -> is_finite (b_add np x y) = true ->
    exists c, @cross_mean F (@NumOpsFloat F (FloatIEEE np)) [x; y] = Ret [c] /\
      is_finite c = true /\
      B2R c = round radix2 (SpecFloat.fexp prec emax) (round_mode mode_NE) ((B2R x + B2R y) / 2) /\
      (Rmin (B2R x) (B2R y) <= B2R c <= Rmax (B2R x) (B2R y))%R.
  Proof.
    intros Hx Hy Ha.
    set (z := Binary.B754_zero false : F).
    assert (Z : is_finite (b_add np z x) = true /\ B2R (b_add np z x) = B2R x).
    { assert (E : round radix2 (SpecFloat.fexp prec emax) (round_mode mode_NE) (B2R z + B2R x) = B2R x).
      { change (B2R z) with 0%R. rewrite Rplus_0_l. apply rnd_B2R. }
      destruct (add_correct np z x eq_refl Hx) as [A B]; rewrite E in *; auto. apply B2R_bound. }
    destruct Z as [Z1 Z2].
    pose proof (add_finite_bound np x y Hx Hy Ha) as Bd.
    destruct (add_correct np (b_add np z x) y Z1 Hy) as [A B]; [rewrite Z2; exact Bd|]. rewrite Z2 in B.
    destruct (half_sum_correct np x y _ Hx Hy Ha A B) as [C1 [C2 C3]].
    exists (b_div np (b_add np (b_add np z x) y) (b_of_Z 2)). split; [reflexivity|]. auto.
  Qed.
End Mean.

(** ** Geometric mean *)
Lemma geometric_mean_spec {T} (FT : FloatTrait T) (LM : Libm T) (parents : list T) :
  (length parents < 2 -> cross_geometric_mean parents = Panic) /\
  (2 <= length parents ->
   cross_geometric_mean parents =
     Ret [fpowf (fold_left fmul parents fone) (fdiv fone (fof_Z (Z.of_nat (length parents))))]).
Proof.
  unfold cross_geometric_mean. split; intros H;
    destruct (Nat.leb_spec 2 (length parents)); try lia; reflexivity.
Qed.

(** ** FloatCrossExp *)
Section Decode.
  Local Open Scope Z_scope.
  Variables mw ew : Z.
  Hypothesis Hmw : 0 < mw.
  Hypothesis Hew : 0 < ew.

  Lemma decode_split bias bits : unsigned (mw + ew + 1) bits ->
    decode_bits mw ew bias bits =
    let '(s, m, e) := split_bits mw ew bits in
    (if e =? 0 then 2 * m else m + 2 ^ mw, e - (bias + mw), if s then -1 else 1).
  Proof.
    intros H. unfold decode_bits, split_bits.
    rewrite !Z.land_ones, Z.shiftr_div_pow2 by lia.
    assert (P : 0 < 2 ^ mw) by (apply Z.pow_pos_nonneg; lia).
    assert (S : Z.testbit bits (mw + ew) = (2 ^ mw * 2 ^ ew <=? bits)).
    { rewrite <- Z.pow_add_r by lia. rewrite Z.testbit_eqb by lia.
      destruct H as [H1 H2]. replace (mw + ew + 1) with (Z.succ (mw + ew)) in H2 by lia.
      rewrite Z.pow_succ_r in H2 by lia.
      assert (P' : 0 < 2 ^ (mw + ew)) by (apply Z.pow_pos_nonneg; lia).
      destruct (Z.leb_spec (2 ^ (mw + ew)) bits).
      - replace (bits / 2 ^ (mw + ew)) with 1; [reflexivity|].
        apply Z.div_unique with (bits - 2 ^ (mw + ew)); lia.
      - rewrite Z.div_small by lia. reflexivity. }
    rewrite S. f_equal. f_equal.
    destruct (_ =? 0).
    - rewrite Z.shiftl_mul_pow2 by lia. change (2 ^ 1) with 2. ring.
    - assert (R : 0 <= bits mod 2 ^ mw < 2 ^ mw) by (apply Z.mod_pos_bound; lia).
      set (m := bits mod 2 ^ mw) in *. clearbody m.
      rewrite <- Z.lxor_lor.
      + rewrite <- Z.add_nocarry_lxor; [ring|].
        apply Z.bits_inj'. intros i Hi. rewrite Z.land_spec, Z.bits_0.
        destruct (Z.eq_dec i mw) as [->|N].
        * rewrite (unsigned_high mw m) by (auto; lia). reflexivity.
        * rewrite Z.pow2_bits_false by lia. apply andb_false_r.
      + apply Z.bits_inj'. intros i Hi. rewrite Z.land_spec, Z.bits_0.
        destruct (Z.eq_dec i mw) as [->|N].
        * rewrite (unsigned_high mw m) by (auto; lia). reflexivity.
        * rewrite Z.pow2_bits_false by lia. apply andb_false_r.
  Qed.
End Decode.

Section DecodeFloat.
  Local Open Scope Z_scope.
  Variables mw ew : Z.
  Hypothesis Hmw : 0 < mw.
  Hypothesis Hew : 0 < ew.
  Let p := mw + 1.
  Let ex := 2 ^ (ew - 1).
  Hypothesis Hp : 0 < p.
  Hypothesis Hpe : p < ex.

  Lemma decode_float (x : bfloat p ex) :
    decoded p ex x (decode_bits mw ew (ex - 1) (bits_of_binary_float mw ew x)).
  Proof.
    rewrite decode_split; [|exact Hmw|exact Hew|].
    2: { exact (bits_of_binary_float_range mw ew Hmw Hew x). }
    assert (E2 : 2 ^ ew = 2 * ex).
    { unfold ex. rewrite <- Z.pow_succ_r by lia. f_equal. lia. }
    pose proof (split_bits_of_binary_float_correct mw ew Hmw Hew x) as S.
    rewrite S. clear S.
    assert (P : 2 ^ p = 2 * 2 ^ mw).
    { unfold p. rewrite <- Z.pow_succ_r by lia. f_equal. }
    assert (Pm : 0 < 2 ^ mw) by (apply Z.pow_pos_nonneg; lia).
    assert (X2 : 2 < ex) by lia.
    replace (p - 1) with mw in * by (unfold p; lia).
    destruct x as [s|s|s pl h|s m e h]; unfold split_bits_of_binary_float, decoded.
    - cbn [Binary.Bsign]. rewrite Z.eqb_refl. replace (p - 1) with mw by (unfold p; lia).
      repeat split; try lia; unfold p; lia.
    - cbn [Binary.Bsign]. replace (p - 1) with mw by (unfold p; lia).
      destruct (Z.eqb_spec (2 ^ ew - 1) 0); [lia|]. repeat split; try lia; unfold p; lia.
    - cbn [Binary.Bsign]. replace (p - 1) with mw by (unfold p; lia).
      destruct (Z.eqb_spec (2 ^ ew - 1) 0); [lia|].
      assert (PL : Zpos pl < 2 ^ mw).
      { apply (Zpower_gt_Zdigits radix2 mw (Zpos pl)). unfold Binary.nan_pl in h.
        rewrite Zpos_digits2_pos in h. apply Z.ltb_lt in h. unfold p in h. lia. }
      repeat split; try lia; unfold p; lia.
    - cbn [Binary.Bsign]. replace (p - 1) with mw by (unfold p; lia).
      assert (Hf : 3 - ex - p <= e <= ex - p /\ Zpos m < 2 ^ p).
      { destruct (andb_prop _ _ h) as [H1 H2]. apply Zle_bool_imp_le in H2.
        unfold SpecFloat.canonical_mantissa in H1. rewrite Zpos_digits2_pos in H1.
        apply Zeq_bool_eq in H1. unfold SpecFloat.fexp, SpecFloat.emin in H1.
        split; [lia|]. apply (Zpower_gt_Zdigits radix2 p (Zpos m)). lia. }
      destruct Hf as [H1 H2].
      change (SpecFloat.emin (mw + 1) (2 ^ (ew - 1))) with (3 - ex - p).
      destruct (Z.leb_spec 0 (Zpos m - 2 ^ mw)).
      + destruct (Z.eqb_spec (e - (3 - ex - p) + 1) 0); [lia|].
        destruct (Z.leb_spec (2 ^ mw) (Zpos m)); [|lia].
        repeat split; try lia; unfold p; lia.
      + rewrite Z.eqb_refl. destruct (Z.leb_spec (2 ^ mw) (Zpos m)); [lia|].
        repeat split; try lia; unfold p; lia.
  Qed.
End DecodeFloat.

Section CrossExp.
  Local Open Scope Z_scope.
  Context {p ex : Z} {Hp : Prec_gt_0 p} {He : Prec_lt_emax p ex}.
  Context {FD : FloatDecode (bfloat p ex)} {LM : Libm (bfloat p ex)}.
  Variable np : nan_policy p ex.
  Hypothesis HD : forall x, decoded p ex x (integer_decode x).
  Hypothesis H64 : p <= 64.
  Hypothesis H16 : 2 * ex + p <= 2 ^ 15.
  Notation F := (bfloat p ex).
  Notation fce dbg := (@float_cross_exp F (FloatIEEE np) LM FD dbg).

  Lemma decoded_ranges x m e s : decoded p ex x (m, e, s) -> unsigned 64 m /\ signed 16 e.
  Proof.
    intros [A [B _]]. pose proof (@prec_pos p Hp). pose proof (@prec_emax p ex He). split.
    - unfold unsigned. split; [lia|]. eapply Z.lt_le_trans; [apply A|]. apply Z.pow_le_mono_r; lia.
    - unfold signed. change (2 ^ (16 - 1)) with (2 ^ 15). lia.
  Qed.

  Lemma cross_exp_spec dbg (parents : list F) r :
    (forall x y, parents = [x; y] -> exists m1 e1 s1 m2 e2 s2 m e s,
       decoded p ex x (m1, e1, s1) /\ decoded p ex y (m2, e2, s2) /\
       crossed 64 m1 m2 (Z.of_nat (drawn r 1 64 0)) m /\ unsigned 64 m /\
       crossed 16 e1 e2 (Z.of_nat (drawn r 1 16 1)) e /\ signed 16 e /\
       s = (if drawn_coin r 2 then s1 else s2) /\
       fce dbg parents r = (Ret [b_mul np (b_mul np (b_of_Z s) (b_of_Z m)) (fexp2 (b_of_Z e))], shift 3 r)) /\
    (length parents <> 2%nat -> fce dbg parents r = (Panic, r)).
  Proof.
    split.
    - intros x y ->. unfold float_cross_exp.
      pose proof (HD x) as D1. pose proof (HD y) as D2.
      destruct (integer_decode x) as [[m1 e1] s1] eqn:EX. destruct (integer_decode y) as [[m2 e2] s2] eqn:EY.
      exists m1, e1, s1, m2, e2, s2.
      destruct (decoded_ranges _ _ _ _ D1) as [U1 S1]. destruct (decoded_ranges _ _ _ _ D2) as [U2 S2].
      pose proof (drawn_bound r 1 64 0 ltac:(lia)) as B1.
      pose proof (drawn_bound r 1 16 1 ltac:(lia)) as B2.
      destruct (proj1 (cross_unsigned_spec dbg 64 m1 m2 (drawn r 1 64 0) U1 U2)) as [m [M1 [M2 M3]]]; [lia|].
      destruct (proj1 (cross_signed_spec dbg 16 e1 e2 (drawn r 1 16 1) ltac:(lia) S1 S2)) as [e [E1 [E2 E3]]]; [lia|].
      exists m, e, (if drawn_coin r 2 then s1 else s2).
      repeat (split; [assumption|]). split; [reflexivity|].
      cbn [length Nat.eqb oassert]. unfold cbind at 1, cpure at 1.
      unfold cbind at 1, cpure at 1. change (index [x; y] 0) with (Ret x).
      unfold cbind at 1, cpure at 1. change (index [x; y] 1) with (Ret y). cbv beta iota.
      rewrite EX, EY.
      unfold cbind at 1, cpure at 1, uniform_usize at 1. cbn [Nat.ltb Nat.leb].
      unfold cbind at 1, cpure at 1, uniform_usize at 1. cbn [Nat.ltb Nat.leb].
      unfold cbind at 1. rewrite consumes_usize.
      unfold cbind at 1. rewrite consumes_usize. rewrite drawn_shift. change (1 + 0)%nat with 1%nat.
      unfold cbind at 1, cpure at 1. unfold cross_u64. rewrite M1.
      unfold cbind at 1, cpure at 1. unfold cross_i16. rewrite E1.
      unfold cbind at 1, draw. unfold cret. reflexivity.
    - intros H. unfold float_cross_exp. apply Nat.eqb_neq in H. rewrite H. reflexivity.
  Qed.

  Notation B2R := (Binary.B2R p ex).
  Notation rnd x := (round radix2 (SpecFloat.fexp p ex) (round_mode mode_NE) x).

  Lemma sign_mantissa s m : s = 1 \/ s = -1 -> 0 <= m < 2 ^ p ->
    let y := b_mul np (b_of_Z s) (b_of_Z m) in
    is_finite y = true /\ B2R y = IZR (s * m) /\
    (m = 0 -> Binary.Bsign p ex y = (s <? 0)).
  Proof.
    intros Hs Hm y. pose proof (@prec_pos p Hp).
    assert (A1 : Z.abs s <= 2 ^ p).
    { assert (2 ^ 0 <= 2 ^ p) by (apply Z.pow_le_mono_r; lia). destruct Hs; subst; simpl in *; lia. }
    assert (A2 : Z.abs m <= 2 ^ p) by lia.
    destruct (of_Z_exact s A1 : is_finite (b_of_Z s : F) = true /\ _) as [S1 S2].
    destruct (of_Z_exact m A2 : is_finite (b_of_Z m : F) = true /\ _) as [M1 M2].
    assert (A3 : Z.abs (s * m) <= 2 ^ p) by (destruct Hs; subst; lia).
    assert (R : rnd (B2R (b_of_Z s) * B2R (b_of_Z m)) = IZR (s * m)).
    { rewrite S2, M2, <- mult_IZR. apply rnd_format. now apply format_IZR. }
    assert (Bd : (Rabs (rnd (B2R (b_of_Z s) * B2R (b_of_Z m))) < bpow radix2 ex)%R).
    { rewrite R. now apply IZR_bound. }
    destruct (mul_correct np _ _ S1 M1 Bd) as [Y1 Y2]. rewrite R in Y2.
    split; [exact Y1|]. split; [exact Y2|]. intros E. unfold y. rewrite mul_sign by auto.
    assert (B0 : Binary.Bsign p ex (b_of_Z m) = false).
    { subst m. reflexivity. }
    rewrite B0, xorb_false_r.
    destruct Hs; subst s; [apply sign_pos|apply sign_neg]; rewrite S2; lra.
  Qed.

  Lemma cross_exp_self dbg (x : F) r : exact_exp2 LM -> zero_or_normal x ->
    fce dbg [x; x] r = (Ret [x], shift 3 r).
  Proof.
    intros [X1 [X2 X3]] HN. pose proof (@prec_pos p Hp) as PP. pose proof (@prec_emax p ex He) as PE.
    destruct (proj1 (cross_exp_spec dbg [x; x] r) x x eq_refl)
      as [m1 [e1 [s1 [m2 [e2 [s2 [m [e [s [D1 [D2 [C1 [U1 [C2 [U2 [Es E]]]]]]]]]]]]]]]].
    assert (Q : m2 = m1 /\ e2 = e1 /\ s2 = s1).
    { destruct D1 as [_ [_ [A1 A2]]], D2 as [_ [_ [B1 B2]]]. destruct x as [sx|sx|sx pl h|sx mx e' h];
        simpl in HN; try contradiction.
      - intuition lia.
      - destruct (Z.leb_spec (2 ^ (p - 1)) (Zpos mx)); [|lia]. intuition lia. }
    destruct Q as [-> [-> ->]]. clear D2.
    destruct (decoded_ranges _ _ _ _ D1) as [V1 V2].
    assert (m = m1) by (eapply crossed_self_unsigned; [exact V1|exact U1|exact C1]). subst m.
    assert (e = e1) by (eapply crossed_self_signed; [|exact V2|exact U2|exact C2]; lia). subst e.
    assert (s = s1) by (rewrite Es; now destruct (drawn_coin r 2)). clear Es. subst s.
    rewrite E. do 3 f_equal. clear E C1 C2 U1 U2 V1 V2.
    destruct D1 as [R1 [R2 [R3 R4]]].
    assert (Hs : s1 = 1 \/ s1 = -1) by (rewrite R3; destruct (Binary.Bsign p ex x); auto).
    destruct (sign_mantissa s1 m1 Hs R1) as [Y1 [Y2 Y3]].
    destruct x as [sx|sx|sx pl h|sx mx e' h]; simpl in HN; try contradiction.
    - destruct R4 as [-> ->]. specialize (Y3 eq_refl). rewrite Z.mul_0_r in Y2.
      assert (Bd : (Rabs (rnd (B2R (b_mul np (b_of_Z s1) (b_of_Z 0)) * B2R (fexp2 (b_of_Z (3 - ex - p - 1))))) < bpow radix2 ex)%R).
      { rewrite Y2, Rmult_0_l, (round_0 radix2 _ (round_mode mode_NE)), Rabs_R0. apply bpow_gt_0. }
      destruct (mul_correct np _ _ Y1 X2 Bd) as [Z1 Z2].
      pose proof (mul_sign np _ _ Y1 X2 Bd) as Z3. rewrite Y3, X3, xorb_false_r in Z3.
      rewrite Y2, Rmult_0_l, (round_0 radix2 _ (round_mode mode_NE)) in Z2.
      apply (Binary.B2R_Bsign_inj p ex); [exact Z1|reflexivity|exact Z2|].
      rewrite Z3. simpl in R3. simpl. subst s1. destruct sx; reflexivity.
    - destruct (Z.leb_spec (2 ^ (p - 1)) (Zpos mx)); [|lia]. destruct R4 as [-> ->].
      assert (Hf : 3 - ex - p <= e' <= ex - p).
      { destruct (andb_prop _ _ h) as [H1 H2]. apply Zle_bool_imp_le in H2.
        unfold SpecFloat.canonical_mantissa in H1. rewrite Zpos_digits2_pos in H1.
        apply Zeq_bool_eq in H1. unfold SpecFloat.fexp, SpecFloat.emin in H1. lia. }
      destruct (X1 e') as [W1 W2]; [lia|].
      set (x := Binary.B754_finite sx mx e' h) in *.
      assert (V : (B2R (b_mul np (b_of_Z s1) (b_of_Z (Z.pos mx))) * B2R (fexp2 (b_of_Z e')) = B2R x)%R).
      { rewrite Y2, W2. unfold x. simpl. unfold F2R. simpl. simpl in R3. subst s1.
        destruct sx; simpl; reflexivity. }
      assert (Bd : (Rabs (rnd (B2R (b_mul np (b_of_Z s1) (b_of_Z (Z.pos mx))) * B2R (fexp2 (b_of_Z e')))) < bpow radix2 ex)%R).
      { rewrite V, rnd_B2R. apply B2R_bound. }
      destruct (mul_correct np _ _ Y1 W1 Bd) as [Z1 Z2]. rewrite V, rnd_B2R in Z2.
      apply (Binary.B2R_inj p ex); auto.
      assert (NZ : B2R x <> 0%R).
      { unfold x. simpl. apply F2R_neq_0. simpl. destruct sx; discriminate. }
      set (c := b_mul np (b_mul np (b_of_Z s1) (b_of_Z (Z.pos mx))) (fexp2 (b_of_Z e'))) in *. clearbody c.
      destruct c as [sc| | |]; auto; try discriminate Z1.
  Qed.

  (** The exponent of infinities and NaNs is taken at face value: two of them give
      an infinity. *)
  Lemma cross_exp_not_finite dbg (x y : F) r : 2 <= p -> exact_exp2 LM ->
    is_finite x = false -> is_finite y = false ->
    exists s, fce dbg [x; y] r = (Ret [Binary.B754_infinity s], shift 3 r).
  Proof.
    intros P2 [X1 _] NX NY. pose proof (@prec_pos p Hp) as PP. pose proof (@prec_emax p ex He) as PE.
    destruct (proj1 (cross_exp_spec dbg [x; y] r) x y eq_refl)
      as [m1 [e1 [s1 [m2 [e2 [s2 [m [e [s [D1 [D2 [C1 [U1 [C2 [U2 [Es E]]]]]]]]]]]]]]]].
    assert (Q : forall x m e s, is_finite x = false -> decoded p ex x (m, e, s) ->
              2 ^ (p - 1) <= m < 2 ^ p /\ e = ex - p + 1 /\ (s = 1 \/ s = -1)).
    { clear. intros x m e s N [A1 [_ [A2 A3]]].
      assert (s = 1 \/ s = -1) by (rewrite A2; destruct (Binary.Bsign p ex x); auto).
      destruct x; try discriminate N; intuition lia. }
    destruct (decoded_ranges _ _ _ _ D1) as [V1 V2].
    destruct (Q _ _ _ _ NX D1) as [M1 [-> S1]]. destruct (Q _ _ _ _ NY D2) as [M2 [-> S2]]. clear Q.
    assert (e = ex - p + 1) by (eapply crossed_self_signed; [|exact V2|exact U2|exact C2]; lia). subst e.
    assert (Hs : s = 1 \/ s = -1) by (rewrite Es; destruct (drawn_coin r 2); auto).
    assert (B : forall n, 2 ^ (p - 1) <= n < 2 ^ p -> Z.testbit n (p - 1) = true).
    { intros n Hn. replace (2 ^ p) with (2 * 2 ^ (p - 1)) in Hn
        by (rewrite <- Z.pow_succ_r by lia; f_equal; lia).
      rewrite Z.testbit_eqb by lia. replace (n / 2 ^ (p - 1)) with 1; [reflexivity|].
      apply Z.div_unique with (n - 2 ^ (p - 1)); lia. }
    assert (M : 2 ^ (p - 1) <= m < 2 ^ p).
    { split.
      - apply Z.nlt_ge. intros L. assert (T : Z.testbit m (p - 1) = true).
        { rewrite C1 by lia. destruct (_ <? _); auto. }
        rewrite (unsigned_high (p - 1)) in T; [discriminate| |lia]. destruct U1. split; auto.
      - apply unsigned_bits; [lia|]. intros i Hi. destruct (Z_lt_le_dec i 64).
        + rewrite C1 by lia. destruct (_ <? _); apply (unsigned_high p); try lia; unfold unsigned; lia.
        + apply (unsigned_high 64); auto. }
    destruct (sign_mantissa s m Hs) as [Y1 [Y2 _]]; [lia|].
    destruct (X1 (ex - p + 1)) as [W1 W2]; [lia|].
    eexists. rewrite E. do 3 f_equal. apply mul_overflow. rewrite Y2, W2.
    apply abs_round_ge_generic.
    - apply BinarySingleNaN.fexp_correct. exact Hp.
    - exact (valid_rnd_round_mode mode_NE).
    - apply generic_format_bpow. unfold SpecFloat.fexp, SpecFloat.emin. lia.
    - rewrite Rabs_mult, <- abs_IZR, (Rabs_pos_eq (bpow _ _)) by apply bpow_ge_0.
      replace ex with (p - 1 + (ex - p + 1)) at 1 by lia. rewrite bpow_plus.
      apply Rmult_le_compat_r; [apply bpow_ge_0|].
      rewrite <- IZR_Zpower by lia. apply IZR_le. change (radix_val radix2) with 2.
      destruct Hs; subst s; lia.
  Qed.
End CrossExp.

Lemma decoded64 (x : f64) : decoded 53 1024 x (integer_decode x).
Proof. exact (decode_float 52 11 eq_refl eq_refl eq_refl eq_refl x). Qed.
Lemma decoded32 (x : f32) : decoded 24 128 x (integer_decode x).
Proof. exact (decode_float 23 8 eq_refl eq_refl eq_refl eq_refl x). Qed.
