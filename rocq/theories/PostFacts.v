(** * RandomTeleport, MaxVelocityDimensions and the initializers: proofs *)

From Coq Require Import List Arith ZArith Bool Lia Reals Lra.
From Flocq Require Import Core IEEE754.BinarySingleNaN IEEE754.Binary.
From Verif Require Import Base Logic FloatModel Rng FloatFacts GaModel GaComponents PsoModel PsoComponents SpecGa SpecPso
  SpecBox SpecRand RandFacts PairFacts CreateFacts ArithFacts BoxFacts.
Import ListNotations.

(** ** Vectors built by index *)
Lemma nth_error_combine {A B} (l1 : list A) (l2 : list B) k a b :
  nth_error l1 k = Some a -> nth_error l2 k = Some b -> nth_error (combine l1 l2) k = Some (a, b).
Proof.
  revert l2 k. induction l1 as [|x l1 IH]; intros [|y l2] [|k]; simpl; try discriminate; auto. congruence.
Qed.

Lemma cbind_run {U A B} (m : comp U A) (f : A -> comp U B) u a u' : m u = (Ret a, u') -> cbind m f u = f a u'.
Proof. unfold cbind. now intros ->. Qed.

(** ** RandomTeleport (C39) *)
Section Teleport.
  Context {T : Type} {FT : FloatTrait T} {SA : Sampler T}.

  Lemma omap_uniform (l : list (T * T)) :
    (omap (fun mm => uniform_incl (fst mm) (snd mm)) l = Ret l /\
     forall lo hi, In (lo, hi) l -> fle lo hi = true /\ ffinite lo = true /\ ffinite hi = true) \/
    (omap (fun mm => uniform_incl (fst mm) (snd mm)) l = Panic /\
     exists lo hi, In (lo, hi) l /\ (fle lo hi && (ffinite lo && ffinite hi) = false)).
  Proof.
    induction l as [|[lo hi] l IH]; simpl.
    - left. split; [reflexivity|]. intros ? ? [].
    - unfold uniform_incl at 1 3. simpl. destruct (fle lo hi && (ffinite lo && ffinite hi)) eqn:E; simpl.
      + destruct IH as [[-> H]|[-> [lo' [hi' [H1 H2]]]]]; simpl.
        * left. split; auto. intros lo' hi' [K|K]; auto. inversion K; subst.
          apply andb_prop in E. destruct E as [E1 E]. apply andb_prop in E. destruct E. auto.
        * right. split; auto. exists lo', hi'. auto.
      + right. split; auto. exists lo, hi. auto.
  Qed.

  Lemma teleport_new (intervals : list (T * T)) (p : f32) :
    (random_teleport_new intervals p = Panic <->
       leb (b_of_Z 0) p && leb p (b_of_Z 1) = false \/
       exists lo hi, In (lo, hi) intervals /\ fle lo hi && (ffinite lo && ffinite hi) = false) /\
    (random_teleport_new intervals p <> Panic ->
       random_teleport_new intervals p = Ret (RandomTeleport intervals p intervals)).
  Proof.
    unfold random_teleport_new. destruct (leb (b_of_Z 0) p); simpl.
    2:{ split; [split; auto|congruence]. }
    destruct (leb p (b_of_Z 1)); simpl.
    2:{ split; [split; auto|congruence]. }
    destruct (omap_uniform intervals) as [[-> H]|[-> H]]; simpl.
    - split; auto. split; [discriminate|]. intros [K|[lo [hi [K1 K2]]]]; [discriminate|].
      destruct (H lo hi K1) as [H1 [H2 H3]]. rewrite H1, H2, H3 in K2. discriminate.
    - split; [split; auto|congruence].
  Qed.

  (** The loop that replaces every coordinate. *)
  Let step (intervals : list (T * T)) (x : list T) (i : nat) : comp rng (list T) :=
    do d <- cpure (index intervals i) ;; do y <- sample_incl d ;; cpure (update x i y).
  Lemma teleport_step idone i itodo done a todo r : length done = length idone ->
    step (idone ++ i :: itodo) (done ++ a :: todo) (length done) r
    = (Ret (done ++ drawn_incl (fst i) (snd i) r 0 :: todo), shift 1 r).
  Proof.
    intros H. unfold step, cbind, cpure. rewrite H, index_nth. unfold sample_incl, cbind, draw, cret.
    rewrite <- H, update_nth. reflexivity.
  Qed.
  Lemma teleport_fold (intervals : list (T * T)) (x : list T) r : length x = length intervals ->
    cfold (fun x i => do d <- cpure (index intervals i) ;; do y <- sample_incl d ;; cpure (update x i y))
          (seq 0 (length x)) x r
    = (Ret (map (fun kd => drawn_incl (fst (snd kd)) (snd (snd kd)) r (fst kd)) (enumerate intervals)),
       shift (length x) r).
  Proof.
    intros H. change (cfold (step intervals) (seq 0 (length x)) x r
      = (Ret (map (fun kd => drawn_incl (fst (snd kd)) (snd (snd kd)) r (fst kd)) (enumerate intervals)),
         shift (length x) r)).
    assert (G : forall todo itodo done idone r0, length done = length idone -> length todo = length itodo ->
      cfold (step (idone ++ itodo)) (seq (length done) (length todo)) (done ++ todo) r0
      = (Ret (done ++ map (fun kd => drawn_incl (fst (snd kd)) (snd (snd kd)) r0 (fst kd))
                          (combine (seq 0 (length itodo)) itodo)),
         shift (length todo) r0)).
    { induction todo as [|a todo IH]; intros [|i itodo] done idone r0 H1 H2; try discriminate; cbn [length seq cfold].
      - reflexivity.
      - unfold cbind at 1. rewrite teleport_step by auto.
        set (y0 := drawn_incl (fst i) (snd i) r0 0).
        specialize (IH itodo (done ++ [y0]) (idone ++ [i]) (shift 1 r0)).
        rewrite !app_length, <- !app_assoc in IH. cbn [length app] in IH.
        rewrite Nat.add_1_r in IH.
        rewrite IH; [|rewrite !Nat.add_1_r; congruence|simpl in H2; congruence].
        assert (E : combine (seq 1 (length itodo)) itodo =
                    map (fun kd => (S (fst kd), snd kd)) (combine (seq 0 (length itodo)) itodo)).
        { rewrite <- seq_shift. generalize (seq 0 (length itodo)). clear. intros s. revert s.
          induction itodo as [|b l IH]; intros [|n s]; simpl; auto. now rewrite IH. }
        cbn [combine map]. rewrite E, map_map. reflexivity. }
    specialize (G x intervals [] [] r eq_refl H). exact G.
  Qed.
End Teleport.

Section TeleportFloat.
  Context {prec emax : Z} {Hp : Prec_gt_0 prec} {He : Prec_lt_emax prec emax}.
  Variable np : nan_policy prec emax.
  Variable np32 : nan_policy 24 128.
  Notation F := (bfloat prec emax).
  Context {SA : Sampler F}.
  Notation new := (@random_teleport_new F (FloatIEEE np)).
  Notation post_move := (@random_teleport_post_move F (FloatIEEE np) SA np32).
  Notation rnd32 r := (@drawn_excl f32 (FloatIEEE np32) _ (b_of_Z 0) (b_of_Z 1) r 0).

  Lemma unit_excl32 : uniform_excl (FT := FloatIEEE np32) (b_of_Z 0) (b_of_Z 1) = Ret (b_of_Z 0, b_of_Z 1).
  Proof.
    unfold uniform_excl. cbn [flt ffinite FloatIEEE].
    assert (E : ltb (b_of_Z 0 : f32) (b_of_Z 1) && (is_finite (b_of_Z 0 : f32) && is_finite (b_of_Z 1 : f32)) = true)
      by (vm_compute; reflexivity).
    now rewrite E.
  Qed.
  Lemma width32 : is_finite (b_sub np32 (b_of_Z 1) (b_of_Z 0)) = true.
  Proof.
    destruct (@of_Z_exact 24 128 _ _ 0) as [F0 E0]; [now vm_compute|].
    destruct (@of_Z_exact 24 128 _ _ 1) as [F1 E1]; [now vm_compute|].
    apply (sub_correct np32); auto. rewrite E0, E1. replace (1 - 0)%R with (IZR 1) by (simpl; ring).
    rewrite rnd_format by (apply format_IZR; now vm_compute). apply IZR_bound. now vm_compute.
  Qed.
  Lemma rnd32_range r : leb (b_of_Z 0) (rnd32 r) = true /\ ltb (rnd32 r) (b_of_Z 1) = true.
  Proof.
    assert (Z : leb (b_of_Z 0 : f32) (b_of_Z 0) = true /\ ltb (b_of_Z 0 : f32) (b_of_Z 1) = true)
      by (vm_compute; auto).
    unfold drawn_excl. cbn [ffinite fsub fle flt FloatIEEE]. rewrite width32.
    match goal with |- context [if ?b then _ else _] => destruct b eqn:E end; [|exact Z].
    apply andb_prop in E. exact E.
  Qed.

  Lemma sample_unit32 r :
    sample_excl (FT := FloatIEEE np32) (b_of_Z 0, b_of_Z 1) r = (Ret (rnd32 r), shift 1 r).
  Proof. reflexivity. Qed.

  Lemma teleport_move intervals p rt x r : new intervals p = Ret rt ->
    (length x <> length intervals -> fst (post_move rt x r) = Panic) /\
    (length x = length intervals -> ltb (rnd32 r) p = false -> post_move rt x r = (Ret x, shift 1 r)) /\
    (length x = length intervals -> ltb (rnd32 r) p = true -> exists y,
       post_move rt x r = (Ret y, shift (1 + length x) r) /\ length y = length x /\
       forall k lo hi yk, nth_error intervals k = Some (lo, hi) -> nth_error y k = Some yk ->
         yk = @drawn_incl F (FloatIEEE np) SA lo hi r (1 + k) /\
         (is_finite (b_sub np hi lo) = true -> leb lo yk = true /\ leb yk hi = true)).
  Proof.
    intros H.
    assert (E : rt = RandomTeleport intervals p intervals).
    { destruct (@teleport_new F (FloatIEEE np) intervals p) as [_ K]. rewrite H in K.
      specialize (K ltac:(discriminate)). congruence. }
    assert (L : forall lo hi, In (lo, hi) intervals -> leb lo hi = true).
    { intros lo hi Hin. destruct (leb lo hi) eqn:El; auto. exfalso.
      destruct (@teleport_new F (FloatIEEE np) intervals p) as [[_ K] _].
      rewrite K in H; [discriminate|]. right. exists lo, hi. split; auto. cbn [fle FloatIEEE]. now rewrite El. }
    subst rt. unfold random_teleport_post_move. cbn [rt_intervals rt_probability rt_random_intervals].
    split; [|split].
    - intros Hx. apply Nat.eqb_neq in Hx. unfold cbind, cpure. now rewrite Hx.
    - intros Hx Hr. unfold cbind, cpure. rewrite Hx, Nat.eqb_refl. cbn [oassert]. rewrite unit_excl32.
      rewrite sample_unit32, Hr. reflexivity.
    - intros Hx Hr.
      eexists. split; [|split].
      + erewrite cbind_run.
        2:{ unfold cpure. apply Nat.eqb_eq in Hx. rewrite Hx. reflexivity. }
        erewrite cbind_run by (unfold cpure; rewrite unit_excl32; reflexivity).
        erewrite cbind_run by apply sample_unit32. rewrite Hr.
        rewrite (teleport_fold intervals x _ Hx). reflexivity.
      + rewrite map_length. unfold enumerate. rewrite combine_length, seq_length. lia.
      + intros k lo hi yk Hi Hk. rewrite nth_error_map, nth_error_enumerate, Hi in Hk. simpl in Hk.
        injection Hk as <-.
        match goal with |- ?u = ?w /\ _ => assert (D : u = w) by reflexivity end.
        split; [exact D|]. intros W. rewrite D. apply drawn_incl_in; auto. apply L. eapply nth_error_In; eauto.
  Qed.

  (** Probability zero and one. *)
  Lemma teleport_never r p : leb p (b_of_Z 0) = true -> ltb (rnd32 r) p = false.
  Proof.
    intros H. destruct (rnd32_range r) as [R _]. destruct (ltb (rnd32 r) p) eqn:E; auto. fkeys. lra.
  Qed.
  Lemma teleport_always r p : leb (b_of_Z 1) p = true -> ltb (rnd32 r) p = true.
  Proof.
    intros H. destruct (rnd32_range r) as [_ R]. fkeys. apply ltb_key. repeat split; auto. lra.
  Qed.
  Lemma teleport_zero intervals p rt x r : new intervals p = Ret rt -> length x = length intervals ->
    leb p (b_of_Z 0) = true -> post_move rt x r = (Ret x, shift 1 r).
  Proof. intros H Hx Hz. eapply teleport_move; eauto. now apply teleport_never. Qed.
  Lemma teleport_one intervals p rt x r : new intervals p = Ret rt -> length x = length intervals ->
    leb (b_of_Z 1) p = true -> exists y, post_move rt x r = (Ret y, shift (1 + length x) r) /\
      Forall2 (fun yk i => exists k, yk = @drawn_incl F (FloatIEEE np) SA (fst i) (snd i) r (1 + k)) y intervals.
  Proof.
    intros H Hx Hz. destruct (teleport_move intervals p rt x r H) as [_ [_ G]].
    destruct (G Hx (teleport_always r p Hz)) as [y [E [L K]]]. exists y. split; auto.
    rewrite Hx in L. clear - L K.
    assert (G : forall y' intervals' a, length y' = length intervals' ->
      (forall k lo hi yk, nth_error intervals' k = Some (lo, hi) -> nth_error y' k = Some yk ->
         yk = @drawn_incl F (FloatIEEE np) SA lo hi r (1 + (a + k))) ->
      Forall2 (fun yk i => exists k, yk = @drawn_incl F (FloatIEEE np) SA (fst i) (snd i) r (1 + k)) y' intervals').
    { induction y' as [|b y' IH]; intros [|[lo hi] l] a E G; try discriminate; constructor.
      - exists (a + 0). apply (G 0 lo hi b); reflexivity.
      - apply (IH l (S a)); [simpl in E; congruence|]. intros k lo' hi' yk H1 H2.
        rewrite (G (S k) lo' hi' yk H1 H2). f_equal. lia. }
    apply (G y intervals 0); auto. intros k lo hi yk H1 H2. apply (K k lo hi yk H1 H2).
  Qed.
End TeleportFloat.

(** ** MaxVelocityDimensions (C40) *)
Section MaxDim.
  Context {prec emax : Z} {Hp : Prec_gt_0 prec} {He : Prec_lt_emax prec emax}.
  Variable np : nan_policy prec emax.
  Notation F := (bfloat prec emax).
  Notation correct := (@max_velocity_dimensions F (FloatIEEE np)).
  Notation sign := (Binary.Bsign prec emax).
  Notation B2R := (Binary.B2R prec emax).

  Lemma key_abs (x : F) : key (b_abs x) = Rabs (key x).
  Proof.
    pose proof (bpow_gt_0 radix2 emax).
    destruct x as [s|[|]|s pl h|s m e h]; simpl; rewrite ?Rabs_Ropp, ?Rabs_R0; auto.
    - now rewrite Rabs_pos_eq by lra.
    - now rewrite Rabs_pos_eq by lra.
    - rewrite <- F2R_Zabs, abs_cond_Zopp. reflexivity.
  Qed.
  Lemma nan_abs (x : F) : is_nan (b_abs x) = is_nan x.
  Proof. destruct x; reflexivity. Qed.
  Lemma finite_abs (x : F) : is_finite (b_abs x) = is_finite x.
  Proof. destruct x; reflexivity. Qed.
  Lemma sign_abs (x : F) : is_nan x = false -> sign (b_abs x) = false.
  Proof. destruct x; auto; discriminate. Qed.
  Lemma abs_opp (x : F) : b_abs (b_opp x) = b_abs x.
  Proof. destruct x; reflexivity. Qed.
  Lemma abs_abs (x : F) : b_abs (b_abs x) = b_abs x.
  Proof. destruct x; reflexivity. Qed.
  Lemma nonneg_abs (x : F) : leb (Binary.B754_zero false) x = true -> sign x = false -> b_abs x = x.
  Proof. destruct x as [s|s|s pl h|s m e h]; cbn; intros H E; try subst s; auto; discriminate. Qed.

  Lemma one_B2R : is_finite (b_one : F) = true /\ B2R b_one = 1%R /\ sign b_one = false.
  Proof.
    unfold b_one. split; [|split].
    - apply (Binary.is_finite_Bone prec emax).
    - apply Binary.Bone_correct.
    - apply Binary.Bsign_Bone.
  Qed.
  Lemma opp_B2R (x : F) : B2R (b_opp x) = (- B2R x)%R.
  Proof. destruct x as [s|s|s pl h|s m e h]; simpl; try ring. rewrite <- F2R_Zopp. now destruct s. Qed.
  Lemma opp_sign (x : F) : sign (b_opp x) = negb (sign x).
  Proof. destruct x; reflexivity. Qed.
  Lemma opp_finite (x : F) : is_finite (b_opp x) = is_finite x.
  Proof. destruct x; reflexivity. Qed.

  (** Multiplying by 1 or -1. *)
  Lemma mul_unit (m : F) (b : bool) : is_finite m = true ->
    b_mul np (b_abs m) (if b then b_opp b_one else b_one) = if b then b_opp (b_abs m) else b_abs m.
  Proof.
    intros H. destruct one_B2R as [F1 [E1 S1]].
    set (s := if b then b_opp b_one else b_one : F).
    assert (Fs : is_finite s = true) by (unfold s; destruct b; rewrite ?opp_finite; auto).
    assert (Es : B2R s = (if b then -1 else 1)%R) by (unfold s; destruct b; rewrite ?opp_B2R, ?E1; auto).
    assert (Ss : sign s = b) by (unfold s; destruct b; rewrite ?opp_sign, ?S1; auto).
    assert (Fm : is_finite (b_abs m) = true) by now rewrite finite_abs.
    assert (R : round radix2 (SpecFloat.fexp prec emax) (round_mode mode_NE) (B2R (b_abs m) * B2R s)
                = B2R (if b then b_opp (b_abs m) else b_abs m)).
    { rewrite Es. replace (B2R (b_abs m) * (if b then -1 else 1))%R
        with (B2R (if b then b_opp (b_abs m) else b_abs m)) by (destruct b; rewrite ?opp_B2R; ring).
      apply rnd_B2R. }
    assert (Bd : (Rabs (round radix2 (SpecFloat.fexp prec emax) (round_mode mode_NE)
                     (B2R (b_abs m) * B2R s)) < bpow radix2 emax)%R).
    { rewrite R. apply B2R_bound. }
    destruct (mul_correct np (b_abs m) s Fm Fs Bd) as [G1 G2].
    pose proof (mul_sign np (b_abs m) s Fm Fs Bd) as G3.
    rewrite Ss, (sign_abs m (finite_not_nan _ H)) in G3.
    apply Binary.B2R_Bsign_inj.
    - exact G1.
    - unfold is_finite in Fm. destruct b; [|exact Fm]. change (is_finite (b_opp (b_abs m)) = true).
      now rewrite opp_finite.
    - now rewrite G2.
    - rewrite G3. simpl. destruct b.
      + rewrite opp_sign, sign_abs; auto. now apply finite_not_nan.
      + now rewrite sign_abs by now apply finite_not_nan.
  Qed.

  (** One component. *)
  Notation corrected v m :=
    (if leb (b_abs v) m then v else b_mul np (b_abs m) (b_signum np v)).
  Lemma corrected_in (v m : F) : leb (b_abs v) m = true -> corrected v m = v.
  Proof. now intros ->. Qed.
  Lemma corrected_out (v m : F) : is_nan v = false -> leb (Binary.B754_zero false) m = true ->
    leb (b_abs v) m = false ->
    is_finite m = true /\ corrected v m = (if sign v then b_opp (b_abs m) else b_abs m).
  Proof.
    intros N M L. rewrite L.
    assert (Fm : is_finite m = true).
    { apply leb_false in L; [|now rewrite nan_abs|now apply leb_key in M].
      rewrite key_abs in L. fkeys.
      assert (Rabs (key v) <= bpow radix2 emax)%R.
      { destruct v as [s|[|]|s pl h|s m0 e h]; simpl; rewrite ?Rabs_Ropp, ?Rabs_R0.
        - apply bpow_ge_0.
        - rewrite Rabs_pos_eq by apply bpow_ge_0. lra.
        - rewrite Rabs_pos_eq by apply bpow_ge_0. lra.
        - discriminate.
        - left. apply (B2R_bound (Binary.B754_finite s m0 e h)). }
      destruct m as [s|[|]|s pl h|s m0 e h]; auto; simpl in *; try discriminate; pose proof (bpow_gt_0 radix2 emax); lra. }
    split; auto. unfold b_signum. rewrite N. rewrite <- (mul_unit m (sign v) Fm). reflexivity.
  Qed.

  Lemma max_dim_eq limits v : length v = length limits ->
    correct limits v = Ret (map (fun vm => corrected (fst vm) (snd vm)) (combine v limits)).
  Proof.
    intros H. unfold max_velocity_dimensions. rewrite H, Nat.eqb_refl. cbn [oassert obind]. f_equal.
    apply map_ext. intros [a b]. reflexivity.
  Qed.
  Lemma max_dim_panic limits v : correct limits v = Panic <-> length v <> length limits.
  Proof.
    destruct (Nat.eq_dec (length v) (length limits)) as [E|E].
    - rewrite (max_dim_eq _ _ E). split; [discriminate|congruence].
    - split; auto. intros _. unfold max_velocity_dimensions. apply Nat.eqb_neq in E. now rewrite E.
  Qed.

  Lemma abs_signed (m : F) (b : bool) : b_abs (if b then b_opp (b_abs m) else b_abs m) = b_abs m.
  Proof. destruct b; rewrite ?abs_opp; apply abs_abs. Qed.
  Lemma abs_le_self (m : F) : leb (Binary.B754_zero false) m = true -> leb (b_abs m) m = true.
  Proof.
    intros H. fkeys. apply leb_key. rewrite nan_abs, key_abs. repeat split; auto. simpl in *.
    rewrite Rabs_pos_eq; lra.
  Qed.

  Lemma max_dim_spec limits v y : correct limits v = Ret y ->
    length v = length limits /\ length y = length v /\
    forall k vk mk yk, nth_error v k = Some vk -> nth_error limits k = Some mk -> nth_error y k = Some yk ->
      (leb (b_abs vk) mk = true -> yk = vk) /\
      (is_nan vk = false -> leb (Binary.B754_zero false) mk = true ->
         leb (b_abs yk) mk = true /\ sign yk = sign vk /\
         (leb (b_abs vk) mk = false -> b_abs yk = b_abs mk)).
  Proof.
    intros H. destruct (Nat.eq_dec (length v) (length limits)) as [E|E].
    2:{ apply max_dim_panic in E. congruence. }
    rewrite (max_dim_eq _ _ E) in H. injection H as <-. split; auto.
    split; [rewrite map_length, combine_length; lia|].
    intros k vk mk yk Hv Hm Hy. rewrite nth_error_map, (nth_error_combine _ _ _ _ _ Hv Hm) in Hy.
    injection Hy as <-. cbn [fst snd]. split; [apply corrected_in|].
    intros N M. destruct (leb (b_abs vk) mk) eqn:L.
    - rewrite L. split; auto. split; auto. congruence.
    - destruct (corrected_out vk mk N M L) as [Fm C]. rewrite L in C. rewrite C. rewrite abs_signed.
      split; [now apply abs_le_self|]. split; auto.
      destruct (sign vk); [rewrite opp_sign|]; rewrite sign_abs; auto; now apply finite_not_nan.
  Qed.
  Lemma max_dim_idempotent limits v y : correct limits v = Ret y ->
    Forall (fun x => is_nan x = false) v -> Forall (fun m => leb (Binary.B754_zero false) m = true) limits ->
    correct limits y = Ret y.
  Proof.
    intros H Hv Hm. destruct (max_dim_spec limits v y H) as [E1 [E2 K]].
    rewrite max_dim_eq by congruence. f_equal.
    assert (G : Forall2 (fun yk mk => leb (b_abs yk) mk = true) y limits).
    { assert (EL : length y = length limits) by congruence. clear H.
      assert (G : forall k yk mk, nth_error y k = Some yk -> nth_error limits k = Some mk -> leb (b_abs yk) mk = true).
      { intros k yk mk Hy Hl. destruct (nth_error v k) as [vk|] eqn:Ev.
        - destruct (K k vk mk yk Ev Hl Hy) as [_ G]. apply G.
          + rewrite Forall_forall in Hv. apply Hv. eapply nth_error_In; eauto.
          + rewrite Forall_forall in Hm. apply Hm. eapply nth_error_In; eauto.
        - apply nth_error_None in Ev. assert (k < length y) by (apply nth_error_Some; congruence). lia. }
      clear - EL G. revert limits EL G. induction y as [|a y IH]; intros [|m l] EL G; try discriminate; constructor.
      - apply (G 0); reflexivity.
      - apply IH; [simpl in EL; congruence|]. intros k yk mk H1 H2. apply (G (S k)); auto. }
    clear - G. induction G as [|a m y l H _ IH]; simpl; auto. now rewrite H, IH.
  Qed.

  (** Outside the hypotheses: NaN stays NaN, a negative limit is exceeded. *)
  Lemma max_dim_nan limits v y k vk yk : correct limits v = Ret y ->
    nth_error v k = Some vk -> nth_error y k = Some yk -> is_nan vk = true -> is_nan yk = true.
  Proof.
    intros H Hv Hy N. destruct (Nat.eq_dec (length v) (length limits)) as [E|E].
    2:{ apply max_dim_panic in E. congruence. }
    rewrite (max_dim_eq _ _ E) in H. injection H as <-.
    destruct (nth_error limits k) as [mk|] eqn:Em.
    2:{ apply nth_error_None in Em. assert (k < length v) by (apply nth_error_Some; congruence). lia. }
    rewrite nth_error_map, (nth_error_combine _ _ _ _ _ Hv Em) in Hy. injection Hy as <-. cbn [fst snd].
    destruct (leb (b_abs vk) mk) eqn:L.
    - apply leb_key in L. rewrite nan_abs in L. destruct L. congruence.
    - unfold b_signum. rewrite N. destruct (np_const np) as [c Hc]. simpl. unfold b_mul, Binary.Bmult.
      unfold is_nan in *. destruct c as [s|s|s pl h|s m0 e h]; try discriminate.
      destruct (b_abs mk); reflexivity.
  Qed.
End MaxDim.

(** ** The initializers (C45) *)
Section Init.
  Lemma create_vec_checked {G} {NG : NumGene G} np (intervals : list (G * G)) r :
    (forall i, In i intervals -> ng_lt (fst i) (snd i) = true) ->
    create_vec np intervals r = cmapM (random_gene np) intervals r.
  Proof.
    intros H. unfold create_vec, cbind, cpure.
    assert (E : ofold (fun _ i => oassert (ng_lt (fst i) (snd i))) intervals tt = Ret tt).
    { induction intervals as [|i l IH]; simpl; auto. rewrite (H i (or_introl eq_refl)). simpl.
      apply IH. intros j Hj. apply H. now right. }
    now rewrite E.
  Qed.
  Lemma create_vec_unordered {G} {NG : NumGene G} np (intervals : list (G * G)) r i :
    In i intervals -> ng_lt (fst i) (snd i) = false -> fst (create_vec np intervals r) = Panic.
  Proof.
    intros Hi E. unfold create_vec, cbind, cpure.
    assert (K : ofold (fun _ i => oassert (ng_lt (fst i) (snd i))) intervals tt = Panic).
    { induction intervals as [|j l IH]; simpl; [destruct Hi|]. destruct Hi as [<-|Hi].
      - now rewrite E.
      - destruct (ng_lt (fst j) (snd j)); simpl; auto. }
    now rewrite K.
  Qed.
  Lemma creplicate_ext {U A} n (m m' : comp U A) u : (forall u, m u = m' u) -> creplicate n m u = creplicate n m' u.
  Proof.
    intros H. revert u. induction n as [|n IH]; intros u; simpl; auto.
    unfold cbind. rewrite H. destruct (m' u) as [[a| |] u1]; auto. now rewrite IH.
  Qed.
  (** The same vectors as RandomCreator's. *)
  Lemma random_vectors_create {G} {NG : NumGene G} np (intervals : list (G * G)) n r :
    (forall i, In i intervals -> ng_lt (fst i) (snd i) = true) ->
    random_vectors np intervals n r = random_create np (RandomCreator n intervals) r.
  Proof.
    intros H. unfold random_vectors, random_create. cbn [rc_population_size rc_intervals].
    apply creplicate_ext. intros u. now apply create_vec_checked.
  Qed.

  Lemma random_vectors_f64 np (intervals : list (f64 * f64)) n r :
    (forall lo hi, In (lo, hi) intervals -> ltb lo hi = true /\ is_finite (b_sub np hi lo) = true) ->
    exists vs, @random_vectors f64 NumGene64 np intervals n r = (Ret vs, shift (n * length intervals) r) /\
      length vs = n /\
      forall j v, nth_error vs j = Some v ->
        length v = length intervals /\
        forall k g lo hi, nth_error v k = Some g -> nth_error intervals k = Some (lo, hi) ->
          g = @drawn_incl f64 (FloatIEEE np) _ lo hi r (j * length intervals + k) /\
          leb lo g = true /\ leb g hi = true.
  Proof.
    intros H.
    assert (L : forall i, In i intervals -> @ng_lt f64 NumGene64 (fst i) (snd i) = true).
    { intros [lo hi] Hi. apply (H lo hi Hi). }
    assert (K : forall i, In i intervals -> is_finite (b_sub np (snd i) (fst i)) = true).
    { intros [lo hi] Hi. apply (H lo hi Hi). }
    destruct n as [|n].
    { exists []. split; [reflexivity|]. split; auto. intros [|j] v E; discriminate. }
    destruct intervals as [|i0 l0].
    { rewrite (@random_vectors_create f64 NumGene64 np [] (S n) r L).
      destruct (@create_spec f64 NumGene64 np (RandomCreator (S n) []) (fun i _ => fst i)) with (r := r)
        as [vs [R1 [R2 R3]]]; [intros i []|].
      exists vs. split; [exact R1|]. split; [exact R2|]. intros j v Hj. destruct (R3 j v Hj) as [L1 _].
      split; [exact L1|]. intros k g lo hi _ Hk. destruct k; discriminate. }
    rewrite (@random_vectors_create f64 NumGene64 np (i0 :: l0) (S n) r L).
    destruct (@new_panics f64 NumGene64 (S n) (i0 :: l0)) as [[_ [E|[E|[i [Hi E]]]]]|[E _]].
    - discriminate.
    - discriminate.
    - rewrite (L i Hi) in E. discriminate.
    - exact (random_creator_f64 np (S n) (i0 :: l0) _ r E K).
  Qed.
  Lemma random_vectors_f32 np64 np32 (intervals : list (f32 * f32)) n r :
    (forall lo hi, In (lo, hi) intervals -> ltb lo hi = true /\ is_finite lo = true /\ is_finite hi = true) ->
    exists vs, @random_vectors f32 (NumGene32 np64 np32) np64 intervals n r
        = (Ret vs, shift (n * length intervals) r) /\
      length vs = n /\
      forall j v, nth_error vs j = Some v ->
        length v = length intervals /\
        forall k g lo hi, nth_error v k = Some g -> nth_error intervals k = Some (lo, hi) ->
          g = fconv (np_of64 np32)
                (@drawn_incl f64 (FloatIEEE np64) _ (fconv (np_of32 np64) lo) (fconv (np_of32 np64) hi)
                   r (j * length intervals + k)) /\
          leb lo g = true /\ leb g hi = true.
  Proof.
    intros H.
    assert (L : forall i, In i intervals -> @ng_lt f32 (NumGene32 np64 np32) (fst i) (snd i) = true).
    { intros [lo hi] Hi. apply (H lo hi Hi). }
    assert (K : forall i, In i intervals -> is_finite (fst i) = true /\ is_finite (snd i) = true).
    { intros [lo hi] Hi. apply (H lo hi Hi). }
    destruct n as [|n].
    { exists []. split; [reflexivity|]. split; auto. intros [|j] v E; discriminate. }
    destruct intervals as [|i0 l0].
    { rewrite (@random_vectors_create f32 (NumGene32 np64 np32) np64 [] (S n) r L).
      destruct (@create_spec f32 (NumGene32 np64 np32) np64 (RandomCreator (S n) []) (fun i _ => fst i)) with (r := r)
        as [vs [R1 [R2 R3]]]; [intros i []|].
      exists vs. split; [exact R1|]. split; [exact R2|]. intros j v Hj. destruct (R3 j v Hj) as [L1 _].
      split; [exact L1|]. intros k g lo hi _ Hk. destruct k; discriminate. }
    rewrite (@random_vectors_create f32 (NumGene32 np64 np32) np64 (i0 :: l0) (S n) r L).
    destruct (@new_panics f32 (NumGene32 np64 np32) (S n) (i0 :: l0)) as [[_ [E|[E|[i [Hi E]]]]]|[E _]].
    - discriminate.
    - discriminate.
    - rewrite (L i Hi) in E. discriminate.
    - exact (random_creator_f32 np64 np32 (S n) (i0 :: l0) _ r E K).
  Qed.

  (** When they panic. *)
  Lemma random_vectors_zero {G} {NG : NumGene G} np (intervals : list (G * G)) r :
    random_vectors np intervals 0 r = (Ret [], r).
  Proof. reflexivity. Qed.
  Lemma random_vectors_unordered {G} {NG : NumGene G} np (intervals : list (G * G)) n r i :
    0 < n -> In i intervals -> ng_lt (fst i) (snd i) = false ->
    fst (random_vectors np intervals n r) = Panic.
  Proof.
    intros Hn Hi E. destruct n as [|n]; [lia|]. unfold random_vectors. simpl. unfold cbind.
    pose proof (create_vec_unordered np intervals r i Hi E) as K.
    destruct (create_vec np intervals r) as [o r1]. simpl in K. now rewrite K.
  Qed.
  (** An infinite end of an interval makes [Uniform::new_inclusive] panic. *)
  Lemma random_vectors_infinite np (intervals : list (f64 * f64)) n r lo hi :
    0 < n -> In (lo, hi) intervals -> is_finite lo && is_finite hi = false ->
    fst (@random_vectors f64 NumGene64 np intervals n r) = Panic.
  Proof.
    intros Hn Hi E.
    destruct (forallb (fun i : f64 * f64 => ltb (fst i) (snd i)) intervals) eqn:A.
    - destruct n as [|n]; [lia|]. unfold random_vectors. simpl. unfold cbind.
      rewrite create_vec_checked.
      2:{ intros i Hi'. rewrite forallb_forall in A. apply (A i Hi'). }
      assert (K : fst (cmapM (@random_gene f64 NumGene64 np) intervals r) = Panic).
      { clear A. revert r. induction intervals as [|[a b] l IH]; intros r; [destruct Hi|].
        simpl. unfold cbind at 1. unfold random_gene at 1, cbind at 1, cpure at 1.
        cbn [fst snd ng_to_f64 NumGene64 unwrap obind]. unfold uniform_incl, FT64. cbn [fle ffinite FloatIEEE].
        destruct (leb a b && (is_finite a && is_finite b)) eqn:Eab; [|reflexivity].
        destruct Hi as [Ei|Hi].
        - inversion Ei; subst. rewrite E, andb_false_r in Eab. discriminate.
        - unfold cbind at 1. destruct (sample_incl _ r) as [[z| |] r1] eqn:Es; try discriminate Es.
          unfold cpure at 1. cbn [ng_from_f64 NumGene64 unwrap]. unfold cbind at 1.
          specialize (IH Hi r1). destruct (cmapM _ l r1) as [o r2]. simpl in IH. rewrite IH. reflexivity. }
      destruct (cmapM (random_gene np) intervals r) as [o r1]. simpl in K. now rewrite K.
    - assert (K : exists i, In i intervals /\ ltb (fst i) (snd i) = false).
      { clear - A. induction intervals as [|i l IH]; simpl in A; [discriminate|].
        destruct (ltb (fst i) (snd i)) eqn:Ei; [|exists i; split; [now left|auto]].
        destruct (IH A) as [j [Hj Ej]]. exists j. split; [now right|auto]. }
      destruct K as [i [Hi' Ei]]. exact (@random_vectors_unordered f64 NumGene64 np intervals n r i Hn Hi' Ei).
  Qed.
  Lemma zero_velocities_spec {T} {FT : FloatTrait T} d n :
    length (zero_velocities d n) = n /\
    forall v, In v (zero_velocities d n) -> length v = d /\ Forall (fun x => x = fzero) v.
  Proof.
    unfold zero_velocities. split; [apply repeat_length|]. intros v Hv. apply repeat_spec in Hv. subst v.
    split; [apply repeat_length|]. apply Forall_forall. intros x Hx. now apply repeat_spec in Hx.
  Qed.
End Init.
