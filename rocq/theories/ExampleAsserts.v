(** * The assertions of the tests on the paraboloid *)

From Coq Require Import List Arith ZArith Bool String Reals Lia Lra.
From Flocq Require Import Core.Core IEEE754.BinarySingleNaN IEEE754.Binary.
From Verif Require Import Base FloatModel GaModel PsoModel LogModel FloatFacts ArithFacts SatFacts PostFacts TestFuncModel ExampleModel
  SpecBox SpecTest SpecExample TestFacts CreateFacts RangeFacts GaStandard ExampleRuns.
Import ListNotations.
Local Open Scope nat_scope.

Section Squares.
  Context {prec emax : Z} {Hp : Prec_gt_0 prec} {He : Prec_lt_emax prec emax}.
  Variable np : nan_policy prec emax.
  Notation F := (bfloat prec emax).
  Notation rnd := (round radix2 (SpecFloat.fexp prec emax) (round_mode mode_NE)).
  Notation B2R := (Binary.B2R prec emax).

  Lemma add_finite_value (x y : F) : is_finite (b_add np x y) = true ->
    is_finite x = true /\ is_finite y = true /\ B2R (b_add np x y) = rnd (B2R x + B2R y).
  Proof.
    intros H. destruct (add_finite_args np x y H) as [A B]. split; [exact A|]. split; [exact B|].
    destruct (key_add np x y A B) as [_ K]. rewrite <- sat_in; [rewrite <- K; symmetry; now apply key_finite|].
    apply sat_finite. rewrite <- K. rewrite key_finite by auto. apply B2R_bound.
  Qed.
  Lemma mul_finite_value (x y : F) : is_finite (b_mul np x y) = true ->
    is_finite x = true /\ is_finite y = true /\ B2R (b_mul np x y) = rnd (B2R x * B2R y).
  Proof.
    intros H. destruct (mul_finite_args np x y H) as [A B]. split; [exact A|]. split; [exact B|].
    destruct (key_mul np x y A B) as [_ K]. rewrite <- sat_in; [rewrite <- K; symmetry; now apply key_finite|].
    apply sat_finite. rewrite <- K. rewrite key_finite by auto. apply B2R_bound.
  Qed.

  (** A finite sum of squares is at least each of them. *)
  Lemma squares_finite {A} (f : A -> F) l : forall a,
    is_finite (fold_left (fun s x => b_add np s (b_mul np (f x) (f x))) l a) = true -> is_finite a = true.
  Proof.
    induction l as [|x l IH]; simpl; intros a H; [exact H|].
    apply IH in H. now apply add_finite_value in H.
  Qed.
  Lemma squares_ge {A} (f : A -> F) l : forall a,
    let s := fold_left (fun s x => b_add np s (b_mul np (f x) (f x))) l a in
    is_finite s = true -> (0 <= B2R a)%R ->
    (B2R a <= B2R s)%R /\ forall x, In x l -> is_finite (f x) = true /\ (rnd (B2R (f x) * B2R (f x)) <= B2R s)%R.
  Proof.
    induction l as [|x l IH]; simpl; intros a H Ha; [split; [lra|intros ? []]|].
    pose proof (squares_finite f l _ H) as Fa.
    destruct (add_finite_value _ _ Fa) as [F1 [F2 E]]. destruct (mul_finite_value _ _ F2) as [F3 [_ E2]].
    assert (P : (0 <= rnd (B2R (f x) * B2R (f x)))%R) by (apply rnd_pos; nra).
    assert (L1 : (B2R a <= B2R (b_add np a (b_mul np (f x) (f x))))%R).
    { apply Rle_trans with (rnd (B2R a)); [rewrite rnd_B2R; lra|]. rewrite E. apply rnd_le. lra. }
    assert (L2 : (rnd (B2R (f x) * B2R (f x)) <= B2R (b_add np a (b_mul np (f x) (f x))))%R).
    { rewrite <- E2. apply Rle_trans with (rnd (B2R (b_mul np (f x) (f x)))); [rewrite rnd_B2R; lra|]. rewrite E. apply rnd_le. lra. }
    destruct (IH _ H (Rle_trans _ _ _ Ha L1)) as [G1 G2]. split; [exact (Rle_trans _ _ _ L1 G1)|].
    intros y [<-|Hy]; [split; [exact F3|exact (Rle_trans _ _ _ L2 G1)]|auto].
  Qed.
End Squares.

Section Asserts.
  Variables (np32 : nan_policy 24 128) (np64 : nan_policy 53 1024).
  Notation parab := (@paraboloid f32 (FloatIEEE np32) (ToF64_32 np64)).
  Notation B32 := (Binary.B2R 24 128).
  Notation B64 := (Binary.B2R 53 1024).

  Lemma small_literal (v : f64) : leb v f64_1em6 = true -> is_finite v = true -> (B64 v < bpow radix2 (-9))%R.
  Proof.
    intros L Fv. apply leb_key in L. destruct L as [_ [_ L]].
    rewrite (key_finite v Fv), key_finite in L by reflexivity.
    assert (E : Binary.B2FF 53 1024 f64_1em6 = Binary.F754_finite false 4722366482869645 (-72)) by (vm_compute; reflexivity).
    rewrite <- (Binary.FF2R_B2FF 53 1024 f64_1em6), E in L. unfold Binary.FF2R, F2R in L. cbn [Fnum Fexp cond_Zopp] in L.
    change (bpow radix2 (-72)) with (/ IZR (2 ^ 72))%R in L. change (bpow radix2 (-9)) with (/ IZR (2 ^ 9))%R.
    simpl Z.pow in *. lra.
  Qed.
  Lemma tolerance_large (t : f32) : t = f32_0_1 \/ t = f32_0_3 -> is_finite t = true /\ (bpow radix2 (-4) <= B32 t)%R.
  Proof.
    intros [-> | ->]; (split; [reflexivity|]).
    - assert (E : Binary.B2FF 24 128 f32_0_1 = Binary.F754_finite false 13421773 (-27)) by (vm_compute; reflexivity).
      rewrite <- (Binary.FF2R_B2FF 24 128 f32_0_1), E. unfold Binary.FF2R, F2R. cbn [Fnum Fexp cond_Zopp].
      change (bpow radix2 (-27)) with (/ IZR (2 ^ 27))%R. change (bpow radix2 (-4)) with (/ IZR (2 ^ 4))%R. simpl Z.pow. lra.
    - assert (E : Binary.B2FF 24 128 f32_0_3 = Binary.F754_finite false 10066330 (-25)) by (vm_compute; reflexivity).
      rewrite <- (Binary.FF2R_B2FF 24 128 f32_0_3), E. unfold Binary.FF2R, F2R. cbn [Fnum Fexp cond_Zopp].
      change (bpow radix2 (-25)) with (/ IZR (2 ^ 25))%R. change (bpow radix2 (-4)) with (/ IZR (2 ^ 4))%R. simpl Z.pow. lra.
  Qed.
  Lemma goal_tolerance_large (t : f64) : t = f64_1em3 \/ t = f64_0_1 -> ltb f64_1em6 t = true.
  Proof. intros [-> | ->]; vm_compute; reflexivity. Qed.

  Lemma paraboloid_value x : in_box (int_cube 5 (-100) 100) x ->
    is_finite (@paraboloid_g f32 (FloatIEEE np32) x) = true /\
    B64 (parab x) = B32 (@paraboloid_g f32 (FloatIEEE np32) x).
  Proof.
    intros Hb.
    destruct (cube_within 5 _ _ 100 x (within_int32 (-100) 100 ltac:(lia)) (within_int32 100 100 ltac:(lia)) Hb) as [Lx Wx].
    assert (Wg : within 55125%Z (@paraboloid_g f32 (FloatIEEE np32) x)).
    { pose proof (paraboloid_within np32 (lit_32 np32) ltac:(lia) 100%Z x Wx) as Q.
      change (@List.length (bfloat 24 128) x) with (@List.length f32 x) in Q. rewrite Lx in Q. apply Q. vm_compute. discriminate. }
    destruct Wg as [Fg _]. split; [exact Fg|]. apply (fconv_32_64 (np_of32 np64) _ Fg).
  Qed.
  Lemma gaps_small (x : list f32) (t : f32) : is_finite t = true -> (bpow radix2 (-4) <= B32 t)%R ->
    is_finite (@paraboloid_g f32 (FloatIEEE np32) x) = true ->
    (B32 (@paraboloid_g f32 (FloatIEEE np32) x) < bpow radix2 (-9))%R ->
    (0 <= B32 (@paraboloid_g f32 (FloatIEEE np32) x))%R /\
    forall i a, In (i, a) (enumerate x) -> ltb (b_abs (gap np32 (i, a))) t = true.
  Proof.
    intros Ft Lt Fg Hs. rewrite (paraboloid_fold np32 (lit_32 np32)) in *.
    destruct (squares_ge np32 (gap np32) (enumerate x) (Binary.B754_zero false) Fg (Rle_refl 0)) as [G0 G].
    split; [exact G0|]. clear G0.
    intros i a Hi. destruct (G (i, a) Hi) as [Fi Li]. clear G.
    apply ltb_key. rewrite key_abs, !key_finite by auto.
    split; [apply finite_not_nan; now rewrite finite_abs|]. split; [now apply finite_not_nan|].
    apply Rnot_le_lt. intros C.
    assert (S1 : (bpow radix2 (-8) <= B32 (gap np32 (i, a)) * B32 (gap np32 (i, a)))%R).
    { replace (B32 (gap np32 (i, a)) * B32 (gap np32 (i, a)))%R with (Rabs (B32 (gap np32 (i, a))) * Rabs (B32 (gap np32 (i, a))))%R.
      - change (bpow radix2 (-8)) with (/ IZR (2 ^ 8))%R. change (bpow radix2 (-4)) with (/ IZR (2 ^ 4))%R in Lt.
        simpl Z.pow in *. nra.
      - rewrite <- Rabs_mult. apply Rabs_pos_eq. nra. }
    apply (rnd_le (prec := 24) (emax := 128)) in S1.
    rewrite (rnd_format (prec := 24) (emax := 128)) in S1 by (apply format_bpow; lia).
    pose proof (Rle_lt_trans _ _ _ (Rle_trans _ _ _ S1 Li) Hs) as C2. apply lt_bpow in C2. lia.
  Qed.
  Lemma gap_expected i a : @fsub f32 (FloatIEEE np32) a (expected_paraboloid np32 i) = gap np32 (i, a).
  Proof. reflexivity. Qed.
  Lemma asserts_unfold x v t t' : List.length x = 5 ->
    (forall i a, In (i, a) (enumerate x) -> ltb (b_abs (@fsub f32 (FloatIEEE np32) a (expected_paraboloid np32 i))) t = true) ->
    ltb (b_abs v) t' = true ->
    test_asserts np32 5 (expected_paraboloid np32) t t' (Some (x, v)) = Ret tt.
  Proof.
    intros Lx Hi Hv2. destruct x as [|a0 [|a1 [|a2 [|a3 [|a4 [|? ?]]]]]]; try discriminate Lx.
    assert (H0 := Hi 0 a0 (or_introl eq_refl)).
    assert (H1 := Hi 1 a1 (or_intror (or_introl eq_refl))).
    assert (H2 := Hi 2 a2 (or_intror (or_intror (or_introl eq_refl)))).
    assert (H3 := Hi 3 a3 (or_intror (or_intror (or_intror (or_introl eq_refl))))).
    assert (H4 := Hi 4 a4 (or_intror (or_intror (or_intror (or_intror (or_introl eq_refl)))))).
    clear Hi. revert H0 H1 H2 H3 H4. generalize (expected_paraboloid np32). intros e H0 H1 H2 H3 H4.
    unfold test_asserts. cbn [seq ofold index nth_error obind]. unfold Float32.
    rewrite H0, H1, H2, H3, H4. cbn [oassert obind]. rewrite Hv2. reflexivity.
  Qed.
  Lemma paraboloid_asserts x v (t : f32) (t' : f64) :
    t = f32_0_1 \/ t = f32_0_3 -> t' = f64_1em3 \/ t' = f64_0_1 ->
    solves (fun y => Ret (parab y)) (int_cube 5 (-100) 100) x v -> leb v f64_1em6 = true ->
    test_asserts np32 5 (expected_paraboloid np32) t t' (Some (x, v)) = Ret tt.
  Proof.
    intros Ht Ht' [Hb [Hv Fv]] Hl. injection Hv as Hv.
    destruct (tolerance_large t Ht) as [Ft Lt]. pose proof (small_literal v Hl Fv) as Hs.
    destruct (paraboloid_value x Hb) as [Fg Ev]. rewrite <- Hv, Ev in Hs.
    destruct (gaps_small x t Ft Lt Fg Hs) as [G0 G].
    apply asserts_unfold.
    - exact (eq_trans (in_box_length _ _ Hb) (repeat_length _ 5)).
    - intros i a H. rewrite gap_expected. now apply G.
    - pose proof (goal_tolerance_large t' Ht') as Q. apply ltb_key in Q. apply leb_key in Hl.
      destruct Q as [_ [Nt Q]], Hl as [Nv [_ Hl]].
      apply ltb_key. rewrite nan_abs, key_abs. split; [exact Nv|]. split; [exact Nt|].
      rewrite Rabs_pos_eq; [lra|]. rewrite key_finite by exact Fv. rewrite <- Hv, Ev. exact G0.
  Qed.

  Lemma genetic_asserts_hold x v :
    solves (fun y => Ret (parab y)) (int_cube 5 (-100) 100) x v -> leb v (decimal64 1 6) = true ->
    genetic_paraboloid_asserts np32 (Some (x, v)) = Ret tt.
  Proof. rewrite <- lit_1em6. intros. apply paraboloid_asserts; auto. Qed.
  Lemma particleswarm_asserts_hold x v :
    solves (fun y => Ret (parab y)) (int_cube 5 (-100) 100) x v -> leb v (decimal64 1 6) = true ->
    particleswarm_paraboloid_asserts np32 (Some (x, v)) = Ret tt.
  Proof. rewrite <- lit_1em6. intros. apply paraboloid_asserts; auto. Qed.

  Lemma asserts_or_quiet (t : f64) (v : f64) (P : Prop) : is_finite v = true -> is_nan t = false ->
    (leb v t = true -> P) -> P \/ ltb t v = true.
  Proof.
    intros Fv Nt H. destruct (leb v t) eqn:E; [auto|right].
    apply ltb_key. split; [exact Nt|]. split; [now apply finite_not_nan|].
    apply Rnot_le_lt. intros C. rewrite (proj2 (leb_key v t)) in E; [discriminate|].
    split; [now apply finite_not_nan|]. split; assumption.
  Qed.
End Asserts.

(** The tests log nothing: any terminal and clock will do. *)
Definition discard {W} : string -> comp W bool := fun _ => cret true.
Definition blank : formatter f32 :=
  Formatter _ (fun _ => ""%string) (fun _ _ => ""%string) (fun _ _ => ""%string) (fun _ _ => ""%string)
    (fun _ _ => ""%string) (fun _ => ""%string) (fun _ => ""%string).
Definition demo_libm32 : Libm f32 :=
  {| fsin := fun _ => b_of_Z 0; fcos := fun _ => b_of_Z 1; fpowf := fun x _ => x; fexp2 := fun x => x |}.
Lemma discard_accepts {W} : accepts (@discard W).
Proof. intros s w. eexists. reflexivity. Qed.
Lemma zero_ticks {W} : ticks (@cret W Z 0%Z).
Proof. intros w. eexists. eexists. reflexivity. Qed.

Lemma not_below (v : f64) i n k : ltb (decimal64 1 6) v = true ->
  stopped_by [Below (decimal64 1 6); Quiet n; After k] i v -> n < i \/ k <= i.
Proof.
  intros L S. apply Exists_cons in S. destruct S as [S|S].
  - simpl in S. apply leb_key in S. apply ltb_key in L. destruct S as [_ [_ S]], L as [_ [_ L]]. exfalso. lra.
  - apply Exists_cons in S. destruct S as [S|S]; [left; exact S|].
    apply Exists_cons in S. destruct S as [S|S]; [right; exact S|]. inversion S.
Qed.
Lemma threshold_not_nan : is_nan (decimal64 1 6) = false.
Proof. vm_compute. reflexivity. Qed.

Lemma test_genetic_paraboloid_passes (W : Type) (np32 : nan_policy 24 128) (np64 : nan_policy 53 1024) (LM : Libm f32) (dbg : bool) fuel r (w : W) :
  5000 < fuel ->
  exists x v p' u' t,
    ga_main (@test_genetic_paraboloid W np32 np64 LM dbg) fuel r w = (Ret (Some (x, v), p'), u', t) /\
    solves (fun y => Ret (@paraboloid f32 (FloatIEEE np32) (ToF64_32 np64) y)) (int_cube 5 (-100) 100) x v /\
    (genetic_paraboloid_asserts np32 (Some (x, v)) = Ret tt \/
     ltb (decimal64 1 6) v = true /\ 150 < iteration p' <= 5000).
Proof.
  intros Hfu.
  destruct (@test_genetic_paraboloid_ends W discard (cret 0%Z) blank np32 np64 LM dbg discard_accepts zero_ticks fuel r w Hfu)
    as [x [v [p' [u' [t [E [S [I R]]]]]]]].
  exists x, v, p', u', t. split; [exact E|]. split; [exact S|].
  destruct (asserts_or_quiet (decimal64 1 6) v (genetic_paraboloid_asserts np32 (Some (x, v)) = Ret tt)) as [A|A].
  - apply S.
  - apply threshold_not_nan.
  - now apply (genetic_asserts_hold np32 np64).
  - left. exact A.
  - right. split; [exact A|]. destruct (not_below v _ _ _ A R); lia.
Qed.
Lemma test_particleswarm_paraboloid_passes (W : Type) (np32 : nan_policy 24 128) (np64 : nan_policy 53 1024) (dbg : bool) fuel r (w : W) :
  3000 < fuel ->
  exists x v s' u' t,
    pso_main np32 (test_particleswarm_paraboloid np32 np64 dbg) fuel r w = (Ret (Some (x, v), s'), u', t) /\
    solves (fun y => Ret (@paraboloid f32 (FloatIEEE np32) (ToF64_32 np64) y)) (int_cube 5 (-100) 100) x v /\
    (particleswarm_paraboloid_asserts np32 (Some (x, v)) = Ret tt \/
     ltb (decimal64 1 6) v = true /\ 150 < sw_iteration s' <= 3000).
Proof.
  intros Hfu.
  destruct (@test_particleswarm_paraboloid_ends W discard (cret 0%Z) blank np32 np64 dbg discard_accepts zero_ticks fuel r w Hfu)
    as [x [v [p' [u' [t [E [S [I R]]]]]]]].
  exists x, v, p', u', t. split; [exact E|]. split; [exact S|].
  destruct (asserts_or_quiet (decimal64 1 6) v (particleswarm_paraboloid_asserts np32 (Some (x, v)) = Ret tt)) as [A|A].
  - apply S.
  - apply threshold_not_nan.
  - now apply (particleswarm_asserts_hold np32 np64).
  - left. exact A.
  - right. split; [exact A|]. destruct (not_below v _ _ _ A R); lia.
Qed.
