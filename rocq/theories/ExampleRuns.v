(** * The example programs, one by one *)

From Coq Require Import List Arith ZArith Bool String Reals Lia Lra.
From Flocq Require Import Core.Core IEEE754.BinarySingleNaN IEEE754.Binary.
From Verif Require Import Base Logic FloatModel FloatFacts Rng GaModel GaComponents PsoModel PsoComponents
  StopModel LogModel TestFuncModel ExampleModel
  SpecGa SpecPso SpecBox SpecTotal SpecStandard SpecTest SpecExample ArithFacts GaStandard RangeFacts TestFacts ExampleFacts.
Import ListNotations.
Local Open Scope nat_scope.

(** ** Literals *)
Ltac same_float := apply Binary.B2FF_inj; vm_compute; reflexivity.
Lemma lit_5_12 : f32_5_12 = decimal32 512 2. Proof. same_float. Qed.
Lemma lit_m5_12 : f32_m5_12 = decimal32 (-512) 2. Proof. same_float. Qed.
Lemma lit_1em3 : f64_1em3 = decimal64 1 3. Proof. same_float. Qed.
Lemma lit_1em4 : f64_1em4 = decimal64 1 4. Proof. same_float. Qed.
Lemma lit_1em6 : f64_1em6 = decimal64 1 6. Proof. same_float. Qed.
Lemma lit_1em7 : f64_1em7 = decimal64 1 7. Proof. same_float. Qed.
Lemma lit_1em8 : f64_1em8 = decimal64 1 8. Proof. same_float. Qed.
Lemma lit_1em9 : f64_1em9 = decimal64 1 9. Proof. same_float. Qed.

(** ** Values on the boxes *)
Lemma cube_within d (lo hi : f32) b (x : list f32) : within b lo -> within b hi -> in_box (cube d lo hi) x ->
  List.length x = d /\ Forall (within b) x.
Proof.
  intros [F1 L1] [F2 L2] H. split; [exact (eq_trans (in_box_length _ _ H) (repeat_length (lo, hi) d))|].
  unfold cube in H. revert d H. induction x as [|a x IH]; intros d H; [constructor|].
  destruct d as [|d]; [inversion H|]. simpl in H. inversion H as [|? ? ? ? [A [B C]] D]; subst. simpl in *.
  constructor; [|eapply IH; eauto]. split; [exact A|].
  apply leb_key in B, C. destruct B as [_ [_ B]], C as [_ [_ C]]. rewrite !key_finite in B, C by auto.
  apply Rabs_le. apply Rabs_le_inv in L1, L2. lra.
Qed.
Lemma within_int32 (z b : Z) : (Z.abs z <= b <= 2 ^ 24)%Z -> within b (b_of_Z z : f32).
Proof.
  intros H. destruct (of_Z_exact (prec := 24) (emax := 128) z ltac:(lia)) as [F E]. split; [exact F|].
  rewrite E, <- abs_IZR. now apply IZR_le.
Qed.

Section Boxes.
  Variables (np32 : nan_policy 24 128) (np64 : nan_policy 53 1024).
  Context {LM : Libm f32}.
  Notation parab := (@paraboloid f32 (FloatIEEE np32) (ToF64_32 np64)).
  Notation schwef := (@schwefel f32 (FloatIEEE np32) LM (ToF64_32 np64)).
  Notation rastr := (@rastrigin f32 (FloatIEEE np32) LM (ToF64_32 np64)).
  Notation rosen := (@rosenbrock f32 (FloatIEEE np32) (ToF64_32 np64)).

  Lemma paraboloid_box x : in_box (int_cube 5 (-100) 100) x -> exists v, Ret (parab x) = Ret v /\ is_finite v = true.
  Proof.
    intros H. eexists. split; [reflexivity|].
    destruct (cube_within 5 _ _ 100 x (within_int32 (-100) 100 ltac:(lia)) (within_int32 100 100 ltac:(lia)) H) as [Lx Wx].
    apply (paraboloid_32_within np32 np64 100 x Wx). rewrite Lx. vm_compute. discriminate.
  Qed.
  Lemma schwefel_box d x : d <= 15 -> cos_bounded (prec := 24) (emax := 128) fsin -> in_box (int_cube d (-500) 500) x ->
    exists v, Ret (schwef x) = Ret v /\ is_finite v = true.
  Proof.
    intros Hd Hc H. eexists. split; [reflexivity|].
    destruct (cube_within d _ _ 500 x (within_int32 (-500) 500 ltac:(lia)) (within_int32 500 500 ltac:(lia)) H) as [Lx Wx].
    apply (schwefel_32_within np32 np64 LM 500 x Hc Wx). rewrite Lx. lia.
  Qed.
  Lemma rastrigin_box d x : d <= 30 -> cos_bounded (prec := 24) (emax := 128) fcos -> in_box (cube d (decimal32 (-512) 2) (decimal32 512 2)) x ->
    exists v, Ret (rastr x) = Ret v /\ is_finite v = true.
  Proof.
    intros Hd Hc H. eexists. split; [reflexivity|].
    assert (W : forall z, (z = 512 \/ z = -512)%Z -> within 6 (decimal32 z 2)).
    { intros z Hz. split; [destruct Hz as [-> | ->]; vm_compute; reflexivity|].
      assert (E : Binary.B2FF 24 128 (decimal32 z 2) = Binary.F754_finite (z <? 0)%Z 10737418 (-21))
        by (destruct Hz as [-> | ->]; vm_compute; reflexivity).
      rewrite <- Binary.FF2R_B2FF, E. unfold Binary.FF2R, F2R. cbn [Fnum Fexp cond_Zopp].
      change (bpow radix2 (-21)) with (/ IZR (2 ^ 21))%R. simpl Z.pow.
      destruct (z <? 0)%Z; cbn [cond_Zopp]; [rewrite Rabs_left|rewrite Rabs_pos_eq]; simpl Z.opp; lra. }
    destruct (cube_within d _ _ 6 x (W (-512)%Z ltac:(auto)) (W 512%Z ltac:(auto)) H) as [Lx Wx].
    apply (rastrigin_32_within np32 np64 LM 6 x Hc Wx); rewrite ?Lx; lia.
  Qed.
  Lemma rosenbrock_box x : in_box (int_cube 3 (-2) 2) x -> exists v, rosen x = Ret v /\ is_finite v = true.
  Proof.
    intros H.
    destruct (cube_within 3 _ _ 2 x (within_int32 (-2) 2 ltac:(lia)) (within_int32 2 2 ltac:(lia)) H) as [Lx Wx].
    destruct (rosenbrock_32_within np32 np64 2 x) as [r [E [F _]]]; auto.
    - intros ->. discriminate.
    - rewrite Lx. vm_compute. discriminate.
    - eauto.
  Qed.
  Lemma rosenbrock_total (x : list f32) : List.length x = 3 -> exists v, rosen x = Ret v.
  Proof. destruct x as [|a [|b [|c [|? ?]]]]; try discriminate. intros _. eexists. reflexivity. Qed.
End Boxes.

(** ** The programs *)
Section Programs.
  Context {W : Type}.
  Variables (write : string -> comp W bool) (now : comp W Z).
  Variable fmt : formatter f32.
  Variables (np32 : nan_policy 24 128) (np64 : nan_policy 53 1024).
  Context {LM : Libm f32}.
  Variable dbg : bool.
  Hypothesis Hwrite : accepts write.
  Hypothesis Hnow : ticks now.
  Notation parab := (fun x => Ret (@paraboloid f32 (FloatIEEE np32) (ToF64_32 np64) x)).
  Notation schwef := (fun x => Ret (@schwefel f32 (FloatIEEE np32) LM (ToF64_32 np64) x)).
  Notation rastr := (fun x => Ret (@rastrigin f32 (FloatIEEE np32) LM (ToF64_32 np64) x)).
  Notation rosen := (@rosenbrock f32 (FloatIEEE np32) (ToF64_32 np64)).
  Notation decimal_cube d := (cube d (decimal32 (-512) 2) (decimal32 512 2)).

  Lemma logs_all : logging_fits (fun _ => True) (world_ok (W := W) true)
    [verbose write fmt; result_only write fmt; time write now fmt].
  Proof. apply (example_logging write now fmt Hwrite Hnow true [_; _]). simpl. intuition. Qed.
  Lemma logs_result : logging_fits (fun _ => True) (world_ok (W := W) true) [result_only write fmt; time write now fmt].
  Proof. apply (example_logging write now fmt Hwrite Hnow true [_]). simpl. intuition. Qed.
  Lemma logs_none : logging_fits (fun _ => True) (world_ok (W := W) false) (@nil (logger (world W) (list f32))).
  Proof. apply (example_logging write now fmt Hwrite Hnow false []). simpl. intuition. Qed.

  Lemma two_checks timed t k q : always (world_ok timed Running (as_iter q)) (reasons [Below t; After k] q)
    (composite_any [@threshold (world W) _ t; max_iterations k] q).
  Proof. apply (any_reasons np64 dbg). repeat constructor. Qed.
  Lemma three_checks timed t m delta k q : always (world_ok timed Running (as_iter q)) (reasons [Below t; Quiet m; After k] q)
    (composite_any [@threshold (world W) _ t; not_change np64 dbg m delta; max_iterations k] q).
  Proof. apply (any_reasons np64 dbg). constructor; [reflexivity|]. constructor; [eexists; reflexivity|]. repeat constructor. Qed.
  Lemma one_check timed m delta q : always (world_ok timed Running (as_iter q)) (reasons [Quiet m] q)
    (composite_any [@not_change W np64 dbg m delta] q).
  Proof. apply (any_reasons np64 dbg). constructor; [eexists; reflexivity|constructor]. Qed.

  Ltac fin := vm_compute; reflexivity.
  Ltac after := clear; simpl; intuition discriminate.
  Lemma any_cons (c : stop_checker (world W) (list f32)) cs : any_of (c :: cs) = Ret (composite_any (c :: cs)).
  Proof. reflexivity. Qed.

  Lemma genetic_paraboloid_ends fuel r (w : W) : 3000 < fuel ->
    exists x v p' u' t,
      ga_main (genetic_paraboloid write now fmt np32 np64 dbg) fuel r w = (Ret (Some (x, v), p'), u', t) /\
      solves parab (int_cube 5 (-100) 100) x v /\ 0 < iteration p' <= 3000 /\
      stopped_by [Below (decimal64 1 6); After 3000] (iteration p') v.
  Proof.
    intros Hfu. rewrite <- lit_1em6. unfold genetic_paraboloid. rewrite any_cons.
    apply (ga_main_ends np32 np64 dbg true (b_of_Z (-100)) (b_of_Z 100) 200 5 parab _ _
      [Below (f64_1em6); After 3000] (composite_any [threshold f64_1em6; max_iterations 3000]));
      [fin|fin|fin|lia|lia|now apply std_tournament|apply paraboloid_box|intros q; apply two_checks|apply logs_all|after|after|exact Hfu].
  Qed.

  Lemma genetic_rastrigin_ends fuel r (w : W) : cos_bounded (prec := 24) (emax := 128) fcos -> 3000 < fuel ->
    exists x v p' u' t,
      ga_main (genetic_rastrigin write now fmt np32 np64 dbg) fuel r w = (Ret (Some (x, v), p'), u', t) /\
      solves rastr (decimal_cube 30) x v /\ 0 < iteration p' <= 3000 /\
      stopped_by [Below (decimal64 1 4); After 3000] (iteration p') v.
  Proof.
    intros Hcos Hfu. rewrite <- lit_1em4. rewrite <- lit_5_12, <- lit_m5_12. unfold genetic_rastrigin. rewrite any_cons.
    apply (ga_main_ends np32 np64 dbg true f32_m5_12 f32_5_12 20 30 rastr _ _
      [Below (f64_1em4); After 3000] (composite_any [threshold f64_1em4; max_iterations 3000]));
      [fin|fin|fin|lia|lia|now apply std_tournament|rewrite lit_5_12, lit_m5_12; intros x Hx; apply (rastrigin_box np32 np64 30); [lia|exact Hcos|exact Hx]|intros q; apply two_checks|apply logs_result|after|after|exact Hfu].
  Qed.

  Lemma genetic_schwefel_ends fuel r (w : W) : cos_bounded (prec := 24) (emax := 128) fsin -> 3000 < fuel ->
    exists x v p' u' t,
      ga_main (genetic_schwefel write now fmt np32 np64 dbg) fuel r w = (Ret (Some (x, v), p'), u', t) /\
      solves schwef (int_cube 15 (-500) 500) x v /\ 0 < iteration p' <= 3000 /\
      stopped_by [Below (decimal64 1 4); After 3000] (iteration p') v.
  Proof.
    intros Hsin Hfu. rewrite <- lit_1em4. unfold genetic_schwefel. rewrite any_cons.
    apply (ga_main_ends np32 np64 dbg true (b_of_Z (-500)) (b_of_Z 500) 500 15 schwef _ _
      [Below (f64_1em4); After 3000] (composite_any [threshold f64_1em4; max_iterations 3000]));
      [fin|fin|fin|lia|lia|now apply std_tournament|intros x Hx; apply (schwefel_box np32 np64 15); [lia|exact Hsin|exact Hx]|intros q; apply two_checks|apply logs_result|after|after|exact Hfu].
  Qed.

  Lemma test_genetic_paraboloid_ends fuel r (w : W) : 5000 < fuel ->
    exists x v p' u' t,
      ga_main (test_genetic_paraboloid np32 np64 dbg) fuel r w = (Ret (Some (x, v), p'), u', t) /\
      solves parab (int_cube 5 (-100) 100) x v /\ 0 < iteration p' <= 5000 /\
      stopped_by [Below (decimal64 1 6); Quiet 150; After 5000] (iteration p') v.
  Proof.
    intros Hfu. rewrite <- lit_1em6. unfold test_genetic_paraboloid. rewrite any_cons.
    apply (ga_main_ends np32 np64 dbg false (b_of_Z (-100)) (b_of_Z 100) 800 5 parab _ _
      [Below (f64_1em6); Quiet 150; After 5000] (composite_any [threshold f64_1em6; not_change np64 dbg 150 f64_1em7; max_iterations 5000]));
      [fin|fin|fin|lia|lia|now apply std_tournament|apply paraboloid_box|intros q; apply three_checks|apply logs_none|after|after|exact Hfu].
  Qed.

  Lemma test_genetic_rastrigin_ends fuel r (w : W) : cos_bounded (prec := 24) (emax := 128) fcos -> 3000 < fuel ->
    exists x v p' u' t,
      ga_main (test_genetic_rastrigin np32 np64 dbg) fuel r w = (Ret (Some (x, v), p'), u', t) /\
      solves rastr (decimal_cube 30) x v /\ 0 < iteration p' <= 3000 /\
      stopped_by [Below (decimal64 1 4); Quiet 200; After 3000] (iteration p') v.
  Proof.
    intros Hcos Hfu. rewrite <- lit_1em4. rewrite <- lit_5_12, <- lit_m5_12. unfold test_genetic_rastrigin. rewrite any_cons.
    apply (ga_main_ends np32 np64 dbg false f32_m5_12 f32_5_12 20 30 rastr _ _
      [Below (f64_1em4); Quiet 200; After 3000] (composite_any [threshold f64_1em4; not_change np64 dbg 200 f64_1em7; max_iterations 3000]));
      [fin|fin|fin|lia|lia|now apply std_tournament|rewrite lit_5_12, lit_m5_12; intros x Hx; apply (rastrigin_box np32 np64 30); [lia|exact Hcos|exact Hx]|intros q; apply three_checks|apply logs_none|after|after|exact Hfu].
  Qed.

  Lemma test_genetic_schwefel_ends fuel r (w : W) : cos_bounded (prec := 24) (emax := 128) fsin -> 3000 < fuel ->
    exists x v p' u' t,
      ga_main (test_genetic_schwefel np32 np64 dbg) fuel r w = (Ret (Some (x, v), p'), u', t) /\
      solves schwef (int_cube 5 (-500) 500) x v /\ 0 < iteration p' <= 3000 /\
      stopped_by [Below (decimal64 1 4); Quiet 200; After 3000] (iteration p') v.
  Proof.
    intros Hsin Hfu. rewrite <- lit_1em4. unfold test_genetic_schwefel. rewrite any_cons.
    apply (ga_main_ends np32 np64 dbg false (b_of_Z (-500)) (b_of_Z 500) 800 5 schwef _ _
      [Below (f64_1em4); Quiet 200; After 3000] (composite_any [threshold f64_1em4; not_change np64 dbg 200 f64_1em7; max_iterations 3000]));
      [fin|fin|fin|lia|lia|now apply std_tournament|intros x Hx; apply (schwefel_box np32 np64 5); [lia|exact Hsin|exact Hx]|intros q; apply three_checks|apply logs_none|after|after|exact Hfu].
  Qed.

  Lemma genetic_rosenbrock_runs fuel r (w : W) :
    fst (fst (ga_main (genetic_rosenbrock write now fmt np32 np64 dbg) fuel r w)) <> Panic /\
    forall res p' u' t, ga_main (genetic_rosenbrock write now fmt np32 np64 dbg) fuel r w = (Ret (res, p'), u', t) ->
      exists x v, res = Some (x, v) /\ solves rosen (int_cube 3 (-2) 2) x v /\ 3000 < iteration p'.
  Proof.
    unfold genetic_rosenbrock. rewrite any_cons. split.
    - apply (ga_main_never_panics np32 np64 dbg true (b_of_Z (-2)) (b_of_Z 2) 600 3 rosen _ _ [Quiet 3000]
        (composite_any [not_change np64 dbg 3000 f64_1em9]));
        [fin|fin|fin|lia|lia|now apply std_tournament|apply rosenbrock_box|intros q; apply one_check|apply logs_all].
    - intros res p' u' t E.
      destruct (ga_main_result np32 np64 dbg true (b_of_Z (-2)) (b_of_Z 2) 600 3 rosen
        (tournament_pairs (set_rounds_count (tournament_new (600 / 2)) 5)) (b_of_Z 85) [Quiet 3000]
        (composite_any [not_change np64 dbg 3000 f64_1em9]) [verbose write fmt; result_only write fmt; time write now fmt])
        with (fuel := fuel) (r := r) (w := w) (res := res) (p' := p') (u' := u') (t := t) as [x [v [A [B [_ C]]]]];
        [fin|fin|fin|lia|lia|now apply std_tournament|apply rosenbrock_box|intros q; apply one_check|apply logs_all|after|exact E|].
      exists x, v. split; [exact A|]. split; [exact B|]. inversion C as [? ? K|? ? K]; subst; [exact K|inversion K].
  Qed.

  Lemma max_check timed k q : always (world_ok (W := W) timed Running (as_iter q)) (reasons [After k] q) (max_iterations k q).
  Proof. apply (reasons_max np64 dbg). Qed.
  Lemma genetic_schwefel_iterative_ends fuel r (w : W) : cos_bounded (prec := 24) (emax := 128) fsin -> 500 < fuel ->
    exists x1 v1 p1 x2 v2 p2 u' t,
      ga_main_iterative (genetic_schwefel_iterative write now fmt np32 np64 dbg) (max_iterations 500) fuel r w
        = (Ret (Some (x1, v1), p1, (Some (x2, v2), p2)), u', t) /\
      solves schwef (int_cube 15 (-500) 500) x1 v1 /\ iteration p1 = 100 /\
      solves schwef (int_cube 15 (-500) 500) x2 v2 /\ iteration p2 = 500.
  Proof.
    intros Hsin Hfu. unfold genetic_schwefel_iterative.
    apply (ga_iterative_ends np32 np64 dbg true (b_of_Z (-500)) (b_of_Z 500) 500 15 schwef _ _ [After 100] (max_iterations 100));
      [fin|fin|fin|lia|lia|now apply std_tournament|intros x Hx; apply (schwefel_box np32 np64 15); [lia|exact Hsin|exact Hx]
      |intros q; apply max_check|apply logs_result|reflexivity|lia|lia|exact Hfu].
  Qed.

  Lemma canonical_ok (phi_p phi_g k : f32) :
    ltb (b_of_Z 4) (b_add np32 phi_p phi_g) = true -> ltb (Binary.B754_zero false) k = true -> ltb k (b_of_Z 1) = true ->
    exists xi, @canonical_new f32 (FloatIEEE np32) phi_p phi_g k = Ret xi.
  Proof.
    intros A B C. unfold canonical_new.
    assert (E4 : @fof_f64 f32 (FloatIEEE np32) (b_of_Z 4) = b_of_Z 4) by same_float.
    rewrite E4. change (@flt f32 (FloatIEEE np32)) with (@ltb 24 128). change (@fadd f32 (FloatIEEE np32)) with (b_add np32).
    change (@fzero f32 (FloatIEEE np32)) with (Binary.B754_zero false : f32). change (@fone f32 (FloatIEEE np32)) with (b_of_Z 1 : f32).
    rewrite A, B, C. simpl obind. eexists. reflexivity.
  Qed.
  Definition calculator (phi_p phi_g k xi : f32) (s : swarm f32) (p : particle f32) : comp (world W) (list f32) :=
    zoom at_rng (@canonical_velocity f32 (FloatIEEE np32) np32 phi_p phi_g xi s p).
  Lemma canonical_is phi_p phi_g k xi : @canonical_new f32 (FloatIEEE np32) phi_p phi_g k = Ret xi ->
    @canonical W np32 phi_p phi_g k = Ret (calculator phi_p phi_g k xi).
  Proof. intros E. unfold canonical, Float32. now rewrite E. Qed.

  Lemma particleswarm_paraboloid_ends fuel r (w : W) : 3000 < fuel ->
    exists x v s' u' t,
      pso_main np32 (particleswarm_paraboloid write now fmt np32 np64 dbg) fuel r w = (Ret (Some (x, v), s'), u', t) /\
      solves parab (int_cube 5 (-100) 100) x v /\ sw_iteration s' <= 3000 /\
      stopped_by [Below (decimal64 1 6); Quiet 150; After 3000] (sw_iteration s') v.
  Proof.
    intros Hfu. rewrite <- lit_1em6. unfold particleswarm_paraboloid. rewrite any_cons.
    destruct (canonical_ok (b_of_Z 2) (b_of_Z 6) f32_0_2) as [xi Hxi]; [fin|fin|fin|].
    unfold Float32. rewrite (canonical_is _ _ _ _ Hxi). apply (pso_main_ends np32 np64 true (b_of_Z (-100)) (b_of_Z 100) 80 5 (calculator (b_of_Z 2) (b_of_Z 6) f32_0_2 xi) parab
      [fun v => cret (@max_velocity_abs f32 (FloatIEEE np32) (b_of_Z 10) v)] []
      [Below (f64_1em6); Quiet 150; After 3000] (composite_any [threshold f64_1em6; not_change np64 dbg 150 f64_1em7; max_iterations 3000])
      [verbose write fmt; result_only write fmt; time write now fmt]);
      [fin|fin|fin|lia|apply std_canonical|intros x _; eexists; reflexivity|apply paraboloid_box|constructor; [apply std_max_abs|constructor]|constructor|intros q; apply three_checks|apply logs_all|after|exact Hfu].
  Qed.

  Lemma particleswarm_rastrigin_ends fuel r (w : W) : cos_bounded (prec := 24) (emax := 128) fcos -> 3000 < fuel ->
    exists x v s' u' t,
      pso_main np32 (particleswarm_rastrigin write now fmt np32 np64 dbg) fuel r w = (Ret (Some (x, v), s'), u', t) /\
      solves rastr (decimal_cube 3) x v /\ sw_iteration s' <= 3000 /\
      stopped_by [Below (decimal64 1 6); Quiet 150; After 3000] (sw_iteration s') v.
  Proof.
    intros Hcos Hfu. rewrite <- lit_1em6. rewrite <- lit_5_12, <- lit_m5_12. unfold particleswarm_rastrigin. rewrite any_cons.
    destruct (canonical_ok (b_of_Z 2) (b_of_Z 5) f32_0_2) as [xi Hxi]; [fin|fin|fin|].
    unfold Float32. rewrite (canonical_is _ _ _ _ Hxi). apply (pso_main_ends np32 np64 true f32_m5_12 f32_5_12 500 3 (calculator (b_of_Z 2) (b_of_Z 5) f32_0_2 xi) rastr
      [] []
      [Below (f64_1em6); Quiet 150; After 3000] (composite_any [threshold f64_1em6; not_change np64 dbg 150 f64_1em8; max_iterations 3000])
      [verbose write fmt; result_only write fmt; time write now fmt]);
      [fin|fin|fin|lia|apply std_canonical|intros x _; eexists; reflexivity|rewrite lit_5_12, lit_m5_12; intros x Hx; apply (rastrigin_box np32 np64 3); [lia|exact Hcos|exact Hx]|constructor|constructor|intros q; apply three_checks|apply logs_all|after|exact Hfu].
  Qed.

  Lemma particleswarm_rosenbrock_ends fuel r (w : W) : 3000 < fuel ->
    exists x v s' u' t,
      pso_main np32 (particleswarm_rosenbrock write now fmt np32 np64 dbg) fuel r w = (Ret (Some (x, v), s'), u', t) /\
      solves rosen (int_cube 3 (-2) 2) x v /\ sw_iteration s' <= 3000 /\
      stopped_by [Below (decimal64 1 6); Quiet 150; After 3000] (sw_iteration s') v.
  Proof.
    intros Hfu. rewrite <- lit_1em6. unfold particleswarm_rosenbrock. rewrite any_cons.
    destruct (canonical_ok (b_of_Z 1) (b_of_Z 8) f32_0_2) as [xi Hxi]; [fin|fin|fin|].
    unfold Float32. rewrite (canonical_is _ _ _ _ Hxi). apply (pso_main_ends np32 np64 true (b_of_Z (-2)) (b_of_Z 2) 1000 3 (calculator (b_of_Z 1) (b_of_Z 8) f32_0_2 xi) rosen
      [] []
      [Below (f64_1em6); Quiet 150; After 3000] (composite_any [threshold f64_1em6; not_change np64 dbg 150 f64_1em8; max_iterations 3000])
      [verbose write fmt; result_only write fmt; time write now fmt]);
      [fin|fin|fin|lia|apply std_canonical|intros x Hx; now apply rosenbrock_total|apply rosenbrock_box|constructor|constructor|intros q; apply three_checks|apply logs_all|after|exact Hfu].
  Qed.

  Lemma particleswarm_schwefel_ends fuel r (w : W) : cos_bounded (prec := 24) (emax := 128) fsin -> 3000 < fuel ->
    exists x v s' u' t,
      pso_main np32 (particleswarm_schwefel write now fmt np32 np64 dbg) fuel r w = (Ret (Some (x, v), s'), u', t) /\
      solves schwef (int_cube 3 (-500) 500) x v /\ sw_iteration s' <= 3000 /\
      stopped_by [Below (decimal64 1 6); Quiet 150; After 3000] (sw_iteration s') v.
  Proof.
    intros Hsin Hfu. rewrite <- lit_1em6. unfold particleswarm_schwefel. rewrite any_cons.
    destruct (canonical_ok f32_3_2 (b_of_Z 1) f32_0_9) as [xi Hxi]; [fin|fin|fin|].
    unfold Float32. rewrite (canonical_is _ _ _ _ Hxi). apply (pso_main_ends np32 np64 true (b_of_Z (-500)) (b_of_Z 500) 100 3 (calculator f32_3_2 (b_of_Z 1) f32_0_9 xi) schwef
      [fun v => cret (@max_velocity_abs f32 (FloatIEEE np32) (b_of_Z 700) v)] []
      [Below (f64_1em6); Quiet 150; After 3000] (composite_any [threshold f64_1em6; not_change np64 dbg 150 f64_1em8; max_iterations 3000])
      [verbose write fmt; result_only write fmt; time write now fmt]);
      [fin|fin|fin|lia|apply std_canonical|intros x _; eexists; reflexivity|intros x Hx; apply (schwefel_box np32 np64 3); [lia|exact Hsin|exact Hx]|constructor; [apply std_max_abs|constructor]|constructor|intros q; apply three_checks|apply logs_all|after|exact Hfu].
  Qed.

  Lemma test_particleswarm_paraboloid_ends fuel r (w : W) : 3000 < fuel ->
    exists x v s' u' t,
      pso_main np32 (test_particleswarm_paraboloid np32 np64 dbg) fuel r w = (Ret (Some (x, v), s'), u', t) /\
      solves parab (int_cube 5 (-100) 100) x v /\ sw_iteration s' <= 3000 /\
      stopped_by [Below (decimal64 1 6); Quiet 150; After 3000] (sw_iteration s') v.
  Proof.
    intros Hfu. rewrite <- lit_1em6. unfold test_particleswarm_paraboloid. rewrite any_cons.
    destruct (canonical_ok (b_of_Z 2) (b_of_Z 6) f32_0_2) as [xi Hxi]; [fin|fin|fin|].
    unfold Float32. rewrite (canonical_is _ _ _ _ Hxi). apply (pso_main_ends np32 np64 false (b_of_Z (-100)) (b_of_Z 100) 150 5 (calculator (b_of_Z 2) (b_of_Z 6) f32_0_2 xi) parab
      [] []
      [Below (f64_1em6); Quiet 150; After 3000] (composite_any [threshold f64_1em6; not_change np64 dbg 150 f64_1em7; max_iterations 3000])
      []);
      [fin|fin|fin|lia|apply std_canonical|intros x _; eexists; reflexivity|apply paraboloid_box|constructor|constructor|intros q; apply three_checks|apply logs_none|after|exact Hfu].
  Qed.

  Lemma particleswarm_schwefel_iterative_ends fuel r (w : W) : cos_bounded (prec := 24) (emax := 128) fsin -> 150 < fuel ->
    exists x1 v1 s1 x2 v2 s2 u' t,
      pso_main_iterative np32 (particleswarm_schwefel_iterative write now fmt np32 np64) (max_iterations 150) fuel r w
        = (Ret (Some (x1, v1), s1, (Some (x2, v2), s2)), u', t) /\
      solves schwef (int_cube 3 (-500) 500) x1 v1 /\ sw_iteration s1 = 50 /\
      solves schwef (int_cube 3 (-500) 500) x2 v2 /\ sw_iteration s2 = 150 /\ leb v2 v1 = true.
  Proof.
    intros Hsin Hfu. unfold particleswarm_schwefel_iterative.
    destruct (canonical_ok f32_3_2 (b_of_Z 1) f32_0_9) as [xi Hxi]; [fin|fin|fin|].
    unfold Float32. rewrite (canonical_is _ _ _ _ Hxi). apply (pso_iterative_ends np32 np64 true true (b_of_Z (-500)) (b_of_Z 500) 100 3 (calculator f32_3_2 (b_of_Z 1) f32_0_9 xi) schwef
      [fun v => cret (@max_velocity_abs f32 (FloatIEEE np32) (b_of_Z 700) v)] [] [After 50] (max_iterations 50)
      [verbose write fmt; result_only write fmt; time write now fmt]);
      [fin|fin|fin|lia|apply std_canonical|intros x _; eexists; reflexivity|intros x Hx; apply (schwefel_box np32 np64 3); [lia|exact Hsin|exact Hx]
      |constructor; [apply std_max_abs|constructor]|constructor|intros q; apply max_check|apply logs_all|reflexivity|lia|exact Hfu].
  Qed.
End Programs.
