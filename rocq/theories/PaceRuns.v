(** * How fast the particles of the example programs fly *)

From Coq Require Import List Arith ZArith Bool Reals String Lia Lra Psatz.
From Flocq Require Import Core IEEE754.BinarySingleNaN IEEE754.Binary.
From Verif Require Import Base Logic FloatModel Rng FloatFacts GaModel GaComponents PsoModel PsoComponents StopModel LogModel
  TestFuncModel ExampleModel StatModel StatProgramModel SpecGa SpecPso SpecBox SpecRand SpecVel SpecReal SpecSpeed SpecPace SpecExample ArithFacts SatFacts
  VelFacts SpeedFacts PostFacts PaceFacts ExampleFacts ExampleRuns StatProgramFacts StatProgramRuns.
Import ListNotations.
Local Open Scope R_scope.

Lemma slow_mono {prec emax} d m m' (v : list (bfloat prec emax)) : m <= m' -> slow d m v -> slow d m' v.
Proof. intros H [A [B C]]. split; [exact A|]. split; [exact B|lra]. Qed.
Lemma seen_mono {prec emax} (V V' : list (bfloat prec emax) -> Prop) t : (forall v, V v -> V' v) ->
  velocities_seen V t -> velocities_seen V' t.
Proof. intros H G e s p A B C. apply H. exact (G e s p A B C). Qed.
Lemma seen_app {prec emax} (V : list (bfloat prec emax) -> Prop) t1 t2 :
  velocities_seen V t1 -> velocities_seen V t2 -> velocities_seen V (t1 ++ t2)%list.
Proof. intros H G e s p A. apply in_app_or in A. destruct A as [A|A]; [exact (H e s p A)|exact (G e s p A)]. Qed.
Lemma seen_nil {prec emax} (V : list (bfloat prec emax) -> Prop) : velocities_seen V [].
Proof. intros e s p []. Qed.

Lemma lens_rng {W} : lens_ok (@at_rng W).
Proof. split; intros; try destruct u; reflexivity. Qed.

Section Mains.
  Context {W : Type}.
  Variables (np32 : nan_policy 24 128) (np64 : nan_policy 53 1024).
  Notation U := (world W).
  Notation FI := (FloatIEEE np32).
  Notation B2R := (Binary.B2R 24 128).
  Variables (lo hi : f32) (n d : nat) (calc : swarm f32 -> particle f32 -> comp U (list f32)).
  Variables (goal : list f32 -> comp U f64) (moves : list (list f32 -> comp U (list f32))).
  Variables (stop : stop_checker U (list f32)) (loggers : list (logger U (list f32))).
  Variable a : R.
  Hypothesis Flo : is_finite lo = true.
  Hypothesis Fhi : is_finite hi = true.
  Hypothesis Hlo : - a <= B2R lo.
  Hypothesis Hhi : B2R hi <= a.
  Hypothesis Hlh : B2R lo <= B2R hi.

  Lemma cube_within : box_within a (repeat (lo, hi) d).
  Proof. apply Forall_forall. intros i Hi. apply repeat_spec in Hi. subst i. cbn [fst snd]. auto. Qed.
  Lemma zero_speed : @speed 24 128 (repeat (Binary.B754_zero false) d) = 0.
  Proof.
    unfold speed, length2. transitivity (sqrt 0); [f_equal|apply sqrt_0]. induction d as [|k IH]; [reflexivity|]. cbn [repeat map fold_right].
    rewrite IH. cbn. ring.
  Qed.
  Lemma zero_slow m (u : U) vs u1 : 0 <= m -> @cret U _ (@zero_velocities f32 FI d n) u = (Ret vs, u1) -> Forall (slow d m) vs.
  Proof.
    intros Hm E. injection E as <- _. apply Forall_forall. intros v Hv. apply repeat_spec in Hv. subst v.
    split; [apply repeat_length|]. split; [|exact (Rle_trans _ _ _ (Req_le _ _ zero_speed) Hm)].
    apply Forall_forall. intros x Hx. apply repeat_spec in Hx. subst x. reflexivity.
  Qed.

  (** With a limit. *)
  Section Limit.
    Variables (limit : f32) (k : Z) (m : R).
    Hypothesis Flim : is_finite limit = true.
    Hypothesis Plim : leb (Binary.B754_zero false) limit = true.
    Hypothesis Hk : (0 <= k <= 50)%Z.
    Hypothesis Hd : (d <= 8)%nat.
    Hypothesis Hm : rounded_limit (prec := 24) (emax := 128) d (B2R limit) <= m.
    Hypothesis HT : tame d a (rounded_limit (prec := 24) (emax := 128) d (B2R limit)) (bpow radix2 k) calc.
    Notation program := (pso_program np32 np64 lo hi n d (Ret calc) goal [fun v => cret (@max_velocity_abs f32 FI limit v)] (Ret moves) (Ret stop) loggers).
    Definition cfg1 (stop : stop_checker U (list f32)) : pso_config U f32 :=
      PsoConfig goal stop (zoom at_rng (@random_vectors f32 (NumGene32 np64 np32) np64 (repeat (lo, hi) d) n))
        (cret (@zero_velocities f32 FI d n)) calc [fun v => cret (@max_velocity_abs f32 FI limit v)]
        (moves ++ [fun x => cpure (@move_to_boundary f32 FI (repeat (lo, hi) d) x)])%list loggers.
    Lemma program1 : program = Ret (cfg1 stop).
    Proof. reflexivity. Qed.
    Lemma limited1 st : limited np32 (cfg1 st) d a (bpow radix2 k) limit (repeat (lo, hi) d).
    Proof.
      refine (conj Flim (conj Plim (conj (repeat_length _ _) (conj cube_within (conj HT (conj eq_refl (ex_intro _ moves eq_refl))))))).
    Qed.
    Lemma nonneg1 : 0 <= rounded_limit (prec := 24) (emax := 128) d (B2R limit).
    Proof.
      unfold rounded_limit. apply Rmult_le_pos.
      - apply pow_le. pose proof (bpow_ge_0 radix2 (- (24))). apply Rplus_le_le_0_compat; [lra|assumption].
      - assert (0 <= underflow 24 128 d) by apply sqrt_pos.
        assert (0 <= B2R limit).
        { apply leb_key in Plim. rewrite !key_finite in Plim by auto. destruct Plim as [_ [_ G]]. exact G. }
        lra.
    Qed.
    Lemma room1 : INR d * bpow radix2 (2 * k) < bpow radix2 128.
    Proof.
      apply Rle_lt_trans with (bpow radix2 3 * bpow radix2 100).
      - apply Rmult_le_compat; [apply pos_INR|apply bpow_ge_0| |apply bpow_le; lia].
        change (bpow radix2 3) with (IZR 8). rewrite INR_IZR_INZ. apply IZR_le. lia.
      - rewrite <- bpow_plus. apply bpow_lt. lia.
    Qed.
    Theorem main_limited fuel r w : velocities_seen (slow d m) (snd (pso_main np32 program fuel r w)).
    Proof.
      rewrite program1. unfold pso_main, Float32. cbn [obind].
      destruct (@pso_find_min U f32 FI (cfg1 stop) fuel swarm_new (World r gnc_new None w)) as [[o u'] t] eqn:E. cbn [snd].
      apply (seen_mono (slow d (rounded_limit (prec := 24) (emax := 128) d (B2R limit)))); [intros v; now apply slow_mono|].
      refine (proj1 (limited_find np32 ltac:(lia) 64 ltac:(lia) (cfg1 stop) d a k limit _ ltac:(lia) ltac:(lia) room1 (limited1 stop)
        fuel _ _ o u' t _ E)).
      intros u0 vs u1 Hv. exact (zero_slow _ u0 vs u1 nonneg1 Hv).
    Qed.
    Theorem main_limited_twice stop2 fuel r w : velocities_seen (slow d m) (snd (pso_main_iterative np32 program stop2 fuel r w)).
    Proof.
      rewrite program1. unfold pso_main_iterative, Float32, mbind. cbn [obind].
      destruct (@pso_find_min U f32 FI (cfg1 stop) fuel swarm_new (World r gnc_new None w)) as [[o u'] t] eqn:E.
      apply (seen_mono (slow d (rounded_limit (prec := 24) (emax := 128) d (B2R limit)))); [intros v; now apply slow_mono|].
      destruct (limited_find np32 ltac:(lia) 64 ltac:(lia) (cfg1 stop) d a k limit _ ltac:(lia) ltac:(lia) room1 (limited1 stop)
        fuel _ _ o u' t (fun u0 vs u1 Hv => zero_slow _ u0 vs u1 nonneg1 Hv) E) as [S1 S2].
      destruct o as [[res s1]| |]; [|exact S1|exact S1]. cbn [snd].
      change (pso_set_stop_checker (cfg1 stop) stop2) with (cfg1 stop2).
      destruct (@pso_next_iterations U f32 FI (cfg1 stop2) fuel s1 u') as [[o2 u2] t2] eqn:E2.
      destruct (limited_next np32 ltac:(lia) 64 ltac:(lia) (cfg1 stop2) d a k limit _ ltac:(lia) ltac:(lia) room1 (limited1 stop2)
        fuel _ _ o2 u2 t2 (S2 _ _ eq_refl) E2) as [S3 _].
      destruct o2 as [[res2 s2]| |]; cbn; [rewrite app_nil_r|..]; now apply seen_app.
    Qed.
  End Limit.

  (** Without. *)
  Section Free.
    Variable m : R.
    Hypothesis Hm : 0 <= m.
    Hypothesis HT : tame d a m m calc.
    Notation program := (pso_program np32 np64 lo hi n d (Ret calc) goal [] (Ret moves) (Ret stop) loggers).
    Theorem main_free fuel r w : velocities_seen (bounded d m) (snd (pso_main np32 program fuel r w)).
    Proof.
      set (cfg := PsoConfig goal stop (zoom at_rng (@random_vectors f32 (NumGene32 np64 np32) np64 (repeat (lo, hi) d) n))
        (cret (@zero_velocities f32 FI d n)) calc []
        (moves ++ [fun x => cpure (@move_to_boundary f32 FI (repeat (lo, hi) d) x)])%list loggers).
      assert (EP : program = Ret cfg) by reflexivity. rewrite EP. unfold pso_main, Float32.
      destruct (@pso_find_min U f32 FI cfg fuel swarm_new (World r gnc_new None w)) as [[o u'] t] eqn:E. cbn [snd].
      refine (proj1 (free_find np32 cfg d a m (repeat (lo, hi) d) (repeat_length _ _) cube_within HT eq_refl (ex_intro _ moves eq_refl)
        fuel _ _ o u' t _ E)).
      intros u0 vs u1 Hv. pose proof (zero_slow m u0 vs u1 Hm Hv) as G. eapply Forall_impl; [|exact G].
      intros v. apply slow_bounded.
    Qed.
  End Free.
End Mains.

(** ** Numbers *)
Lemma underflow_small d : (d <= 8)%nat -> underflow 24 128 d <= bpow radix2 (-60).
Proof.
  intros H. unfold underflow. rewrite <- (sqrt_square (bpow radix2 (-60))) by apply bpow_ge_0. apply sqrt_le_1_alt.
  rewrite <- bpow_plus. change (3 - 128 - 24)%Z with (-149)%Z. change (-60 + -60)%Z with (-120)%Z.
  assert (A : INR d <= 8) by (rewrite INR_IZR_INZ; apply IZR_le; lia).
  apply Rle_trans with (8 * (bpow radix2 (-149) / 2)).
  - apply Rmult_le_compat_r; [|exact A]. pose proof (bpow_ge_0 radix2 (-149)). lra.
  - replace (8 * (bpow radix2 (-149) / 2)) with (bpow radix2 2 * bpow radix2 (-149)) by (change (bpow radix2 2) with 4; field).
    rewrite <- bpow_plus. apply bpow_le. lia.
Qed.
Lemma limit_number d l b : (d <= 8)%nat -> 0 <= l ->
  (1 + bpow radix2 (-24)) ^ (d + 5) * (l + 4 * bpow radix2 (-60)) <= b -> rounded_limit (prec := 24) (emax := 128) d l <= b.
Proof.
  intros H Hl Hb. unfold rounded_limit. eapply Rle_trans; [|exact Hb]. apply Rmult_le_compat_l.
  - apply pow_le. pose proof (bpow_ge_0 radix2 (-24)). change (- (24))%Z with (-24)%Z. lra.
  - pose proof (underflow_small d H). lra.
Qed.
Lemma limit_10 : rounded_limit (prec := 24) (emax := 128) 5 10 <= 10 + / 100000.
Proof. apply limit_number; [lia|lra|]. unfold bpow. simpl Z.pow_pos. simpl pow. lra. Qed.
Lemma limit_700 : rounded_limit (prec := 24) (emax := 128) 3 700 <= 700 + / 1000.
Proof. apply limit_number; [lia|lra|]. unfold bpow. simpl Z.pow_pos. simpl pow. lra. Qed.
Lemma limit_2 : rounded_limit (prec := 24) (emax := 128) 3 2 <= 2 + / 500000.
Proof. apply limit_number; [lia|lra|]. unfold bpow. simpl Z.pow_pos. simpl pow. lra. Qed.

(** ** Constants *)
Section Constants.
  Notation B2R := (Binary.B2R 24 128).
  Definition reads (x : f32) (c : f32) : bool := is_finite c && leb (b_abs x) c.
  Lemma reads_small x c : reads x c = true -> small x (B2R c).
  Proof.
    intros H. apply andb_true_iff in H. destruct H as [Fc H]. apply leb_key in H. destruct H as [Nx [_ H]].
    rewrite key_abs, (key_finite c) in H by exact Fc.
    assert (Fx : is_finite x = true).
    { rewrite nan_abs in Nx. destruct x; try reflexivity; try discriminate. exfalso.
      pose proof (B2R_bound c) as B. unfold key in H. apply Rabs_def2 in B.
      destruct s; [rewrite Rabs_Ropp in H|]; rewrite Rabs_pos_eq in H by apply bpow_ge_0; lra. }
    rewrite key_finite in H by exact Fx. exact (conj Fx H).
  Qed.
  Lemma reads_Z x n : (0 <= n <= 2 ^ 24)%Z -> reads x (b_of_Z n) = true -> small x (IZR n).
  Proof.
    intros Hn H. apply reads_small in H. destruct (of_Z_exact (prec := 24) (emax := 128) n) as [_ E]; [lia|]. rewrite E in H. exact H.
  Qed.
  Lemma reads_at_most x e : (0 <= e <= 24)%Z -> reads x (b_of_Z (2 ^ e)) = true -> at_most x e.
  Proof.
    intros He H. apply reads_Z in H.
    - rewrite (IZR_Zpower radix2) in H by lia. exact H.
    - split; [apply Z.pow_nonneg; lia|apply Z.pow_le_mono_r; lia].
  Qed.
  Lemma in_order (x y : f32) : is_finite x = true -> is_finite y = true -> leb x y = true -> B2R x <= B2R y.
  Proof. intros Fx Fy H. apply leb_key in H. rewrite !key_finite in H by auto. tauto. Qed.
End Constants.

Section Programs.
  Context {W : Type}.
  Variables (np32 : nan_policy 24 128) (np64 : nan_policy 53 1024).
  Notation U := (world W).
  Notation FI := (FloatIEEE np32).
  Notation B2R := (Binary.B2R 24 128).
  Notation limit_of l := [fun v => cret (@max_velocity_abs f32 FI (b_of_Z l) v)].
  Ltac fin := vm_compute; reflexivity.

  Section One.
    Variables (lo hi : f32) (a : Z) (n d : nat) (calc : swarm f32 -> particle f32 -> comp U (list f32)).
    Variables (goal : list f32 -> comp U f64) (moves : list (list f32 -> comp U (list f32))).
    Variables (stop : stop_checker U (list f32)) (loggers : list (logger U (list f32))).
    Hypothesis Ha : (0 <= a <= 24)%Z.
    Hypothesis Rlo : reads lo (b_of_Z (2 ^ a)) = true.
    Hypothesis Rhi : reads hi (b_of_Z (2 ^ a)) = true.
    Hypothesis Rlh : leb lo hi = true.
    Hypothesis Hd : (d <= 8)%nat.
    Variables (l v k : Z) (m : R).
    Hypothesis Hl : (0 <= l <= 2 ^ 24)%Z.
    Hypothesis Pl : leb (Binary.B754_zero false) (b_of_Z l : f32) = true.
    Hypothesis Hk : (0 <= k <= 50)%Z.
    Hypothesis Hm : rounded_limit (prec := 24) (emax := 128) d (IZR l) <= m.
    Hypothesis HT : tame d (bpow radix2 a) (rounded_limit (prec := 24) (emax := 128) d (IZR l)) (bpow radix2 k) calc.
    Notation program := (pso_program np32 np64 lo hi n d (Ret calc) goal (limit_of l) (Ret moves) (Ret stop) loggers).
    Lemma l_is : is_finite (b_of_Z l : f32) = true /\ B2R (b_of_Z l) = IZR l.
    Proof. apply of_Z_exact. lia. Qed.
    Lemma one fuel r w : velocities_seen (slow d m) (snd (pso_main np32 program fuel r w)).
    Proof.
      destruct (reads_at_most lo a Ha Rlo) as [Flo Blo]. destruct (reads_at_most hi a Ha Rhi) as [Fhi Bhi].
      apply Rabs_le_inv in Blo, Bhi. destruct l_is as [Fl El].
      apply (main_limited np32 np64 lo hi n d calc goal moves stop loggers (bpow radix2 a) Flo Fhi (proj1 Blo) (proj2 Bhi)
        (in_order lo hi Flo Fhi Rlh) (b_of_Z l) k m Fl Pl Hk Hd); rewrite El; [exact Hm|exact HT].
    Qed.
    Lemma one_twice stop2 fuel r w : velocities_seen (slow d m) (snd (pso_main_iterative np32 program stop2 fuel r w)).
    Proof.
      destruct (reads_at_most lo a Ha Rlo) as [Flo Blo]. destruct (reads_at_most hi a Ha Rhi) as [Fhi Bhi].
      apply Rabs_le_inv in Blo, Bhi. destruct l_is as [Fl El].
      apply (main_limited_twice np32 np64 lo hi n d calc goal moves stop loggers (bpow radix2 a) Flo Fhi (proj1 Blo) (proj2 Bhi)
        (in_order lo hi Flo Fhi Rlh) (b_of_Z l) k m Fl Pl Hk Hd); rewrite El; [exact Hm|exact HT].
    Qed.
  End One.

  Lemma xi_reads (phi_p phi_g alpha xi c : f32) : @canonical_new f32 FI phi_p phi_g alpha = Ret xi ->
    match @canonical_new f32 FI phi_p phi_g alpha with Ret x => reads x c | _ => false end = true -> reads xi c = true.
  Proof. intros ->. auto. Qed.

  Definition at_10 := 10 + / 100000.
  Definition at_700 := 700 + / 1000.
  Definition at_2 := 2 + / 500000.
  Lemma upto (d : nat) (l : R) (b : R) (v : Z) : rounded_limit (prec := 24) (emax := 128) d l <= b -> b <= bpow radix2 v -> rounded_limit (prec := 24) (emax := 128) d l <= bpow radix2 v.
  Proof. lra. Qed.
  Lemma v10 : rounded_limit (prec := 24) (emax := 128) 5 10 <= bpow radix2 4.
  Proof. apply (upto 5 10 _ 4 limit_10). change (bpow radix2 4) with 16. lra. Qed.
  Lemma v700 : rounded_limit (prec := 24) (emax := 128) 3 700 <= bpow radix2 10.
  Proof. apply (upto 3 700 _ 10 limit_700). change (bpow radix2 10) with 1024. lra. Qed.
  Lemma v2 : rounded_limit (prec := 24) (emax := 128) 3 2 <= bpow radix2 2.
  Proof. apply (upto 3 2 _ 2 limit_2). change (bpow radix2 2) with 4. lra. Qed.

  (** The calculators with limits. *)
  Notation rl d l := (rounded_limit (prec := 24) (emax := 128) d l).
  Lemma calc_canonical d a v p x m phi_p phi_g alpha xi k :
    (0 <= a)%Z -> (0 <= v)%Z -> (0 <= p <= 24)%Z -> (0 <= x <= 24)%Z -> m <= bpow radix2 v ->
    @canonical_new f32 FI phi_p phi_g alpha = Ret xi ->
    reads phi_p (b_of_Z (2 ^ p)) = true -> reads phi_g (b_of_Z (2 ^ p)) = true ->
    match @canonical_new f32 FI phi_p phi_g alpha with Ret y => reads y (b_of_Z (2 ^ x)) | _ => false end = true ->
    k = (x + Z.max v (p + a + 1) + 2)%Z -> (k < 128)%Z ->
    tame d (bpow radix2 a) m (bpow radix2 k) (@calculator W np32 phi_p phi_g alpha xi).
  Proof.
    intros Ha Hv Hp Hx Hm E R1 R2 R3 -> Hk. rewrite E in R3.
    apply (canonical_tame np32 np32 at_rng d a v p x m Ha Hv (proj1 Hp) (proj1 Hx) Hm phi_p phi_g xi); try exact Hk; now apply reads_at_most.
  Qed.
  Variables (goal : list f32 -> comp U f64).

  Lemma go_10 (stop : stop_checker U (list f32)) loggers n fuel r w :
    velocities_seen (slow 5 (10 + / 100000)) (snd (pso_main np32 (pso_program np32 np64 (b_of_Z (-100)) (b_of_Z 100) n 5
      (canonical np32 (b_of_Z 2) (b_of_Z 6) f32_0_2) goal (limit_of 10) (Ret []) (Ret stop) loggers) fuel r w)).
  Proof.
    destruct (canonical_ok np32 (b_of_Z 2) (b_of_Z 6) f32_0_2) as [xi Hxi]; [fin|fin|fin|].
    rewrite (canonical_is _ _ _ _ _ Hxi).
    apply (one (b_of_Z (-100)) (b_of_Z 100) 7 n 5 _ goal [] stop loggers ltac:(lia) ltac:(fin) ltac:(fin) ltac:(fin) ltac:(lia) 10 13);
      [lia|fin|lia|exact limit_10|].
    apply (calc_canonical 5 7 4 3 0 _ _ _ _ _ 13 ltac:(lia) ltac:(lia) ltac:(lia) ltac:(lia) v10 Hxi); [fin|fin|fin|lia|lia].
  Qed.
  Section Schwefel.
    Variables (moves : list (list f32 -> comp U (list f32))) (stop : stop_checker U (list f32)) (loggers : list (logger U (list f32))) (n : nat).
    Notation program := (pso_program np32 np64 (b_of_Z (-500)) (b_of_Z 500) n 3 (canonical np32 f32_3_2 (b_of_Z 1) f32_0_9) goal
      (limit_of 700) (Ret moves) (Ret stop) loggers).
    Lemma go_700 fuel r w : velocities_seen (slow 3 (700 + / 1000)) (snd (pso_main np32 program fuel r w)).
    Proof.
      destruct (canonical_ok np32 f32_3_2 (b_of_Z 1) f32_0_9) as [xi Hxi]; [fin|fin|fin|].
      rewrite (canonical_is _ _ _ _ _ Hxi).
      apply (one (b_of_Z (-500)) (b_of_Z 500) 9 n 3 _ goal moves stop loggers ltac:(lia) ltac:(fin) ltac:(fin) ltac:(fin) ltac:(lia) 700 14);
        [lia|fin|lia|exact limit_700|].
      apply (calc_canonical 3 9 10 2 0 _ _ _ _ _ 14 ltac:(lia) ltac:(lia) ltac:(lia) ltac:(lia) v700 Hxi); [fin|fin|fin|lia|lia].
    Qed.
    Lemma go_700_twice stop2 fuel r w : velocities_seen (slow 3 (700 + / 1000)) (snd (pso_main_iterative np32 program stop2 fuel r w)).
    Proof.
      destruct (canonical_ok np32 f32_3_2 (b_of_Z 1) f32_0_9) as [xi Hxi]; [fin|fin|fin|].
      rewrite (canonical_is _ _ _ _ _ Hxi).
      apply (one_twice (b_of_Z (-500)) (b_of_Z 500) 9 n 3 _ goal moves stop loggers ltac:(lia) ltac:(fin) ltac:(fin) ltac:(fin) ltac:(lia) 700 14);
        [lia|fin|lia|exact limit_700|].
      apply (calc_canonical 3 9 10 2 0 _ _ _ _ _ 14 ltac:(lia) ltac:(lia) ltac:(lia) ltac:(lia) v700 Hxi); [fin|fin|fin|lia|lia].
    Qed.
  End Schwefel.
  Lemma go_2 moves (stop : stop_checker U (list f32)) loggers n fuel r w :
    velocities_seen (slow 3 (2 + / 500000)) (snd (pso_main np32 (pso_program np32 np64 (b_of_Z (-2)) (b_of_Z 2) n 3
      (canonical np32 f32_3_4 (b_of_Z 1) f32_0_9) goal (limit_of 2) (Ret moves) (Ret stop) loggers) fuel r w)).
  Proof.
    destruct (canonical_ok np32 f32_3_4 (b_of_Z 1) f32_0_9) as [xi Hxi]; [fin|fin|fin|].
    rewrite (canonical_is _ _ _ _ _ Hxi).
    apply (one (b_of_Z (-2)) (b_of_Z 2) 1 n 3 _ goal moves stop loggers ltac:(lia) ltac:(fin) ltac:(fin) ltac:(fin) ltac:(lia) 2 6);
      [lia|fin|lia|exact limit_2|].
    apply (calc_canonical 3 1 2 2 0 _ _ _ _ _ 6 ltac:(lia) ltac:(lia) ltac:(lia) ltac:(lia) v2 Hxi); [fin|fin|fin|lia|lia].
  Qed.
  Lemma go_negative (stop : stop_checker U (list f32)) loggers n q fuel r w :
    Forall (fun phi => reads phi (b_of_Z 4) = true)
      [nr_phi_best_personal q; nr_phi_best_current q; nr_phi_best_global q;
       nr_phi_worst_personal q; nr_phi_worst_current q; nr_phi_worst_global q] -> reads (nr_xi q) (b_of_Z 1) = true ->
    velocities_seen (slow 3 (700 + / 1000)) (snd (pso_main np32 (pso_program np32 np64 (b_of_Z (-500)) (b_of_Z 500) n 3
      (Ret (fun s p => zoom at_rng (@negative_velocity f32 FI np64 q s p))) goal (limit_of 700) (Ret []) (Ret stop) loggers) fuel r w)).
  Proof.
    intros H1 H2.
    apply (one (b_of_Z (-500)) (b_of_Z 500) 9 n 3 _ goal [] stop loggers ltac:(lia) ltac:(fin) ltac:(fin) ltac:(fin) ltac:(lia) 700 18);
      [lia|fin|lia|exact limit_700|].
    apply (negative_tame np32 np64 at_rng 3 9 10 2 0 _ ltac:(lia) ltac:(lia) ltac:(lia) ltac:(lia) v700 q).
    - eapply Forall_impl; [|exact H1]. intros phi Hphi. apply reads_at_most; [lia|exact Hphi].
    - apply reads_at_most; [lia|exact H2].
    - lia.
  Qed.
  Lemma go_inertia lo hi (stop : stop_checker U (list f32)) loggers n fuel r w :
    reads lo (b_of_Z 512) = true -> reads hi (b_of_Z 512) = true -> leb lo hi = true ->
    velocities_seen (slow 3 (700 + / 1000)) (snd (pso_main np32 (pso_program np32 np64 lo hi n 3
      (Ret (@inertia_velocity f32 FI np32 _ at_rng f32_2_2 f32_0_6 (fun t => cret (const_inertia f32_0_85 t)))) goal (limit_of 700) (Ret []) (Ret stop) loggers) fuel r w)).
  Proof.
    intros H1 H2 H3.
    apply (one lo hi 9 n 3 _ goal [] stop loggers ltac:(lia) H1 H2 H3 ltac:(lia) 700 14);
      [lia|fin|lia|exact limit_700|].
    apply (inertia_tame np32 np32 at_rng 3 9 10 2 0 _ ltac:(lia) ltac:(lia) ltac:(lia) ltac:(lia) v700 lens_rng).
    - intros i u x u' E. injection E as <- _. apply reads_at_most; [lia|fin].
    - apply reads_at_most; [lia|fin].
    - apply reads_at_most; [lia|fin].
    - lia.
  Qed.

  (** Without limits. *)
  Lemma free lo hi n d phi_p phi_g alpha fp fg (c : f32) fx a D q1 q2 s1 s2 b (stop : stop_checker U (list f32)) loggers fuel r w :
    (0 <= a <= 2 ^ 24)%Z -> (0 <= fp <= 2 ^ 24)%Z -> (0 <= fg <= 2 ^ 24)%Z -> (0 <= D <= 2 ^ 24)%Z -> (0 <= q1 <= 2 ^ 24)%Z -> (0 <= q2 <= 2 ^ 24)%Z ->
    (0 <= s1 <= 2 ^ 24)%Z -> (0 <= s2 <= 2 ^ 24)%Z -> (0 <= b <= 2 ^ 24)%Z ->
    reads lo (b_of_Z a) = true -> reads hi (b_of_Z a) = true -> leb lo hi = true ->
    ltb (b_of_Z 4) (b_add np32 phi_p phi_g) = true -> ltb (Binary.B754_zero false) alpha = true -> ltb alpha (b_of_Z 1) = true ->
    reads phi_p (b_of_Z fp) = true -> reads phi_g (b_of_Z fg) = true ->
    match @canonical_new f32 FI phi_p phi_g alpha with Ret y => reads y c | _ => false end = true -> B2R c <= fx ->
    (2 * a <= D)%Z -> (fp * D <= q1)%Z -> (fg * D <= q2)%Z -> (b + q1 <= s1)%Z -> (s1 + q2 <= s2)%Z -> fx * IZR s2 <= IZR b ->
    velocities_seen (bounded d (IZR b)) (snd (pso_main np32 (pso_program np32 np64 lo hi n d
      (canonical np32 phi_p phi_g alpha) goal [] (Ret []) (Ret stop) loggers) fuel r w)).
  Proof.
    intros Ha Hfp Hfg HD Hq1 Hq2 Hs1 Hs2 Hb R1 R2 R3 A1 A2 A3 R4 R5 R6 Hc L1 L2 L3 L4 L5 L6.
    destruct (canonical_ok np32 phi_p phi_g alpha A1 A2 A3) as [xi Hxi].
    rewrite (canonical_is _ _ _ _ _ Hxi). rewrite Hxi in R6.
    destruct (reads_Z lo a Ha R1) as [Flo Blo]. destruct (reads_Z hi a Ha R2) as [Fhi Bhi]. apply Rabs_le_inv in Blo, Bhi.
    apply (main_free np32 np64 lo hi n d _ goal [] stop loggers (IZR a) Flo Fhi (proj1 Blo) (proj2 Bhi) (in_order lo hi Flo Fhi R3) (IZR b) ltac:(now apply (IZR_le 0))).
    unfold calculator. apply tame_zoom.
    apply (canonical_tame_bounds np32 np32 phi_p phi_g xi d (IZR a) (IZR b) (IZR fp) (IZR fg) fx (IZR D) (IZR q1) (IZR q2) (IZR s1) (IZR s2));
      try (apply (fits_Z (prec := 24) (emax := 128)); assumption); rewrite <- ?plus_IZR, <- ?mult_IZR.
    - now apply reads_Z.
    - now apply reads_Z.
    - apply small_le with (B2R c); [now apply reads_small|exact Hc].
    - apply IZR_le. lia.
    - apply IZR_le. lia.
    - apply IZR_le. lia.
    - apply IZR_le. lia.
    - apply IZR_le. lia.
    - exact L6.
  Qed.
End Programs.

(** The bounds on the constriction factors. *)
Definition c11 : f32 := @Binary.B754_finite 24 128 false 11534336 (-27) eq_refl.
Definition c9 : f32 := @Binary.B754_finite 24 128 false 9437184 (-27) eq_refl.
Definition c8 : f32 := @Binary.B754_finite 24 128 false 8388608 (-27) eq_refl.
Lemma c11_is : Binary.B2R 24 128 c11 <= 11 / 128.
Proof. unfold c11, Binary.B2R, Defs.F2R. cbn. lra. Qed.
Lemma c9_is : Binary.B2R 24 128 c9 <= 9 / 128.
Proof. unfold c9, Binary.B2R, Defs.F2R. cbn. lra. Qed.
Lemma c8_is : Binary.B2R 24 128 c8 <= 8 / 128.
Proof. unfold c8, Binary.B2R, Defs.F2R. cbn. lra. Qed.

Section Examples.
  Context {W : Type}.
  Variables (write : string -> comp W bool) (now : comp W Z) (fmt : formatter f32).
  Variables (np32 : nan_policy 24 128) (np64 : nan_policy 53 1024).
  Context {LM : Libm f32}.
  Variable dbg : bool.
  Ltac fin := vm_compute; reflexivity.
  Theorem limited_programs fuel r (w : W) :
    velocities_seen (slow 5 (10 + / 100000)) (snd (pso_main np32 (particleswarm_paraboloid write now fmt np32 np64 dbg) fuel r w)) /\
    velocities_seen (slow 3 (700 + / 1000)) (snd (pso_main np32 (particleswarm_schwefel write now fmt np32 np64 dbg) fuel r w)).
  Proof.
    refine (conj _ _).
    - unfold particleswarm_paraboloid. rewrite any_cons. apply go_10.
    - unfold particleswarm_schwefel. rewrite any_cons. apply go_700.
  Qed.
  Theorem limited_iterative stop fuel r (w : W) :
    velocities_seen (slow 3 (700 + / 1000))
      (snd (pso_main_iterative np32 (particleswarm_schwefel_iterative write now fmt np32 np64) stop fuel r w)).
  Proof. unfold particleswarm_schwefel_iterative. apply go_700_twice. Qed.
  Theorem unlimited_programs fuel r (w : W) :
    velocities_seen (bounded 3 8) (snd (pso_main np32 (particleswarm_rastrigin write now fmt np32 np64 dbg) fuel r w)) /\
    velocities_seen (bounded 3 3) (snd (pso_main np32 (particleswarm_rosenbrock write now fmt np32 np64 dbg) fuel r w)) /\
    velocities_seen (bounded 5 128) (snd (pso_main np32 (test_particleswarm_paraboloid np32 np64 dbg) fuel r w)).
  Proof.
    refine (conj _ (conj _ _)).
    - unfold particleswarm_rastrigin. rewrite any_cons.
      apply (free np32 np64 _ f32_m5_12 f32_5_12 500 3 (b_of_Z 2) (b_of_Z 5) f32_0_2 2 5 c11 (11 / 128) 6 12 24 60 32 92 8);
        try lia; try fin; [exact c11_is|lra].
    - unfold particleswarm_rosenbrock. rewrite any_cons.
      apply (free np32 np64 _ (b_of_Z (-2)) (b_of_Z 2) 1000 3 (b_of_Z 1) (b_of_Z 8) f32_0_2 1 8 c8 (8 / 128) 2 4 4 32 7 39 3);
        try lia; try fin; [exact c8_is|lra].
    - unfold test_particleswarm_paraboloid. rewrite any_cons.
      apply (free np32 np64 _ (b_of_Z (-100)) (b_of_Z 100) 150 5 (b_of_Z 2) (b_of_Z 6) f32_0_2 2 6 c9 (9 / 128) 100 200 400 1200 528 1728 128);
        try lia; try fin; [exact c9_is|lra].
  Qed.
End Examples.

(** The programs that collect statistics, for every goal. *)
Theorem limited_statistics (np32 : nan_policy 24 128) (np64 : nan_policy 53 1024) (dbg : bool)
  (loggers : list (logger (world run_data) (list f32))) (goal : list f32 -> comp (world run_data) f64) fuel r w :
  velocities_seen (slow 3 (700 + / 1000)) (snd (pso_main np32 (create_particleswarm_schwefel np32 np64 loggers goal) fuel r w)) /\
  velocities_seen (slow 3 (2 + / 500000)) (snd (pso_main np32 (create_particleswarm_rosenbrock np32 np64 dbg loggers goal) fuel r w)) /\
  velocities_seen (slow 3 (700 + / 1000)) (snd (pso_main np32 (create_particleswarm_schwefel_full np32 np64 dbg loggers goal) fuel r w)) /\
  velocities_seen (slow 3 (700 + / 1000)) (snd (pso_main np32 (create_particleswarm_schwefel_inertia np32 np64 dbg loggers goal) fuel r w)) /\
  velocities_seen (slow 3 (700 + / 1000)) (snd (pso_main np32 (create_particleswarm_rastrigin_inertia np32 np64 dbg loggers goal) fuel r w)).
Proof.
  refine (conj _ (conj _ (conj _ (conj _ _)))).
  - unfold create_particleswarm_schwefel. rewrite any_cons.
    rewrite (teleport_is np32 (b_of_Z (-500)) (b_of_Z 500) f32_0_05) by (vm_compute; reflexivity). apply go_700.
  - unfold create_particleswarm_rosenbrock. rewrite any_cons.
    rewrite (teleport_is np32 (b_of_Z (-2)) (b_of_Z 2) (b_of_Z 0)) by (vm_compute; reflexivity). apply go_2.
  - unfold create_particleswarm_schwefel_full. rewrite any_cons. apply go_negative; [|vm_compute; reflexivity].
    repeat (constructor; [vm_compute; reflexivity|]). constructor.
  - unfold create_particleswarm_schwefel_inertia, create_particleswarm_inertia. rewrite any_cons. apply go_inertia; vm_compute; reflexivity.
  - unfold create_particleswarm_rastrigin_inertia, create_particleswarm_inertia. rewrite any_cons. apply go_inertia; vm_compute; reflexivity.
Qed.

(** For the example. *)
Lemma limit_one64 : rounded_limit (prec := 53) (emax := 1024) 2 1 <= 2.
Proof.
  unfold rounded_limit. assert (B : underflow 53 1024 2 <= / 16).
  { unfold underflow. rewrite <- (sqrt_square (/ 16)) by lra. apply sqrt_le_1_alt. apply Rle_trans with (2 * (bpow radix2 (-10) / 2)).
    - apply Rmult_le_compat; [apply pos_INR| |simpl; lra|].
      + pose proof (bpow_ge_0 radix2 (3 - 1024 - 53)). lra.
      + assert (bpow radix2 (3 - 1024 - 53) <= bpow radix2 (-10)) by (apply bpow_le; lia). lra.
    - unfold bpow. simpl Z.pow_pos. lra. }
  assert (N : 0 <= underflow 53 1024 2) by apply sqrt_pos.
  apply Rle_trans with ((1 + / 1024) ^ 7 * (1 + 4 * / 16)).
  - apply Rmult_le_compat; [apply pow_le; pose proof (bpow_ge_0 radix2 (- (53))); lra|lra| |lra].
    apply pow_incr. split; [pose proof (bpow_ge_0 radix2 (- (53))); lra|]. apply Rplus_le_compat_l.
    apply Rle_trans with (bpow radix2 (-10)); [apply bpow_le; lia|]. unfold bpow. simpl Z.pow_pos. lra.
  - simpl pow. lra.
Qed.
Lemma zeros_slow (d : nat) m : 0 <= m -> @slow 53 1024 d m (repeat (Binary.B754_zero false) d).
Proof.
  intros Hm. split; [apply repeat_length|]. split.
  - apply Forall_forall. intros x Hx. apply repeat_spec in Hx. subst x. reflexivity.
  - apply Rle_trans with 0; [|exact Hm]. right. unfold speed, length2. transitivity (sqrt 0); [f_equal|apply sqrt_0].
    induction d as [|k IH]; [reflexivity|]. cbn [repeat map fold_right]. rewrite IH. cbn. ring.
Qed.
Lemma rounded_nonneg {prec emax} d l : 0 <= l -> 0 <= rounded_limit (prec := prec) (emax := emax) d l.
Proof.
  intros Hl. unfold rounded_limit. apply Rmult_le_pos.
  - apply pow_le. pose proof (bpow_ge_0 radix2 (- prec)). lra.
  - assert (0 <= underflow prec emax d) by apply sqrt_pos. lra.
Qed.
