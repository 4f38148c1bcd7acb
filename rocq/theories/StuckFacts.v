(** * The swarm programs can stay where they start: proofs *)

From Coq Require Import List Arith ZArith Bool Lia Reals Lra String.
From Flocq Require Import Core IEEE754.BinarySingleNaN IEEE754.Binary.
From Verif Require Import Base Logic FloatModel Rng FloatFacts ArithFacts GaModel GaComponents PsoModel PsoComponents StopModel LogModel TestFuncModel
  ExampleModel SpecGa SpecPso SpecBox SpecVel SpecStill SpecPossible SpecTest SpecExample SpecStat SpecStuck
  CalcFacts PsoProofs PsoFacts PsoRuns PossibleFacts StillFacts StatFacts RangeFacts ExampleFacts ExampleRuns ExampleAsserts.
Import ListNotations.

Section Stuck.
  Context {W : Type}.
  Variables (np32 : nan_policy 24 128) (np64 : nan_policy 53 1024).
  Lemma box_possible (lo hi : f32) n d q : ltb lo hi = true -> is_finite lo = true -> is_finite hi = true -> in_box (repeat (lo, hi) d) q ->
    possible (@random_vectors f32 (NumGene32 np64 np32) np64 (repeat (lo, hi) d) n) (repeat q n).
  Proof.
    intros L Fl Fh B. apply possible_vectors.
    - intros a b Hi. apply repeat_spec in Hi. injection Hi as -> ->. exact L.
    - apply repeat_length.
    - apply Forall_forall. intros x Hx. apply repeat_spec in Hx. subst x. revert q B.
      induction d as [|d IH]; intros q B; inversion B as [|a i q' l' Ha Bq]; subst; constructor.
      + destruct Ha as (Fa & A1 & A2). now apply gene32.
      + now apply IH.
  Qed.
  (** The swarm programs without RandomTeleport. *)
  Lemma program_only_sees (lo hi : f32) n d calc goal limits stop (loggers : list (logger (world W) (list f32))) q :
    ltb lo hi = true -> is_finite lo = true -> is_finite hi = true -> in_box (repeat (lo, hi) d) q ->
    (forall k c, is_finite c = true -> quiet_calc k c calc) ->
    Forall (fun f => forall k, k < d -> quiet_velocity k f) limits ->
    exists zs, forall fuel, only_sees (pso_main np32 (pso_program np32 np64 lo hi n d (Ret calc) goal limits (Ret []) (Ret stop) loggers) fuel) q zs.
  Proof.
    intros L Fl Fh B Q Hl. destruct (box_possible lo hi n d q L Fl Fh B) as [zs Hz].
    assert (Lq : List.length q = d) by (rewrite (Forall2_length _ _ _ B); apply repeat_length).
    exists zs. intros fuel rest w o u' t H. cbn [pso_program obind pso_main] in H.
    assert (A : forall y v, evaluated t y v -> same_point y q).
    { revert H. unfold pso_main, pso_program. cbn [obind app]. unfold Float32. intros H.
      eapply (crowd np32 goal stop (zoom at_rng (@random_vectors f32 (NumGene32 np64 np32) np64 (repeat (lo, hi) d) n)) calc limits loggers
        (repeat (lo, hi) d) n q (repeat q n) fuel swarm_new (World (prepend zs rest) gnc_new None w)).
      - unfold zoom. cbn [lget at_rng w_rng]. rewrite Hz. reflexivity.
      - apply Forall_forall. intros x Hx. apply repeat_spec in Hx. now symmetry.
      - exact B.
      - exact Q.
      - rewrite Lq. exact Hl.
      - rewrite Lq. exact H. }
    split; [exact A|]. intros x v s' ->. apply (A x v).
    revert H. unfold pso_main, pso_program. cbn [obind app]. unfold Float32. intros H.
    exact (proj1 (@pso_result_evaluated _ f32 (FloatIEEE np32) (fun _ => True) swarm_new [] _ fuel _ x v s' u' t (pso_reach_new _)) H).
  Qed.
  Lemma canonical_finite (phi_p phi_g k xi : f32) :
    (match @canonical_new f32 (FloatIEEE np32) phi_p phi_g k with Ret a => is_finite a | _ => false end) = true ->
    @canonical_new f32 (FloatIEEE np32) phi_p phi_g k = Ret xi -> is_finite xi = true.
  Proof. intros H E. now rewrite E in H. Qed.
  Lemma calculator_quiet (phi_p phi_g k xi : f32) : is_finite phi_p = true -> is_finite phi_g = true -> is_finite xi = true ->
    forall j c, is_finite c = true -> quiet_calc j c (@calculator W np32 phi_p phi_g k xi).
  Proof. intros F1 F2 F3 j c Fc. apply canonical_zoom_quiet; assumption. Qed.
End Stuck.

Section Programs.
  Context {W : Type}.
  Variables (write : string -> comp W bool) (now : comp W Z).
  Variable fmt : formatter f32.
  Variables (np32 : nan_policy 24 128) (np64 : nan_policy 53 1024).
  Context {LM : Libm f32}.
  Variable dbg : bool.
  Notation decimal_cube d := (cube d (decimal32 (-512) 2) (decimal32 512 2)).
  Ltac fin := vm_compute; reflexivity.
  Ltac start p g k := rewrite any_cons; destruct (canonical_ok np32 p g k) as [xi Hxi]; [fin|fin|fin|];
    pose proof (canonical_finite np32 p g k xi ltac:(fin) Hxi) as Fxi; unfold Float32; rewrite (canonical_is _ _ _ _ _ Hxi).

  Lemma paraboloid_only q : in_box (int_cube 5 (-100) 100) q ->
    exists zs, forall fuel, only_sees (pso_main np32 (@particleswarm_paraboloid W write now fmt np32 np64 dbg) fuel) q zs.
  Proof.
    intros B. unfold particleswarm_paraboloid. start (b_of_Z 2 : f32) (b_of_Z 6 : f32) f32_0_2.
    apply (program_only_sees np32 np64 (b_of_Z (-100)) (b_of_Z 100) 80 5); [fin|fin|fin|exact B|apply calculator_quiet; [fin|fin|exact Fxi]|].
    constructor; [|constructor]. intros k _. apply abs_quiet; fin.
  Qed.
  Lemma rastrigin_only q : in_box (cube 3 (decimal32 (-512) 2) (decimal32 512 2)) q ->
    exists zs, forall fuel, only_sees (pso_main np32 (@particleswarm_rastrigin W write now fmt np32 np64 LM dbg) fuel) q zs.
  Proof.
    rewrite <- lit_5_12, <- lit_m5_12. intros B. unfold particleswarm_rastrigin. start (b_of_Z 2 : f32) (b_of_Z 5 : f32) f32_0_2.
    apply (program_only_sees np32 np64 f32_m5_12 f32_5_12 500 3); [fin|fin|fin|exact B|apply calculator_quiet; [fin|fin|exact Fxi]|constructor].
  Qed.
  Lemma rosenbrock_only q : in_box (int_cube 3 (-2) 2) q ->
    exists zs, forall fuel, only_sees (pso_main np32 (@particleswarm_rosenbrock W write now fmt np32 np64 dbg) fuel) q zs.
  Proof.
    intros B. unfold particleswarm_rosenbrock. start (b_of_Z 1 : f32) (b_of_Z 8 : f32) f32_0_2.
    apply (program_only_sees np32 np64 (b_of_Z (-2)) (b_of_Z 2) 1000 3); [fin|fin|fin|exact B|apply calculator_quiet; [fin|fin|exact Fxi]|constructor].
  Qed.
  Lemma schwefel_only q : in_box (int_cube 3 (-500) 500) q ->
    exists zs, forall fuel, only_sees (pso_main np32 (@particleswarm_schwefel W write now fmt np32 np64 LM dbg) fuel) q zs.
  Proof.
    intros B. unfold particleswarm_schwefel. start f32_3_2 (b_of_Z 1 : f32) f32_0_9.
    apply (program_only_sees np32 np64 (b_of_Z (-500)) (b_of_Z 500) 100 3); [fin|fin|fin|exact B|apply calculator_quiet; [fin|fin|exact Fxi]|].
    constructor; [|constructor]. intros k _. apply abs_quiet; fin.
  Qed.
  Lemma test_only q : in_box (int_cube 5 (-100) 100) q ->
    exists zs, forall fuel, only_sees (pso_main np32 (@test_particleswarm_paraboloid W np32 np64 dbg) fuel) q zs.
  Proof.
    intros B. unfold test_particleswarm_paraboloid. start (b_of_Z 2 : f32) (b_of_Z 6 : f32) f32_0_2.
    apply (program_only_sees np32 np64 (b_of_Z (-100)) (b_of_Z 100) 150 5); [fin|fin|fin|exact B|apply calculator_quiet; [fin|fin|exact Fxi]|constructor].
  Qed.

  (** *** The result *)
  Hypothesis Hwrite : accepts write.
  Hypothesis Hnow : ticks now.
  Lemma paraboloid_stays q : in_box (int_cube 5 (-100) 100) q -> exists zs, forall fuel rest w, 3000 < fuel -> exists x v s' u' t,
    pso_main np32 (@particleswarm_paraboloid W write now fmt np32 np64 dbg) fuel (prepend zs rest) w = (Ret (Some (x, v), s'), u', t) /\ same_point x q.
  Proof.
    intros B. destruct (paraboloid_only q B) as [zs Hz]. exists zs. intros fuel rest w Hf.
    destruct (particleswarm_paraboloid_ends write now fmt np32 np64 dbg Hwrite Hnow fuel (prepend zs rest) w) as (x & v & s' & u' & t & E & _); [exact Hf|].
    exists x, v, s', u', t. split; [exact E|]. exact (proj2 (Hz fuel rest w _ _ _ E) x v s' eq_refl).
  Qed.
  Lemma rastrigin_stays q : cos_bounded (@fcos f32 LM) -> in_box (cube 3 (decimal32 (-512) 2) (decimal32 512 2)) q -> exists zs, forall fuel rest w, 3000 < fuel -> exists x v s' u' t,
    pso_main np32 (@particleswarm_rastrigin W write now fmt np32 np64 LM dbg) fuel (prepend zs rest) w = (Ret (Some (x, v), s'), u', t) /\ same_point x q.
  Proof.
    intros C B. destruct (rastrigin_only q B) as [zs Hz]. exists zs. intros fuel rest w Hf.
    destruct (particleswarm_rastrigin_ends write now fmt np32 np64 dbg Hwrite Hnow fuel (prepend zs rest) w) as (x & v & s' & u' & t & E & _); [exact C|exact Hf|].
    exists x, v, s', u', t. split; [exact E|]. exact (proj2 (Hz fuel rest w _ _ _ E) x v s' eq_refl).
  Qed.
  Lemma rosenbrock_stays q : in_box (int_cube 3 (-2) 2) q -> exists zs, forall fuel rest w, 3000 < fuel -> exists x v s' u' t,
    pso_main np32 (@particleswarm_rosenbrock W write now fmt np32 np64 dbg) fuel (prepend zs rest) w = (Ret (Some (x, v), s'), u', t) /\ same_point x q.
  Proof.
    intros B. destruct (rosenbrock_only q B) as [zs Hz]. exists zs. intros fuel rest w Hf.
    destruct (particleswarm_rosenbrock_ends write now fmt np32 np64 dbg Hwrite Hnow fuel (prepend zs rest) w) as (x & v & s' & u' & t & E & _); [exact Hf|].
    exists x, v, s', u', t. split; [exact E|]. exact (proj2 (Hz fuel rest w _ _ _ E) x v s' eq_refl).
  Qed.
  Lemma schwefel_stays q : cos_bounded (@fsin f32 LM) -> in_box (int_cube 3 (-500) 500) q -> exists zs, forall fuel rest w, 3000 < fuel -> exists x v s' u' t,
    pso_main np32 (@particleswarm_schwefel W write now fmt np32 np64 LM dbg) fuel (prepend zs rest) w = (Ret (Some (x, v), s'), u', t) /\ same_point x q.
  Proof.
    intros C B. destruct (schwefel_only q B) as [zs Hz]. exists zs. intros fuel rest w Hf.
    destruct (particleswarm_schwefel_ends write now fmt np32 np64 dbg Hwrite Hnow fuel (prepend zs rest) w) as (x & v & s' & u' & t & E & _); [exact C|exact Hf|].
    exists x, v, s', u', t. split; [exact E|]. exact (proj2 (Hz fuel rest w _ _ _ E) x v s' eq_refl).
  Qed.
End Programs.

(** ** The test of the swarm can fail *)
Section Test.
  Context {W : Type}.
  Variables (np32 : nan_policy 24 128) (np64 : nan_policy 53 1024).
  Variable dbg : bool.
  Lemma zero_is (a : f32) : is_finite a = true -> partial_cmp a (b_of_Z 0) = Some Eq -> exists s, a = Binary.B754_zero s.
  Proof. destruct a as [s|s|s pl h|s m e h]; intros F C; try discriminate F; [now exists s|]. exfalso. destruct s; discriminate C. Qed.
  Lemma asserts_zero (x : list f32) v : same_point x (repeat (b_of_Z 0) 5) -> particleswarm_paraboloid_asserts np32 (Some (x, v)) = Panic.
  Proof.
    intros H. inversion H as [|a b x' q' Ha _]; subst. destruct Ha as (Fa & _ & Ca). destruct (zero_is a Fa Ca) as [s ->].
    unfold particleswarm_paraboloid_asserts, test_asserts. cbn [seq ofold].
    change (index (Binary.B754_zero s :: x') 0) with (Ret (Binary.B754_zero s : f32)). cbn [obind].
    assert (E : ltb (b_abs (@fsub f32 (Float32 np32) (Binary.B754_zero s) (expected_paraboloid np32 0))) f32_0_3 = false) by (destruct s; vm_compute; reflexivity).
    rewrite E. reflexivity.
  Qed.
  Lemma test_fails : exists zs, forall fuel rest (w : W), 3000 < fuel -> exists x v s' u' t,
    pso_main np32 (@test_particleswarm_paraboloid W np32 np64 dbg) fuel (prepend zs rest) w = (Ret (Some (x, v), s'), u', t) /\
    particleswarm_paraboloid_asserts np32 (Some (x, v)) = Panic.
  Proof.
    assert (B : in_box (int_cube 5 (-100) 100) (repeat (b_of_Z 0) 5)) by (repeat constructor; vm_compute; reflexivity).
    destruct (@test_only W np32 np64 dbg (repeat (b_of_Z 0) 5) B) as [zs Hz]. exists zs. intros fuel rest w Hf.
    destruct (test_particleswarm_paraboloid_ends discard (cret 0%Z) blank np32 np64 dbg discard_accepts zero_ticks fuel (prepend zs rest) w Hf) as (x & v & s' & u' & t & E & _).
    exists x, v, s', u', t. split; [exact E|]. apply asserts_zero. exact (proj2 (Hz fuel rest w _ _ _ E) x v s' eq_refl).
  Qed.
End Test.
