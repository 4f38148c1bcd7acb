(** * The test of the genetic algorithm on the Rosenbrock function: tests/genetic-rosenbrock.rs *)

From Coq Require Import List Arith ZArith Bool Reals Lia Lra Permutation.
From Flocq Require Import Core.Core IEEE754.BinarySingleNaN IEEE754.Binary.
From Verif Require Import Base Logic FloatModel FloatFacts ArithFacts Rng GaModel GaComponents PsoModel PsoComponents
  StopModel LogModel StatModel TestFuncModel ExampleModel StatProgramModel
  SpecGa SpecRun SpecLog SpecBox SpecTotal SpecStandard SpecStat SpecExample SpecStatProgram
  LogRuns LogFacts GaTotal GaStandard CreateFacts BoxFacts ApartFacts StatFacts ExampleFacts ExampleRuns
  StatProgramFacts StatRunFacts StatProgramRuns.
Import ListNotations.
Local Open Scope nat_scope.

(** ** Three quarters *)
Notation B2R64 := (Binary.B2R 53 1024).
Lemma three_quarters : is_finite f64_0_75 = true /\ B2R64 f64_0_75 = (IZR (3 * 2 ^ 51) * bpow radix2 (-53))%R.
Proof.
  split; [vm_compute; reflexivity|]. rewrite <- Binary.FF2R_B2FF.
  assert (E : Binary.B2FF 53 1024 f64_0_75 = Binary.F754_finite false 6755399441055744 (-53)) by (vm_compute; reflexivity).
  rewrite E. reflexivity.
Qed.
Lemma quarter_scale : (bpow radix2 51 * bpow radix2 (-53) = 1 / 4)%R.
Proof. rewrite <- bpow_plus. simpl. lra. Qed.
Lemma rate_passes np64 k n : 0 < n <= 100 -> k <= n ->
  leb f64_0_75 (b_div np64 (float_count k) (float_count n)) = (3 * n <=? 4 * k).
Proof.
  intros Hn Hk.
  assert (Bk : (Z.of_nat k <= 2 ^ 53)%Z) by (apply Z.le_trans with 100%Z; [lia|vm_compute; discriminate]).
  assert (Bn : (Z.of_nat n <= 2 ^ 53)%Z) by (apply Z.le_trans with 100%Z; [lia|vm_compute; discriminate]).
  destruct (count_exact (prec := 53) (emax := 1024) k Bk) as [C1 C2].
  destruct (div_count_exact np64 (float_count k) n C1 ltac:(lia) Bn) as [D1 D2]. rewrite C2 in D2.
  destruct three_quarters as [Q1 Q2].
  assert (P : (0 < INR n)%R) by (apply lt_0_INR; lia).
  assert (S : (IZR (3 * 2 ^ 51) * bpow radix2 (-53) = 3 / 4)%R).
  { rewrite mult_IZR. change (2 ^ 51)%Z with (radix_val radix2 ^ 51)%Z. rewrite (IZR_Zpower radix2 51) by lia. rewrite Rmult_assoc, quarter_scale. lra. }
  destruct (Nat.leb_spec (3 * n) (4 * k)) as [H|H].
  - apply leb_key. split; [now apply finite_not_nan|]. split; [now apply finite_not_nan|].
    rewrite !key_finite by assumption. rewrite Q2, D2. apply rnd_ge_format; [apply format_bpow_53; vm_compute; discriminate|].
    rewrite S. apply (Rmult_le_reg_r (INR n)); [exact P|]. unfold Rdiv at 2. rewrite Rmult_assoc, Rinv_l, Rmult_1_r by lra.
    apply le_INR in H. rewrite !mult_INR in H. simpl (INR 3) in H. simpl (INR 4) in H. lra.
  - apply leb_false; [now apply finite_not_nan|now apply finite_not_nan|].
    rewrite !key_finite by assumption. rewrite Q2, D2, S.
    apply Rle_lt_trans with (IZR (383 * 2 ^ 44) * bpow radix2 (-53))%R.
    + apply rnd_le_format; [apply format_bpow_53; vm_compute; discriminate|].
      assert (E : (IZR (383 * 2 ^ 44) * bpow radix2 (-53) = 383 / 512)%R).
      { rewrite mult_IZR. change (2 ^ 44)%Z with (radix_val radix2 ^ 44)%Z. rewrite (IZR_Zpower radix2 44) by lia.
        rewrite Rmult_assoc, <- bpow_plus. simpl. lra. }
      rewrite E. apply (Rmult_le_reg_r (INR n)); [exact P|]. unfold Rdiv at 1. rewrite Rmult_assoc, Rinv_l, Rmult_1_r by lra.
      assert (H' : (4 * INR k + 1 <= 3 * INR n)%R).
      { change 1%R with (INR 1). replace 4%R with (INR 4) by (simpl; lra). replace 3%R with (INR 3) by (simpl; lra).
        rewrite <- !mult_INR, <- plus_INR. apply le_INR. lia. }
      assert (Hn' : (INR n <= 100)%R) by (replace 100%R with (INR 100) by (simpl; lra); apply le_INR; lia). lra.
    + rewrite mult_IZR. change (2 ^ 44)%Z with (radix_val radix2 ^ 44)%Z. rewrite (IZR_Zpower radix2 44) by lia.
      rewrite Rmult_assoc, <- bpow_plus. simpl. lra.
Qed.

(** ** The runs are those of examples/genetic-rosenbrock-statistics.rs *)
Section Runs.
  Variables (np32 : nan_policy 24 128) (np64 : nan_policy 53 1024).
  Context {LM : Libm f32}.
  Variable dbg : bool.
  Notation rosen := (@rosenbrock f32 (FloatIEEE np32) (ToF64_32 np64)).
  Notation single := (ga_single (create_genetic_rosenbrock np32 np64 dbg) (fun x : vec => cpure (rosen x) : comp U f64)).
  Notation test_run := (test_rosenbrock_run np32 np64 dbg).
  Notation cs := ([threshold f64_1em6; not_change np64 dbg 2000 f64_1em7] : list (stop_checker U vec)).
  Notation cfg := (config np32 np64 dbg (b_of_Z (-2)) (b_of_Z 2) 700 3 random_pairing (b_of_Z 80) cs).
  Ltac fin := vm_compute; reflexivity.
  Ltac checking := repeat first [apply Forall2_nil|apply Forall2_cons; [first [reflexivity|eexists; reflexivity]|]].

  (** The outcomes without the counted calls. *)
  Definition uncounted (a : outcome run_data * rng) (b : outcome (statistics vec) * rng) : Prop :=
    match a with
    | (Ret d, r') => b = (Ret (fst d), r')
    | (Panic, _) => fst b = Panic
    | (NoFuel, _) => fst b = NoFuel
    end.
  Lemma created g ls : create_genetic_rosenbrock np32 np64 dbg ls g = Ret (cfg g ls).
  Proof. apply (create_is np32 np64 dbg (b_of_Z (-2)) (b_of_Z 2) 700 3 rosen); [fin|fin|fin|lia|lia|apply rosenbrock_box]. Qed.
  Lemma run_uncounted fuel r : uncounted (single fuel r) (test_run fuel r).
  Proof.
    unfold ga_single, test_rosenbrock_run. rewrite created.
    change (create_test_rosenbrock np32 np64 dbg) with (create_genetic_rosenbrock np32 np64 dbg [stat_logger] (fun x : vec => cpure (rosen x) : comp U f64)).
    rewrite created. unfold ga_main.
    pose proof (proj1 (ga_count_undisturbed at_calls calls_ok (cfg (fun x : vec => cpure (rosen x)) [stat_logger]) fuel pop_new
      (World r gnc_new None (statistics_new, ccd_new))
      (stat_apart np32 np64 dbg (b_of_Z (-2)) (b_of_Z 2) 700 3 rosen random_pairing (b_of_Z 80) [Below f64_1em6; Quiet 2000] cs ltac:(checking) _))) as A.
    change (ga_with_goal (cfg (fun x : vec => cpure (rosen x)) [stat_logger]) (goal_calc_statistics at_calls (ga_goal (cfg (fun x : vec => cpure (rosen x)) [stat_logger]))))
      with (cfg (counted_goal (fun x : vec => cpure (rosen x) : comp U f64)) [stat_logger]) in A.
    destruct (ga_find_min (cfg (counted_goal _) _) _ _ _) as [[o1 u1] t1].
    destruct (ga_find_min _ _ _ _) as [[o2 u2] t2]. destruct A as [A1 [_ A2]]. simpl in A1, A2. subst o2.
    destruct o1 as [a| |]; cbn [obind uncounted]; try reflexivity.
    specialize (A2 a eq_refl ccd_new). destruct u1 as [r1 g1 s1 [x1 y1]], u2 as [r2 g2 s2 [x2 y2]]. simpl in A2. injection A2 as -> _ _ ->. reflexivity.
  Qed.
  Lemma thread_abstract (s : comp rng run_data) (t : comp rng (statistics vec)) n r : (forall r, uncounted (s r) (t r)) ->
    uncounted (thread s n r) (cfold (fun local _ => do d <- t ;; cret (unite local d)) (seq 0 n) statistics_new r).
  Proof.
    intros H. unfold thread. change statistics_new with (fst ((statistics_new, ccd_new) : run_data)) at 2.
    generalize ((statistics_new, ccd_new) : run_data). generalize 0. revert r.
    induction n as [|n IH]; intros r m d; cbn [seq cfold]; [reflexivity|].
    unfold cbind. specialize (H r). destruct (s r) as [[d1| |] r1]; simpl in H.
    - rewrite H. exact (IH r1 (S m) (unite_both d d1)).
    - destruct (t r) as [o ?]. simpl in H. subst o. reflexivity.
    - destruct (t r) as [o ?]. simpl in H. subst o. reflexivity.
  Qed.
  Lemma thread_uncounted fuel n r : uncounted (thread (single fuel) n r) (test_rosenbrock_thread np32 np64 dbg fuel n r).
  Proof. exact (thread_abstract (single fuel) (test_run fuel) n r (run_uncounted fuel)). Qed.
  Lemma collect_abstract (th : comp rng run_data) (tt : comp rng (statistics vec)) streams arrivals : (forall r, uncounted (th r) (tt r)) ->
    ofold (fun full i => let! d := match nth_error (map (fun r => fst (tt r)) streams) i with Some (Ret d) => Ret d | _ => NoFuel end in
                         Ret (unite full d)) arrivals statistics_new =
    let! d := collect (map (fun r => fst (th r)) streams) arrivals in Ret (fst d).
  Proof.
    intros H. unfold collect. change statistics_new with (fst ((statistics_new, ccd_new) : run_data)) at 1.
    generalize ((statistics_new, ccd_new) : run_data). induction arrivals as [|i l IH]; intros d; cbn [ofold]; [reflexivity|].
    destruct (nth_error streams i) as [r|] eqn:E.
    - rewrite !(map_nth_error _ _ _ E). specialize (H r).
      destruct (th r) as [[d1| |] r1]; simpl in H.
      + rewrite H. cbn [fst obind]. exact (IH (unite_both d d1)).
      + rewrite H. reflexivity.
      + rewrite H. reflexivity.
    - apply nth_error_None in E. rewrite !(proj2 (nth_error_None _ _)) by (rewrite map_length; exact E). reflexivity.
  Qed.
  Lemma collect_uncounted fuel n streams arrivals :
    ofold (fun full i => let! d := match nth_error (map (fun r => fst (test_rosenbrock_thread np32 np64 dbg fuel n r)) streams) i with Some (Ret d) => Ret d | _ => NoFuel end in
                         Ret (unite full d)) arrivals statistics_new =
    let! d := collect (map (fun r => fst (thread (single fuel) n r)) streams) arrivals in Ret (fst d).
  Proof. exact (collect_abstract (thread (single fuel) n) (test_rosenbrock_thread np32 np64 dbg fuel n) streams arrivals (thread_uncounted fuel n)). Qed.

  Lemma rate_reported answer delta d rp : print_report np32 np64 answer delta 3 d = Ret rp ->
    get_success_rate np64 (@predicate_success_vec f32 (FloatIEEE np32) (repeat answer 3, repeat delta 3)) (results (fst d)) = Some (rp_success_rate rp).
  Proof.
    destruct d as [st cc]. unfold print_report. intros E.
    destruct (print_solution st); cbn [obind] in E; try discriminate E.
    destruct (print_convergence_statistics np64 st); cbn [obind] in E; try discriminate E.
    change (@predicate_success_vec_new f32 (repeat answer 3) (repeat delta 3)) with (Ret (repeat answer 3, repeat delta 3)) in E. cbn [obind] in E.
    cbn [fst]. destruct (get_success_rate np64 _ (results st)); cbn [obind unwrap] in E; [|discriminate E].
    destruct (get_average_goal np64 (results st)); cbn [obind unwrap] in E; [|discriminate E].
    destruct (get_standard_deviation_goal np64 (results st)); cbn [obind unwrap] in E; [|discriminate E].
    destruct (get_average_call_count np64 cc); cbn [obind unwrap] in E; [|discriminate E].
    injection E as <-. reflexivity.
  Qed.

  Theorem rosenbrock_test fuel :
    tests_share np32 (b_of_Z 1) (decimal32 1 2) 100 3 4
      (good_run rosen (int_cube 3 (-2) 2) [Below (decimal64 1 6); Quiet 2000] (fun _ _ => True))
      (test_genetic_rosenbrock np32 np64 dbg fuel).
  Proof.
    intros streams Hs. destruct (genetic_rosenbrock_reports np32 np64 dbg fuel streams Hs) as [per [L H]].
    exists per. split; [exact L|]. intros arrivals Ha. specialize (H arrivals Ha).
    unfold genetic_rosenbrock_statistics, stat_main in H. unfold test_genetic_rosenbrock.
    replace (length streams =? 0) with false in * by (symmetry; apply Nat.eqb_neq; lia). cbn [obind] in *.
    cbn zeta. rewrite collect_uncounted.
    match type of H with context [collect ?m arrivals] => set (msgs := m) in *; change (collect _ arrivals) with (collect msgs arrivals) end.
    pose proof (collect_never_panics msgs arrivals (statistics_new, ccd_new)) as Np.
    change (collect msgs arrivals <> Panic) in Np.
    destruct (collect msgs arrivals) as [d| |]; cbn [obind] in *; [|congruence|left; reflexivity].
    destruct H as [H|[rp [E [R F]]]]; [exfalso; revert H; apply print_report_ends|]. right.
    rewrite <- lit_1em2 in *.
    split.
    { eapply Forall_impl; [|exact F]. intros runs [A B]. split; [exact A|]. eapply Forall_impl; [|exact B].
      intros run (G1 & G2 & G3 & G4 & _). repeat split; auto; apply G1. }
    apply rate_reported in E.
    change (@predicate_success_vec_new f32 (repeat (b_of_Z 1) 3) (repeat f32_1em2 3)) with (Ret (repeat (b_of_Z 1 : f32) 3, repeat f32_1em2 3)).
    cbn [obind]. rewrite E. cbn [obind unwrap]. destruct R as (_ & _ & _ & -> & _).
    assert (P : Permutation (concat (map (fun i => nth i per []) arrivals)) (concat per)).
    { apply Permutation_trans with (concat (map (fun i => nth i per []) (seq 0 (length per)))).
      - apply gather_permuted. now rewrite L.
      - replace (map (fun i => nth i per []) (seq 0 (length per))) with per; [reflexivity|].
        clear. induction per as [|a l IH]; [reflexivity|]. cbn [length seq map nth]. f_equal. rewrite <- seq_shift, map_map. exact IH. }
    rewrite (filter_permuted _ _ _ P), (Permutation_length P).
    assert (Lc : length (concat per) = (100 / length streams) * length streams).
    { rewrite <- L at 2. clear - F. revert F. generalize (100 / length streams). intros q F.
      induction F as [|runs l [A _] F IH]; [cbn [concat length]; lia|]. cbn [concat length]. rewrite app_length, A, IH. lia. }
    pose proof (total_runs 100 ltac:(lia) ltac:(vm_compute; discriminate) (length streams) Hs) as Ht.
    rewrite rate_passes.
    - destruct (_ <=? _); reflexivity.
    - rewrite Lc. lia.
    - clear. induction (concat per) as [|x l IH]; [simpl; lia|]. simpl. destruct (near _ _ _ x); simpl; lia.
  Qed.
  (** More processors than runs. *)
  Theorem rosenbrock_test_fails fuel streams arrivals : 100 < length streams -> Permutation arrivals (seq 0 (length streams)) ->
    test_genetic_rosenbrock np32 np64 dbg fuel streams arrivals = Panic.
  Proof.
    intros Hs Ha. unfold test_genetic_rosenbrock.
    replace (length streams =? 0) with false by (symmetry; apply Nat.eqb_neq; lia). cbn [obind].
    rewrite Nat.div_small by lia.
    assert (Hi : Forall (fun i => i < length streams) arrivals).
    { apply Forall_forall. intros i Hi. apply (Permutation_in _ Ha) in Hi. apply in_seq in Hi. lia. }
    clear Ha. cbn zeta.
    match goal with |- obind ?o _ = _ => assert (E : o = Ret statistics_new) end.
    { induction Hi as [|i l Hi H IH]; cbn [ofold]; [reflexivity|].
      destruct (nth_error streams i) as [r|] eqn:Er; [|apply nth_error_None in Er; lia].
      rewrite (map_nth_error _ _ _ Er). exact IH. }
    rewrite E. reflexivity.
  Qed.
End Runs.
