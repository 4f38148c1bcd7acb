(** * The tests of the statistics: tests/genetic-stat-paraboloid.rs *)

From Coq Require Import List Arith ZArith Bool Lia.
From Flocq Require Import Core.Core IEEE754.Binary.
From Verif Require Import Base Logic FloatModel FloatFacts Rng GaModel GaComponents PsoModel PsoComponents
  StopModel LogModel StatModel TestFuncModel ExampleModel StatProgramModel
  SpecGa SpecRun SpecLog SpecBox SpecTotal SpecStandard SpecExample
  LogRuns LogFacts GaTotal GaStandard CreateFacts BoxFacts ApartFacts ExampleFacts ExampleRuns StatRunFacts StatProgramRuns.
Import ListNotations.
Local Open Scope nat_scope.

Section Recorded.
  Variables (np32 : nan_policy 24 128) (np64 : nan_policy 53 1024).
  Context {LM : Libm f32}.
  Variable dbg : bool.
  Variables (lo hi : f32) (size d : nat) (f : vec -> outcome f64)
    (pairing : population vec -> comp rng (list (list nat))) (prob : f64)
    (rs : list reason) (cs : list (stop_checker U vec)).
  Notation box := (cube d lo hi).
  Notation goal := (fun x : vec => cpure (f x) : comp U f64).
  Hypothesis Hlo : is_finite lo = true.
  Hypothesis Hhi : is_finite hi = true.
  Hypothesis Hlh : ltb lo hi = true.
  Hypothesis Hsize : 0 < size.
  Hypothesis Hd : 0 < d.
  Hypothesis Hpair : @standard_pairing 24 128 U at_rng (fun p => zoom at_rng (pairing p)).
  Hypothesis Hf : forall x, in_box box x -> exists v, f x = Ret v /\ is_finite v = true.
  Hypothesis Hchecks : Forall2 (checks np64 dbg) rs cs.
  Notation cfg := (config np32 np64 dbg lo hi size d pairing prob cs).

  Variables (I : phase -> nat -> U -> Prop) (answers : alg_state vec -> bool -> Prop) (k : nat).
  Hypothesis HI : lasting at_rng I.
  Hypothesis Hstop : forall q, always (I Running (as_iter q)) (answers q) (composite_any cs q).
  Hypothesis Hlog : logging_fits (fun _ => True) I [@no_logger U vec].
  Hypothesis Hstops : stops_by k answers.
  Hypothesis Hfirst : forall q, as_best q = None -> as_iter q = 0 -> ~ answers q true.

  Lemma recorded_run fuel p u : k < fuel -> I Resting 0 u ->
    exists x v p' u' t, ga_find_min (cfg goal [stat_logger]) fuel p u = (Ret (Some (x, v), p'), u', t) /\
      in_box box x /\ is_finite v = true /\
      results (lget at_statistics u') = results (lget at_statistics u) ++ [Some (x, v)] /\
      length (convergence (lget at_statistics u')) = length (convergence (lget at_statistics u)) + 1.
  Proof.
    intros Hfu Hu.
    assert (Hg : good_intervals32 box) by exact (cube_good lo hi d Hlo Hhi Hlh).
    assert (Hfit : ga_fits (in_box box) (fun v : f64 => is_finite v = true) I answers (dim (List.length box)) 2 (cfg goal [no_logger])).
    { apply (@GaStandard.standard_fits32 U at_rng I HI LM np64 np32 box size); auto.
      - exact (cube_some lo hi size d f Hsize Hd Hf).
      - intros ph i x Hx w Hw. destruct (Hf x Hx) as [v [E Hv]]. exists v, w. split; [|auto]. change ((f x, w) = (Ret v, w)). now rewrite E.
      - apply std_cross_exp.
      - constructor; [apply std_kill_nan|]. constructor; [now apply std_limit|constructor]. }
    destruct (ga_find_returns _ _ I answers _ _ _ k fuel p u Hfit Hstops Hfu Hu) as [r [p' [u2 [t [E [_ [_ [A [Hn [Hb _]]]]]]]]]].
    assert (B : alike at_statistics (ga_find_min (cfg goal [stat_logger]) fuel p u) (ga_find_min (cfg goal [no_logger]) fuel p u)).
    { apply (ga_statistics_undisturbed at_statistics 0 (cfg goal [stat_logger]) fuel p u statistics_ok eq_refl).
      eapply config_apart; [exact Hchecks|exact private_statistics|intros x; apply apart_pure|].
      intros [|[|j]] l q s En Hj; try discriminate En. contradiction. }
    apply alike_outcome in B. destruct B as [B1 B2]. rewrite E in B1, B2.
    destruct (ga_find_min (cfg goal [stat_logger]) fuel p u) as [[o u'] t'] eqn:E'. simpl in B1, B2. subst o t'.
    destruct r as [[x v]|].
    2:{ exfalso. apply (Hfirst (pop_view p')); [| |exact A].
        - destruct (ga_find_told 0 (cfg goal [stat_logger]) fuel p u _ _ _ _ ltac:(simpl; lia) E') as [q [ms [_ [_ [_ M3]]]]]. now symmetry.
        - simpl. now apply Hn. }
    exists x, v, p', u', t. split; [reflexivity|]. destruct (Hb x v eq_refl) as [Hx Hv].
    split; [exact Hx|]. split; [exact Hv|].
    assert (Hk : ga_others_keep 0 (lget at_statistics) (cfg goal [stat_logger])).
    { apply apart_keeps_ga. eapply config_apart; [exact Hchecks|exact private_statistics|intros y; apply apart_pure|].
      intros [|[|j]] l q s En Hj; try discriminate En. contradiction. }
    destruct (ga_statistics_find at_statistics 0 (cfg goal [stat_logger]) fuel p u _ _ _ _ statistics_ok eq_refl Hk E') as [S1 [S2 S3]].
    split; [exact S1|]. rewrite S2, app_length. reflexivity.
  Qed.
End Recorded.

(** ** The assertions *)
Definition finite_point (p : vec * f64) : Prop := Forall (fun x => is_finite x = true) (fst p) /\ is_finite (snd p) = true.
Lemma float_eq_same {prec emax} (x : bfloat prec emax) : is_finite x = true -> float_eq x x = true.
Proof. intros H. unfold float_eq. rewrite partial_cmp_key by (now apply finite_not_nan).
  now rewrite Rcompare_Eq. Qed.
Lemma point_asserts p : finite_point p -> assert_eq_point p p = Ret tt.
Proof.
  intros [H1 H2]. unfold assert_eq_point. rewrite Nat.eqb_refl, (float_eq_same (snd p) H2). cbn [andb].
  assert (E : forallb (fun xy : f32 * f32 => float_eq (fst xy) (snd xy)) (combine (fst p) (fst p)) = true).
  { induction H1 as [|x l Hx H IH]; [reflexivity|]. simpl. rewrite (float_eq_same x Hx). exact IH. }
  match goal with |- context [forallb ?g ?l] => replace (forallb g l) with true by (symmetry; exact E) end. reflexivity.
Qed.
Lemma recorded_map (found : list (vec * f64)) : forall pre,
  omap (fun i => let! r := index (map Some (pre ++ found)) i in unwrap r) (seq (length pre) (length found)) = Ret found.
Proof.
  induction found as [|p l IH]; intros pre; [reflexivity|]. cbn [length seq omap]. unfold index at 1.
  rewrite (map_nth_error Some (length pre) (pre ++ p :: l) (d := p)) by (rewrite nth_error_app2, Nat.sub_diag; [reflexivity|lia]).
  cbn [obind unwrap]. specialize (IH (pre ++ [p])). rewrite <- app_assoc in IH. cbn [app] in IH.
  rewrite app_length in IH. simpl length in IH. replace (length pre + 1) with (S (length pre)) in IH by lia. rewrite IH. reflexivity.
Qed.
Lemma stat_asserts_hold found (st : statistics vec) : results st = map Some found -> length (convergence st) = length found ->
  Forall finite_point found -> stat_asserts found st = Ret tt.
Proof.
  intros E L H. unfold stat_asserts, get_run_count. rewrite E, L, map_length, Nat.eqb_refl. cbn [oassert obind].
  pose proof (recorded_map found []) as R. cbn [app length] in R. rewrite R. cbn [obind]. clear E L R.
  induction H as [|p l Hp H IH]; [reflexivity|]. cbn [combine ofold fst snd]. rewrite (point_asserts p Hp). exact IH.
Qed.

(** ** The tests *)
Section Tests.
  Variables (np32 : nan_policy 24 128) (np64 : nan_policy 53 1024).
  Context {LM : Libm f32}.
  Notation parab := (fun x => Ret (@paraboloid f32 (FloatIEEE np32) (ToF64_32 np64) x)).
  Ltac fin := vm_compute; reflexivity.
  Ltac checking := repeat first [apply Forall2_nil|apply Forall2_cons; [first [reflexivity|eexists; reflexivity]|]].
  Notation pairs := (tournament_pairs (set_rounds_count (set_partners_count (tournament_new (800 / 2)) 2) 2)).
  Notation rs := [Below f64_1em6; Quiet 150; After 5000].
  Notation cs dbg := ([threshold f64_1em6; not_change np64 dbg 150 f64_1em7; max_iterations 5000] : list (stop_checker U vec)).
  Notation cfg dbg := (config np32 np64 dbg (b_of_Z (-100)) (b_of_Z 100) 800 5 pairs (b_of_Z 15) (cs dbg) (fun x : vec => cpure (parab x) : comp U f64) [stat_logger]).
  Notation new r := (World r gnc_new None ((statistics_new, ccd_new) : run_data)).
  Lemma created dbg : create_stat_paraboloid np32 np64 dbg = Ret (cfg dbg).
  Proof. apply (create_is np32 np64 dbg (b_of_Z (-100)) (b_of_Z 100) 800 5 parab); [fin|fin|fin|lia|lia|apply paraboloid_box]. Qed.
  Lemma in_box_finite (p : vec * f64) d lo hi : in_box (cube d lo hi) (fst p) -> is_finite (snd p) = true -> finite_point p.
  Proof.
    intros H Hv. split; [|exact Hv]. clear - H. unfold in_box in H. apply Forall_forall. intros x Hx.
    revert Hx. generalize dependent (cube d lo hi). generalize (fst p).
    intros l box H. induction H as [|a b l1 l2 Hab H IH]; simpl; [tauto|]. intros [<-|Hi]; [apply Hab|auto].
  Qed.

  Lemma stat_single_passes dbg fuel r : 5000 < fuel -> test_stat_single np32 np64 dbg fuel r = Ret tt.
  Proof.
    intros Hfu. unfold test_stat_single. rewrite created. unfold ga_main.
    destruct (recorded_run np32 np64 dbg (b_of_Z (-100)) (b_of_Z 100) 800 5 parab pairs (b_of_Z 15) rs (cs dbg)) with
      (I := world_ok (W := run_data) false) (answers := reasons rs) (k := 5000) (fuel := fuel) (p := @pop_new vec) (u := new r)
      as [x [v [p' [u' [t [E [Hx [Hv [S1 S2]]]]]]]]];
      [fin|fin|fin|lia|lia|now apply std_tournament|apply paraboloid_box|checking|apply world_lasting|intros q; apply (any_reasons np64 dbg); checking
      |exact no_logging|apply reasons_stop; simpl; auto|intros q A B; apply reasons_first; [exact A|exact B|clear; simpl; intuition discriminate]
      |exact Hfu|apply world_new|].
    rewrite E. cbn [obind fst unwrap]. apply stat_asserts_hold; [exact S1|exact S2|].
    constructor; [|constructor]. eapply in_box_finite; [exact Hx|exact Hv].
  Qed.

  (** After a run GoalNotChange may remember a later iteration than the first of the next run. *)
  Definition loosely (k : nat) (q : alg_state vec) (b : bool) : Prop :=
    (k <= as_iter q -> b = true) /\ (b = true -> as_best q = None -> k <= as_iter q).
  Lemma loose_checks q : always (fun _ => True) (loosely 5000 q) (composite_any (cs false) q).
  Proof.
    intros u _. cbn [composite_any]. unfold threshold, not_change, max_iterations, cbind, cret, zoom, goal_not_change.
    assert (K : forall a b, exists z, usize_sub false a b = Ret z).
    { intros a b. unfold usize_sub. destruct (b <=? a)%Z; eauto. }
    unfold loosely. destruct (as_best q) as [[x v]|].
    - destruct (leb v f64_1em6); [eexists _, _; split; [reflexivity|]; split; [split; [auto|discriminate]|exact Logic.I]|].
      cbn zeta. match goal with |- context [usize_sub false ?a ?b] => destruct (K a b) as [z ->] end.
      cbn [obind]. destruct (_ <? z)%Z; [eexists _, _; split; [reflexivity|]; split; [split; [auto|discriminate]|exact Logic.I]|].
      destruct (5000 <=? as_iter q) eqn:El; [apply Nat.leb_le in El|apply Nat.leb_gt in El];
        (eexists _, _; split; [reflexivity|]; split; [|exact Logic.I]); split; auto; try discriminate; lia.
    - destruct (5000 <=? as_iter q) eqn:El; [apply Nat.leb_le in El|apply Nat.leb_gt in El];
        (eexists _, _; split; [reflexivity|]; split; [|exact Logic.I]); split; auto; try discriminate; lia.
  Qed.
  Lemma loose_run fuel p (u : U) : 5000 < fuel ->
    exists x v p' u' t, ga_find_min (cfg false) fuel p u = (Ret (Some (x, v), p'), u', t) /\
      in_box (int_cube 5 (-100) 100) x /\ is_finite v = true /\
      results (lget at_statistics u') = results (lget at_statistics u) ++ [Some (x, v)] /\
      length (convergence (lget at_statistics u')) = length (convergence (lget at_statistics u)) + 1.
  Proof.
    intros Hfu.
    apply (recorded_run np32 np64 false (b_of_Z (-100)) (b_of_Z 100) 800 5 parab pairs (b_of_Z 15) rs (cs false)) with
      (I := fun _ _ _ => True) (answers := loosely 5000) (k := 5000);
      [fin|fin|fin|lia|lia|now apply std_tournament|apply paraboloid_box|checking|split; auto|intros q; apply loose_checks| | | |exact Hfu|exact Logic.I].
    - assert (H : forall j q l, In l [@no_logger U vec] -> returns (fun _ => True) (told_by j l q)).
      { intros j q l [<-|[]] w Hw. destruct j; (eexists _, _; split; [reflexivity|]; auto). }
      constructor; intros; try (now apply H). eexists. split; [reflexivity|exact Logic.I].
    - intros q Hq [A _]. specialize (A Hq). discriminate.
    - intros q A B [_ C]. specialize (C eq_refl A). lia.
  Qed.
  Lemma stat_two_passes fuel r : 5000 < fuel -> test_stat_two np32 np64 false fuel r = Ret tt.
  Proof.
    intros Hfu. unfold test_stat_two. rewrite created. cbn [obind].
    destruct (loose_run fuel pop_new (new r) Hfu) as [x1 [v1 [p1 [u1 [t1 [E1 [Hx1 [Hv1 [S1 S2]]]]]]]]]. rewrite E1. cbn [obind fst snd unwrap].
    destruct (loose_run fuel p1 u1 Hfu) as [x2 [v2 [p2 [u2 [t2 [E2 [Hx2 [Hv2 [S3 S4]]]]]]]]]. rewrite E2. cbn [obind fst snd unwrap].
    apply stat_asserts_hold.
    - change (fst (w_rest u2)) with (lget at_statistics u2). rewrite S3, S1. reflexivity.
    - change (fst (w_rest u2)) with (lget at_statistics u2). rewrite S4, S2. reflexivity.
    - constructor; [|constructor; [|constructor]]; (eapply in_box_finite; [eassumption|eassumption]).
  Qed.
End Tests.
