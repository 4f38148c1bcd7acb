(** * The programs that collect statistics, one by one *)

From Coq Require Import List Arith ZArith Bool Permutation Lia.
From Flocq Require Import IEEE754.Binary.
From Verif Require Import Base Logic FloatModel Rng ArithFacts RangeFacts BoxFacts GaStandard PsoStandard GaModel GaComponents PsoModel PsoComponents
  StopModel LogModel StatModel TestFuncModel ExampleModel StatProgramModel
  SpecGa SpecPso SpecBox SpecRun SpecLog SpecTotal SpecStandard SpecTest SpecExample SpecStat SpecBudget SpecStatProgram
  ApartFacts EndsFacts BudgetFacts ExampleFacts ExampleRuns StatProgramFacts StatRunFacts.
Import ListNotations.
Local Open Scope nat_scope.

Lemma lit_420_9687 : f32_420_9687 = decimal32 4209687 4. Proof. same_float. Qed.
Lemma lit_1em2 : f32_1em2 = decimal32 1 2. Proof. same_float. Qed.
Lemma lit_0_1 : f32_0_1 = decimal32 1 1. Proof. same_float. Qed.

(** ** From one run to the program *)
Lemma solves_point f lo hi (run : stat_run) rs calls : good_run f (cube 3 lo hi) rs calls run ->
  length (fst (sr_point run)) = 3 /\ Forall (fun x => is_finite x = true) (fst (sr_point run)).
Proof.
  intros [[H _] _]. split; [exact (eq_trans (in_box_length _ _ H) (repeat_length _ _))|].
  clear - H. unfold in_box in H. apply Forall_forall. intros x Hx.
  revert Hx. generalize dependent (cube 3 lo hi). generalize (fst (sr_point run)).
  intros l box H. induction H as [|a b l1 l2 Hab H IH]; simpl; [tauto|]. intros [<-|Hi]; [apply Hab|auto].
Qed.
Lemma total_of n : 2 <= n -> (n <= 1000) -> (Z.of_nat n <= 2 ^ 53)%Z.
Proof. intros _ H. apply Z.le_trans with 1000%Z; [lia|vm_compute; discriminate]. Qed.

Section Reports.
  Variables (np32 : nan_policy 24 128) (np64 : nan_policy 53 1024) (single : comp rng run_data).
  Variables (f : vec -> outcome f64) (lo hi : f32) (rs : list reason) (calls : nat -> nat -> Prop) (total : nat) (answer delta : f32).
  Notation good := (good_run f (cube 3 lo hi) rs calls).
  Notation main := (stat_main np32 np64 single total answer delta).
  Hypothesis Hgood : forall r d r', single r = (Ret d, r') -> exists run, good run /\ d = data_of [run].
  Hypothesis Hanswer : is_finite answer = true.
  Hypothesis Hdelta : is_nan delta = false.
  Hypothesis Htotal : 2 <= total <= 1000.
  Lemma reports_all_of : (forall r, exists d r', single r = (Ret d, r')) -> reports_all np32 np64 answer delta total good main.
  Proof.
    intros H streams Hs. apply (main_returns np32 np64 single good Hgood total answer delta Hanswer Hdelta (proj1 Htotal)); auto.
    - apply total_of; apply Htotal.
    - intros run. apply solves_point.
  Qed.
  Lemma reports_ended_of : reports_ended np32 np64 answer delta total good main.
  Proof.
    intros streams Hs.
    destruct (main_accounts np32 np64 single good Hgood total answer delta Hanswer Hdelta (proj1 Htotal)) with (streams := streams) as [per [L H]]; auto.
    - apply total_of; apply Htotal.
    - intros run. apply solves_point.
    - exists per. split; [exact L|]. exact H.
  Qed.
  Lemma fails_beyond_of : fails_beyond total main.
  Proof.
    intros streams arrivals Hs Ha. apply (main_too_many np32 np64 single total answer delta); [apply Htotal|exact Hs|].
    apply Forall_forall. intros i Hi. apply (Permutation_in _ Ha) in Hi. apply in_seq in Hi. lia.
  Qed.
End Reports.

(** ** The components keep apart from what they do not use *)
Lemma apart_canonical {G} (L : lens U G) np32 a b k xi s p : separate L at_rng -> apart L (@calculator run_data np32 a b k xi s p).
Proof. intros H. unfold calculator. now apply apart_zoom. Qed.
Lemma apart_max_abs {G} (L : lens U G) np32 limit fn v :
  In fn [fun v : vec => cret (@max_velocity_abs f32 (FloatIEEE np32) limit v)] -> apart L (fn v : comp U vec).
Proof. intros [<-|[]]. apply apart_ret. Qed.
Lemma uniform_ok np32 (lo hi : f32) : leb lo hi = true -> is_finite lo = true -> is_finite hi = true ->
  @uniform_incl f32 (FloatIEEE np32) lo hi = Ret (lo, hi).
Proof.
  intros A B C. unfold uniform_incl. change (@fle f32 (FloatIEEE np32)) with (@leb 24 128).
  change (@ffinite f32 (FloatIEEE np32)) with (@is_finite 24 128). now rewrite A, B, C.
Qed.
Lemma teleport_ok np32 (lo hi prob : f32) : leb (b_of_Z 0) prob = true -> leb prob (b_of_Z 1) = true ->
  leb lo hi = true -> is_finite lo = true -> is_finite hi = true ->
  @random_teleport_new f32 (FloatIEEE np32) (repeat (lo, hi) 3) prob = Ret (RandomTeleport (repeat (lo, hi) 3) prob (repeat (lo, hi) 3)).
Proof.
  intros A B C D E. unfold random_teleport_new. rewrite A, B. cbn [oassert obind repeat omap fst snd].
  rewrite (uniform_ok np32 lo hi C D E). reflexivity.
Qed.
Definition jump (np32 : nan_policy 24 128) (lo hi prob : f32) (x : vec) : comp U vec :=
  zoom at_rng (@random_teleport_post_move f32 (FloatIEEE np32) _ np32 (RandomTeleport (repeat (lo, hi) 3) prob (repeat (lo, hi) 3)) x).
Lemma teleport_is np32 (lo hi prob : f32) : leb (b_of_Z 0) prob = true -> leb prob (b_of_Z 1) = true ->
  leb lo hi = true -> is_finite lo = true -> is_finite hi = true ->
  teleport np32 lo hi 3 prob = Ret [jump np32 lo hi prob].
Proof. intros A B C D E. unfold teleport. rewrite (teleport_ok np32 lo hi prob A B C D E). reflexivity. Qed.

Section Swarms.
  Variables (np32 : nan_policy 24 128) (np64 : nan_policy 53 1024) (dbg : bool).
  Variables (lo hi : f32) (n : nat) (calc : swarm f32 -> particle f32 -> comp U vec) (f : vec -> outcome f64)
    (post_velocity moves : list (vec -> comp U vec)) (rs : list reason) (cs : list (stop_checker U vec))
    (answer delta : f32) (total : nat).
  Hypothesis Hlo : is_finite lo = true.
  Hypothesis Hhi : is_finite hi = true.
  Hypothesis Hlh : ltb lo hi = true.
  Hypothesis Hn : 0 < n.
  Hypothesis Hcalc : @standard_calc 24 128 _ _ np32 np32 np64 U at_rng calc.
  Hypothesis Htotal : forall x : vec, List.length x = 3 -> exists v, f x = Ret v.
  Hypothesis Hf : forall x, in_box (cube 3 lo hi) x -> exists v, f x = Ret v /\ is_finite v = true.
  Hypothesis Hpost : Forall (@standard_post_velocity 24 128 _ _ np32 U 3) post_velocity.
  Hypothesis Hmoves : Forall (@standard_post_move 24 128 _ _ np32 np32 _ U at_rng 3) moves.
  Hypothesis Hchecks : Forall2 (checks np64 dbg) rs cs.
  Hypothesis Acalc : forall G (L : lens U G) s p, separate L at_rng -> apart L (calc s p).
  Hypothesis Apost : forall G (L : lens U G) fn v, separate L at_rng -> In fn post_velocity -> apart L (fn v).
  Hypothesis Amoves : forall G (L : lens U G) fn x, separate L at_rng -> In fn moves -> apart L (fn x).
  Hypothesis Hanswer : is_finite answer = true.
  Hypothesis Hdelta : is_nan delta = false.
  Hypothesis Hruns : 2 <= total <= 1000.
  Variable creates : list (logger U vec) -> (vec -> comp U f64) -> outcome (pso_config U f32).
  Hypothesis Hcreates : forall ls g, creates ls g = create_swarm np32 np64 lo hi n 3 calc post_velocity moves cs ls g.
  Notation single fuel := (pso_single np32 creates (fun x : vec => cpure (f x) : comp U f64) fuel).
  Notation main fuel := (stat_main np32 np64 (single fuel) total answer delta).
  Lemma single_creates fuel r : single fuel r =
    pso_single np32 (create_swarm np32 np64 lo hi n 3 calc post_velocity moves cs) (fun x : vec => cpure (f x) : comp U f64) fuel r.
  Proof. unfold pso_single. rewrite Hcreates. reflexivity. Qed.
  Notation good := (good_run f (cube 3 lo hi) rs (fun i c => c = n * (i + 1))).
  Lemma swarm_reports k fuel : In (After k) rs -> k < fuel ->
    reports_all np32 np64 answer delta total good (main fuel).
  Proof.
    intros Hk Hfu. apply reports_all_of; auto.
    - intros r data r'. rewrite single_creates. apply (pso_single_good np32 np64 dbg lo hi n 3 calc f post_velocity moves rs cs); auto.
    - intros r. rewrite single_creates. apply (pso_single_ends np32 np64 dbg lo hi n 3 calc f post_velocity moves rs cs) with (k := k); auto.
  Qed.
  Lemma swarm_settled pre m d post : cs = pre ++ not_change np64 dbg m d :: post ->
    (forall c q, In c (pre ++ post) -> keeps (lget at_gnc) (c q : comp U bool)) ->
    (forall x, f x <> NoFuel) -> is_finite d = true -> ltb (b_of_Z 0) d = true ->
    exists B, forall fuel, B < fuel -> reports_all np32 np64 answer delta total good (main fuel).
  Proof.
    intros Ecs Ho Hdone Hd Hp.
    destruct (pso_single_settles np32 np64 dbg lo hi n 3 calc f post_velocity moves rs cs Hlo Hhi Hlh Hn Hcalc Htotal Hf Hpost Hmoves Hchecks
      Acalc Apost Amoves pre m d post Ecs Ho Hdone Hd Hp) as [B HB].
    exists B. intros fuel Hfu. apply reports_all_of; auto; [|intros r; rewrite single_creates; auto].
    intros r data r'. rewrite single_creates. apply (pso_single_good np32 np64 dbg lo hi n 3 calc f post_velocity moves rs cs); auto.
  Qed.
End Swarms.

Section Genetics.
  Variables (np32 : nan_policy 24 128) (np64 : nan_policy 53 1024).
  Context {LM : Libm f32}.
  Variable dbg : bool.
  Variables (lo hi : f32) (size : nat) (f : vec -> outcome f64)
    (pairing : population vec -> comp rng (list (list nat))) (prob : f64) (families : nat)
    (rs : list reason) (cs : list (stop_checker U vec)) (answer delta : f32) (total : nat).
  Hypothesis Hlo : is_finite lo = true.
  Hypothesis Hhi : is_finite hi = true.
  Hypothesis Hlh : ltb lo hi = true.
  Hypothesis Hsize : 0 < size.
  Hypothesis Hpair : @standard_pairing 24 128 U at_rng (fun p => zoom at_rng (pairing p)).
  Hypothesis Hfew : forall p r l r', length (individuals p) <= size + 1 -> pairing p r = (Ret l, r') -> length l <= families.
  Hypothesis Hf : forall x, in_box (cube 3 lo hi) x -> exists v, f x = Ret v /\ is_finite v = true.
  Hypothesis Hchecks : Forall2 (checks np64 dbg) rs cs.
  Hypothesis H0 : ~ In (After 0) rs.
  Hypothesis Hanswer : is_finite answer = true.
  Hypothesis Hdelta : is_nan delta = false.
  Hypothesis Hruns : 2 <= total <= 1000.
  Notation main fuel := (stat_main np32 np64
    (ga_single (create np32 np64 dbg lo hi size 3 pairing prob cs) (fun x : vec => cpure (f x) : comp U f64) fuel) total answer delta).
  Notation good := (good_run f (cube 3 lo hi) rs (fun i c => size <= c <= size + families * i)).
  Lemma genetic_reports k fuel : In (After k) rs -> k < fuel ->
    reports_all np32 np64 answer delta total good (main fuel).
  Proof.
    intros Hk Hfu. apply reports_all_of; auto.
    - intros r data r'. apply (ga_single_good np32 np64 dbg lo hi size 3 f pairing prob families rs cs); auto.
    - intros r. apply (ga_single_ends np32 np64 dbg lo hi size 3 f pairing prob rs cs) with (k := k); auto.
  Qed.
  Lemma genetic_ended fuel : reports_ended np32 np64 answer delta total good (main fuel).
  Proof.
    apply reports_ended_of; auto.
    intros r data r'. apply (ga_single_good np32 np64 dbg lo hi size 3 f pairing prob families rs cs); auto.
  Qed.
End Genetics.

Section Programs.
  Variables (np32 : nan_policy 24 128) (np64 : nan_policy 53 1024).
  Context {LM : Libm f32}.
  Variable dbg : bool.
  Notation schwef := (fun x => Ret (@schwefel f32 (FloatIEEE np32) LM (ToF64_32 np64) x)).
  Notation rastr := (fun x => Ret (@rastrigin f32 (FloatIEEE np32) LM (ToF64_32 np64) x)).
  Notation rosen := (@rosenbrock f32 (FloatIEEE np32) (ToF64_32 np64)).

  Ltac fin := vm_compute; reflexivity.
  Ltac after := clear; simpl; intuition discriminate.
  Ltac checking := repeat first [apply Forall2_nil|apply Forall2_cons; [first [reflexivity|eexists; reflexivity]|]].

  Lemma genetic_schwefel_reports fuel : cos_bounded (prec := 24) (emax := 128) fsin -> 3000 < fuel ->
    reports_all np32 np64 (decimal32 4209687 4) (b_of_Z 1) 1000
      (good_run schwef (int_cube 3 (-500) 500) [After 3000] (fun i c => 100 <= c <= 100 + 50 * i))
      (genetic_schwefel_statistics np32 np64 dbg fuel).
  Proof.
    intros Hsin Hfu. rewrite <- lit_420_9687.
    apply (genetic_reports np32 np64 dbg (b_of_Z (-500)) (b_of_Z 500) 100 schwef
      (tournament_pairs (set_rounds_count (tournament_new (100 / 2)) 5)) (b_of_Z 10) 50 [After 3000] [max_iterations 3000])
      with (k := 3000);
      [fin|fin|fin|lia|now apply std_tournament| |intros x Hx; apply (schwefel_box np32 np64 3); [lia|exact Hsin|exact Hx]
      |checking|after|fin|fin|lia|after|exact Hfu].
    intros p r l r' _ E. apply tournament_count in E. simpl in E. lia.
  Qed.
  Lemma genetic_rosenbrock_reports fuel :
    reports_ended np32 np64 (b_of_Z 1) (decimal32 1 2) 100
      (good_run rosen (int_cube 3 (-2) 2) [Below (decimal64 1 6); Quiet 2000] (fun i c => 700 <= c <= 700 + 350 * i))
      (genetic_rosenbrock_statistics np32 np64 dbg fuel).
  Proof.
    rewrite <- lit_1em2, <- lit_1em6.
    apply (genetic_ended np32 np64 dbg (b_of_Z (-2)) (b_of_Z 2) 700 rosen random_pairing (b_of_Z 80) 350
      [Below f64_1em6; Quiet 2000] [threshold f64_1em6; not_change np64 dbg 2000 f64_1em7]);
      [fin|fin|fin|lia|apply std_random_pairing| |apply rosenbrock_box|checking|after|fin|fin|lia].
    intros p r l r' Hp E. apply random_pairing_few with (max := 700) in E; [|exact Hp]. exact E.
  Qed.
  Lemma particleswarm_schwefel_reports fuel : cos_bounded (prec := 24) (emax := 128) fsin -> 3000 < fuel ->
    reports_all np32 np64 (decimal32 4209687 4) (b_of_Z 1) 1000
      (good_run schwef (int_cube 3 (-500) 500) [Below (decimal64 1 8); After 3000] (fun i c => c = 30 * (i + 1)))
      (particleswarm_schwefel_statistics np32 np64 fuel).
  Proof.
    intros Hsin Hfu. rewrite <- lit_420_9687, <- lit_1em8.
    destruct (canonical_ok np32 f32_3_2 (b_of_Z 1) f32_0_9) as [xi Hxi]; [fin|fin|fin|].
    apply (swarm_reports np32 np64 dbg (b_of_Z (-500)) (b_of_Z 500) 30 (calculator np32 f32_3_2 (b_of_Z 1) f32_0_9 xi) schwef
      [fun v => cret (@max_velocity_abs f32 (FloatIEEE np32) (b_of_Z 700) v)] [jump np32 (b_of_Z (-500)) (b_of_Z 500) f32_0_05]
      [Below f64_1em8; After 3000] [threshold f64_1em8; max_iterations 3000]) with (k := 3000);
      [fin|fin|fin|lia|apply std_canonical|intros x _; eexists; reflexivity|intros x Hx; apply (schwefel_box np32 np64 3); [lia|exact Hsin|exact Hx]
      |constructor; [apply std_max_abs|constructor]|constructor; [|constructor]|checking
      |intros; now apply apart_canonical|intros; eapply apart_max_abs; eauto|intros G L fn x HL [<-|[]]; now apply apart_zoom
      |fin|fin|lia| |after|exact Hfu].
    2: { intros ls g. unfold create_particleswarm_schwefel. rewrite (canonical_is np32 _ _ _ _ Hxi), (teleport_is np32 (b_of_Z (-500)) (b_of_Z 500) f32_0_05) by fin.
      reflexivity. }
    apply (std_teleport np32 np32 at_rng 3 (repeat (b_of_Z (-500), b_of_Z 500) 3) f32_0_05); [reflexivity|apply teleport_ok; fin].
  Qed.
  Lemma particleswarm_rosenbrock_reports : exists B, forall fuel, B < fuel ->
    reports_all np32 np64 (b_of_Z 1) (decimal32 1 2) 1000
      (good_run rosen (int_cube 3 (-2) 2) [Below (decimal64 1 8); Quiet 500] (fun i c => c = 20 * (i + 1)))
      (particleswarm_rosenbrock_statistics np32 np64 dbg fuel).
  Proof.
    rewrite <- lit_1em2, <- lit_1em8.
    destruct (canonical_ok np32 f32_3_4 (b_of_Z 1) f32_0_9) as [xi Hxi]; [fin|fin|fin|].
    apply (swarm_settled np32 np64 dbg (b_of_Z (-2)) (b_of_Z 2) 20 (calculator np32 f32_3_4 (b_of_Z 1) f32_0_9 xi) rosen
      [fun v => cret (@max_velocity_abs f32 (FloatIEEE np32) (b_of_Z 2) v)] [jump np32 (b_of_Z (-2)) (b_of_Z 2) (b_of_Z 0)]
      [Below f64_1em8; Quiet 500] [threshold f64_1em8; not_change np64 dbg 500 f64_1em10])
      with (pre := [threshold f64_1em8]) (m := 500) (d := f64_1em10) (post := []);
      [fin|fin|fin|lia|apply std_canonical|intros x Hx; now apply rosenbrock_total|apply rosenbrock_box
      |constructor; [apply std_max_abs|constructor]|constructor; [|constructor]|checking
      |intros; now apply apart_canonical|intros; eapply apart_max_abs; eauto|intros G L fn x HL [<-|[]]; now apply apart_zoom
      |fin|fin|lia| |reflexivity|intros c q [<-|[]] u; reflexivity| |fin|fin].
    - apply (std_teleport np32 np32 at_rng 3 (repeat (b_of_Z (-2), b_of_Z 2) 3) (b_of_Z 0)); [reflexivity|apply teleport_ok; fin].
    - intros ls g. unfold create_particleswarm_rosenbrock. rewrite (canonical_is np32 _ _ _ _ Hxi), (teleport_is np32 (b_of_Z (-2)) (b_of_Z 2) (b_of_Z 0)) by fin.
      reflexivity.
    - intros x. unfold rosenbrock, rosenbrock_g. apply oends_bind; [|intros; discriminate]. destruct (length x); [discriminate|].
      apply oends_fold. intros sum i. apply oends_bind; [apply oends_index|]. intros x1. apply oends_bind; [apply oends_index|]. discriminate.
  Qed.
  Definition full_calc (s : swarm f32) (p : particle f32) : comp U vec :=
    zoom at_rng (@negative_velocity f32 (FloatIEEE np32) np64
      (NegativeReinforcement f32_3_2 (b_of_Z 0) (b_of_Z 1) (b_of_Z 0) (b_of_Z 0) (b_of_Z 0)
        (b_div np32 (b_mul np32 (b_of_Z 2) f32_0_9)
          (b_sub np32 (b_add np32 (b_add np32 (b_add np32 f32_3_2 (b_of_Z 0)) (b_of_Z 1)) (b_of_Z 0)) (b_of_Z 2)))) s p).
  Definition inertia_calc : swarm f32 -> particle f32 -> comp U vec :=
    @inertia_velocity f32 (FloatIEEE np32) np32 _ at_rng f32_2_2 f32_0_6 (fun t => cret (const_inertia f32_0_85 t)).
  Lemma particleswarm_full_reports fuel : cos_bounded (prec := 24) (emax := 128) fsin -> 1000 < fuel ->
    reports_all np32 np64 (decimal32 4209687 4) (b_of_Z 1) 1000
      (good_run schwef (int_cube 3 (-500) 500) [Below (decimal64 1 6); Quiet 50; After 1000] (fun i c => c = 50 * (i + 1)))
      (particleswarm_schwefel_statistics_full np32 np64 dbg fuel).
  Proof.
    intros Hsin Hfu. rewrite <- lit_420_9687, <- lit_1em6.
    apply (swarm_reports np32 np64 dbg (b_of_Z (-500)) (b_of_Z 500) 50 full_calc schwef
      [fun v => cret (@max_velocity_abs f32 (FloatIEEE np32) (b_of_Z 700) v)] []
      [Below f64_1em6; Quiet 50; After 1000] [threshold f64_1em6; not_change np64 dbg 50 f64_1em8; max_iterations 1000]) with (k := 1000);
      [fin|fin|fin|lia|apply std_negative|intros x _; eexists; reflexivity|intros x Hx; apply (schwefel_box np32 np64 3); [lia|exact Hsin|exact Hx]
      |constructor; [apply std_max_abs|constructor]|constructor|checking
      |intros G L s p HL; now apply apart_zoom|intros; eapply apart_max_abs; eauto|intros G L fn x HL []
      |fin|fin|lia|intros ls g; reflexivity|after|exact Hfu].
  Qed.
  Lemma schwefel_inertia_reports fuel : cos_bounded (prec := 24) (emax := 128) fsin -> 400 < fuel ->
    reports_all np32 np64 (decimal32 4209687 4) (b_of_Z 1) 1000
      (good_run schwef (int_cube 3 (-500) 500) [Below (decimal64 1 6); Quiet 50; After 400] (fun i c => c = 50 * (i + 1)))
      (particleswarm_schwefel_statistics_inertia np32 np64 dbg fuel).
  Proof.
    intros Hsin Hfu. rewrite <- lit_420_9687, <- lit_1em6.
    apply (swarm_reports np32 np64 dbg (b_of_Z (-500)) (b_of_Z 500) 50 inertia_calc schwef
      [fun v => cret (@max_velocity_abs f32 (FloatIEEE np32) (b_of_Z 700) v)] []
      [Below f64_1em6; Quiet 50; After 400] [threshold f64_1em6; not_change np64 dbg 50 f64_1em8; max_iterations 400]) with (k := 400);
      [fin|fin|fin|lia|apply (std_inertia np32 np32 np64 at_rng f32_2_2 f32_0_6 (const_inertia f32_0_85))|intros x _; eexists; reflexivity|intros x Hx; apply (schwefel_box np32 np64 3); [lia|exact Hsin|exact Hx]
      |constructor; [apply std_max_abs|constructor]|constructor|checking
      |intros G L s p HL; apply apart_inertia; [exact HL|intros t; apply apart_ret]|intros; eapply apart_max_abs; eauto|intros G L fn x HL []
      |fin|fin|lia|intros ls g; reflexivity|after|exact Hfu].
  Qed.
  Lemma rastrigin_inertia_reports fuel : cos_bounded (prec := 24) (emax := 128) fcos -> 400 < fuel ->
    reports_all np32 np64 (b_of_Z 0) (decimal32 1 1) 1000
      (good_run rastr (cube 3 (decimal32 (-512) 2) (decimal32 512 2)) [Below (decimal64 1 6); Quiet 50; After 400] (fun i c => c = 50 * (i + 1)))
      (particleswarm_rastrigin_statistics_inertia np32 np64 dbg fuel).
  Proof.
    intros Hcos Hfu. rewrite <- lit_0_1, <- lit_1em6, <- lit_5_12, <- lit_m5_12.
    apply (swarm_reports np32 np64 dbg f32_m5_12 f32_5_12 50 inertia_calc rastr
      [fun v => cret (@max_velocity_abs f32 (FloatIEEE np32) (b_of_Z 700) v)] []
      [Below f64_1em6; Quiet 50; After 400] [threshold f64_1em6; not_change np64 dbg 50 f64_1em8; max_iterations 400]) with (k := 400);
      [fin|fin|fin|lia|apply (std_inertia np32 np32 np64 at_rng f32_2_2 f32_0_6 (const_inertia f32_0_85))|intros x _; eexists; reflexivity
      |rewrite lit_5_12, lit_m5_12; intros x Hx; apply (rastrigin_box np32 np64 3); [lia|exact Hcos|exact Hx]
      |constructor; [apply std_max_abs|constructor]|constructor|checking
      |intros G L s p HL; apply apart_inertia; [exact HL|intros t; apply apart_ret]|intros; eapply apart_max_abs; eauto|intros G L fn x HL []
      |fin|fin|lia|intros ls g; reflexivity|after|exact Hfu].
  Qed.
  (** More processors than runs. *)
  Lemma too_many fuel :
    fails_beyond 1000 (genetic_schwefel_statistics np32 np64 dbg fuel) /\
    fails_beyond 100 (genetic_rosenbrock_statistics np32 np64 dbg fuel) /\
    fails_beyond 1000 (particleswarm_schwefel_statistics np32 np64 fuel) /\
    fails_beyond 1000 (particleswarm_rosenbrock_statistics np32 np64 dbg fuel) /\
    fails_beyond 1000 (particleswarm_schwefel_statistics_full np32 np64 dbg fuel) /\
    fails_beyond 1000 (particleswarm_schwefel_statistics_inertia np32 np64 dbg fuel) /\
    fails_beyond 1000 (particleswarm_rastrigin_statistics_inertia np32 np64 dbg fuel).
  Proof. repeat split; apply fails_beyond_of; lia. Qed.
End Programs.
