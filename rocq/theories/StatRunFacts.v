(** * The programs that collect statistics: one run *)

From Coq Require Import List Arith ZArith Bool Lia.
From Verif Require Import Base Logic FloatModel Rng GaModel GaComponents PsoModel PsoComponents
  StopModel LogModel StatModel TestFuncModel ExampleModel StatProgramModel
  SpecGa SpecPso SpecRun SpecLog SpecBox SpecTotal SpecStandard SpecExample SpecBudget SpecStatProgram
  LogRuns LogFacts GaTotal PsoTotal PsoStandard GaStandard CreateFacts PostFacts ApartFacts EndsFacts FuelFacts TraceFacts SpecSettle SettleFacts BoxFacts BudgetFacts ExampleFacts StatProgramFacts.
Import ListNotations.
Local Open Scope nat_scope.

Notation U := (world run_data).
Notation vec := (list f32).

(** ** The lenses *)
Lemma statistics_ok : lens_ok at_statistics.
Proof. split; intros; try destruct u as [? ? ? [? ?]]; reflexivity. Qed.
Lemma calls_ok : lens_ok at_calls.
Proof. split; intros; try destruct u as [? ? ? [? ?]]; reflexivity. Qed.
Lemma statistics_rng : separate at_statistics (at_rng : lens U rng).
Proof. split; reflexivity. Qed.
Lemma calls_rng : separate at_calls (at_rng : lens U rng).
Proof. split; reflexivity. Qed.
Lemma statistics_gnc : separate at_statistics (at_gnc : lens U gnc).
Proof. split; reflexivity. Qed.
Lemma calls_gnc : separate at_calls (at_gnc : lens U gnc).
Proof. split; reflexivity. Qed.
Lemma statistics_calls : separate at_statistics at_calls.
Proof. split; reflexivity. Qed.
Lemma calls_statistics : separate at_calls at_statistics.
Proof. split; reflexivity. Qed.

(** A field of the environment that only statistics use. *)
Record private {G} (L : lens U G) : Prop := {
  private_rng : separate L at_rng;
  private_gnc : separate L at_gnc
}.
Lemma private_statistics : private at_statistics.
Proof. split; [exact statistics_rng|exact statistics_gnc]. Qed.
Lemma private_calls : private at_calls.
Proof. split; [exact calls_rng|exact calls_gnc]. Qed.

Lemma apart_checks {G} (L : lens U G) np64 dbg r c q : private L -> checks np64 dbg r c -> apart L (c q).
Proof.
  intros HL H. destruct r as [t|n|k]; simpl in H.
  - subst c. apply apart_ret.
  - destruct H as [delta ->]. unfold not_change. apply apart_zoom. apply HL.
  - subst c. apply apart_ret.
Qed.
Lemma apart_any {G} (L : lens U G) np64 dbg rs cs q : private L -> Forall2 (checks np64 dbg) rs cs -> apart L (composite_any cs q).
Proof.
  intros HL H. induction H as [|r c rs cs Hc H IH]; cbn [composite_any]; [apply apart_ret|].
  apply apart_bind; [eapply apart_checks; eauto|]. intros [|]; [apply apart_ret|exact IH].
Qed.

Lemma no_logging : logging_fits (fun _ => True) (world_ok (W := run_data) false) [@no_logger U vec].
Proof.
  assert (H : forall ph i k q l, In l [@no_logger U vec] -> returns (world_ok (W := run_data) false ph i) (told_by k l q)).
  { intros ph i k q l [<-|[]] u Hu. destruct k; (eexists _, _; split; [reflexivity|]; auto). }
  constructor; intros; try (now apply H).
  exists u. split; [reflexivity|]. destruct H1 as [A _]. split; [exact A|discriminate].
Qed.

Lemma all_some {A} (l : list (option A)) : (forall o, In o l -> o <> None) -> exists vs, l = map Some vs.
Proof.
  induction l as [|o l IH]; intros H; [exists []; reflexivity|].
  destruct o as [a|]; [|exfalso; apply (H None); simpl; auto].
  destruct IH as [vs ->]; [intros o Ho; apply H; simpl; auto|]. exists (a :: vs). reflexivity.
Qed.
Lemma consulted_in {T S X} (t : list (event T S X)) q : In q (consulted t) -> exists b, In (EStop q b) t.
Proof.
  induction t as [|e t IH]; simpl; [tauto|]. destruct e; simpl; try (intros Hi; destruct (IH Hi) as [b' H]; eauto).
  intros [->|Hi]; [eauto|]. destruct (IH Hi) as [b' H]. eauto.
Qed.

(** ** Genetic runs *)
Section Genetic.
  Variables (np32 : nan_policy 24 128) (np64 : nan_policy 53 1024).
  Context {LM : Libm f32}.
  Variable dbg : bool.
  Variables (lo hi : f32) (size d : nat) (f : vec -> outcome f64)
    (pairing : population vec -> comp rng (list (list nat))) (prob : f64) (families : nat)
    (rs : list reason) (cs : list (stop_checker U vec)).
  Notation box := (cube d lo hi).
  Notation goal := (fun x : vec => cpure (f x) : comp U f64).
  Notation stop := (composite_any cs).
  Definition create := (fun ls g => @ga_program run_data np32 np64 LM dbg lo hi size d g pairing prob (Ret (composite_any cs)) ls).

  Hypothesis Hlo : is_finite lo = true.
  Hypothesis Hhi : is_finite hi = true.
  Hypothesis Hlh : ltb lo hi = true.
  Hypothesis Hsize : 0 < size.
  Hypothesis Hd : 0 < d.
  Hypothesis Hpair : @standard_pairing 24 128 U at_rng (fun p => zoom at_rng (pairing p)).
  Hypothesis Hfew : forall p r l r', length (individuals p) <= size + 1 -> pairing p r = (Ret l, r') -> length l <= families.
  Hypothesis Hf : forall x, in_box box x -> exists v, f x = Ret v /\ is_finite v = true.
  Hypothesis Hchecks : Forall2 (checks np64 dbg) rs cs.
  Hypothesis H0 : ~ In (After 0) rs.

  Definition config (g : vec -> comp U f64) (ls : list (logger U vec)) : ga_config U vec :=
    ga_set_loggers
      (ga_new g stop (zoom at_rng (@random_create f32 (NumGene32 np64 np32) np64 (RandomCreator size box)))
         (fun p => zoom at_rng (pairing p))
         (vec_cross_all_genes (fun parents => zoom at_rng (@float_cross_exp f32 (FloatIEEE np32) LM _ dbg parents)))
         (vec_mutation np64 at_rng prob (fun gene => zoom at_rng (bitwise_mutation32 3 gene)))
         [fun p => cret (kill_fitness_nan p); fun p => cpure (limit_population size p)]
         [fun p xs => cpure (@pre_birth_interval f32 (FloatIEEE np32) box p xs)]) ls.
  Lemma create_is g ls : create ls g = Ret (config g ls).
  Proof.
    unfold create, ga_program, Gene32, Float32. fold (cube d lo hi).
    assert (Ec : @random_creator_new f32 (NumGene32 np64 np32) size box = Ret (RandomCreator size box)).
    { apply new_creator; [exact Hsize|exact (cube_some lo hi size d f Hsize Hd Hf)|]. intros i Hi. apply (cube_good lo hi d Hlo Hhi Hlh). now destruct i. }
    rewrite Ec. reflexivity.
  Qed.

  Lemma config_apart {G} (L : lens U G) i g ls : private L -> (forall x, apart L (g x)) ->
    (forall j l k s, nth_error ls j = Some l -> j <> i -> apart L (told_by k l s)) -> ga_others_apart i L (config g ls).
  Proof.
    intros HL Hg Hls. unfold ga_others_apart, config. simpl.
    split; [exact Hg|]. split; [intros s; eapply apart_any; eauto|]. split; [apply apart_zoom, HL|].
    split; [intros p; apply apart_zoom, HL|]. split; [intros xs; apply apart_cross; intros ys; apply apart_zoom, HL|].
    split; [intros x; apply apart_mutation; [apply HL|]; intros y; apply apart_zoom, HL|].
    split; [intros fn p [<-|[<-|[]]]; [apply apart_ret|apply apart_pure]|].
    split; [intros fn p xs [<-|[]]; apply apart_pure|exact Hls].
  Qed.
  Notation full := (config (counted_goal goal) [stat_logger]).
  Notation quiet := (config goal [no_logger]).
  Lemma stat_apart i : ga_others_apart i at_calls (config goal [stat_logger]).
  Proof.
    apply config_apart; [exact private_calls|intros x; apply apart_pure|].
    intros [|[|j]] l k s E _; try discriminate E. injection E as <-. destruct k; apply apart_zoom, calls_statistics.
  Qed.
  Lemma full_apart : ga_others_apart 0 at_statistics full.
  Proof.
    apply config_apart; [exact private_statistics| |].
    - intros x. unfold counted_goal, goal_calc_statistics. apply apart_bind; [apply apart_zoom, statistics_calls|].
      intros _. apply apart_pure.
    - intros [|[|j]] l k s E Hj; try discriminate E. contradiction.
  Qed.

  (** Collecting changes neither the outcome nor the events. *)
  Lemma ga_quiet fuel p u : fst (fst (ga_find_min full fuel p u)) = fst (fst (ga_find_min quiet fuel p u)) /\
    snd (ga_find_min full fuel p u) = snd (ga_find_min quiet fuel p u).
  Proof.
    pose proof (proj1 (ga_count_undisturbed at_calls calls_ok (config goal [stat_logger]) fuel p u (stat_apart _))) as A.
    assert (B : alike at_statistics (ga_find_min (config goal [stat_logger]) fuel p u) (ga_find_min quiet fuel p u)).
    { apply (ga_statistics_undisturbed at_statistics 0 (config goal [stat_logger]) fuel p u statistics_ok eq_refl).
      apply config_apart; [exact private_statistics|intros x; apply apart_pure|].
      intros [|[|j]] l k s E Hj; try discriminate E. contradiction. }
    apply alike_outcome in A. apply alike_outcome in B. destruct A as [A1 A2], B as [B1 B2].
    change (ga_with_goal (config goal [stat_logger]) (goal_calc_statistics at_calls (ga_goal (config goal [stat_logger]))))
      with full in A1, A2. split; [now rewrite A1|now rewrite A2].
  Qed.

  Notation single := (ga_single create goal).
  Notation start r := (World r gnc_new None ((statistics_new, ccd_new) : run_data)).
  Lemma single_is fuel r : single fuel r =
    let '(o, u, _) := ga_find_min full fuel pop_new (start r) in (let! _ := o in Ret (w_rest u), w_rng u).
  Proof. unfold ga_single. rewrite create_is. reflexivity. Qed.
  Lemma quiet_is fuel r w : ga_main (create [no_logger] goal) fuel r w = ga_find_min quiet fuel pop_new (World r gnc_new None w).
  Proof. now rewrite create_is. Qed.
  Notation checked := (fun q => any_reasons np64 dbg false rs cs q Hchecks).

  Lemma full_economy : ga_economy (fun k => k <= size + 1) size families 1 full.
  Proof.
    apply (@limited_economy U f32 (FloatIEEE np32) at_rng size box full) with (earlier := [fun p => cret (kill_fitness_nan p)]) (pairing := pairing);
      try reflexivity; try exact Hfew; try lia.
    - intros u xs u' E. apply zoomed in E. destruct E as [g' E].
      assert (Ec : @random_creator_new f32 (NumGene32 np64 np32) size box = Ret (RandomCreator size box)).
      { apply new_creator; [exact Hsize|exact (cube_some lo hi size d f Hsize Hd Hf)|]. intros i Hi. apply (cube_good lo hi d Hlo Hhi Hlh). now destruct i. }
      destruct (random_creator_f32 np64 np32 size box _ (lget at_rng u) Ec) as [vs [Ev [Lv _]]].
      { intros i Hi. apply repeat_spec in Hi. subst i. auto. }
      rewrite E in Ev. injection Ev as <- _. exact Lv.
    - eexists. reflexivity.
    - intros fn [<-|[]]. reflexivity.
  Qed.

  Definition ga_calls (i c : nat) : Prop := size <= c <= size + families * i.
  Theorem ga_single_good fuel r data r' : single fuel r = (Ret data, r') ->
    exists run, good_run f box rs ga_calls run /\ data = data_of [run].
  Proof.
    rewrite single_is. destruct (ga_find_min full fuel pop_new (start r)) as [[o u'] t] eqn:E.
    destruct o as [[res p']| |]; cbn [obind]; intros H; try discriminate H. injection H as <- _.
    destruct (ga_quiet fuel pop_new (start r)) as [Q1 Q2]. rewrite E in Q1, Q2.
    destruct (ga_find_min quiet fuel pop_new (start r)) as [[o' u2] t'] eqn:Eq. simpl in Q1, Q2. subst o' t'.
    assert (Em : ga_main (create [no_logger] goal) fuel r (statistics_new, ccd_new) = (Ret (res, p'), u2, t)) by (rewrite quiet_is; exact Eq).
    destruct (ga_main_result np32 np64 dbg false lo hi size d f pairing prob rs stop [no_logger] Hlo Hhi Hlh Hsize Hd Hpair Hf
      checked no_logging fuel r _ res p' u2 t H0 Em) as [x [v [-> [Hs [Hi Hb]]]]].
    assert (Hmost : forall k, In (After k) rs -> iteration p' <= k).
    { intros k Hk. destruct (ga_main_ends np32 np64 dbg false lo hi size d f pairing prob rs stop [no_logger] Hlo Hhi Hlh Hsize Hd Hpair Hf
        checked no_logging k (fuel + k + 1) r (statistics_new, ccd_new) Hk H0 ltac:(lia)) as [x' [v' [p2 [u3 [t3 [E3 [_ [Hle _]]]]]]]].
      change (ga_main (create [no_logger] goal) (fuel + k + 1) r (statistics_new, ccd_new) = (Ret (Some (x', v'), p2), u3, t3)) in E3. rewrite quiet_is in E3.
      destruct (ga_find_grows quiet fuel (fuel + k + 1) pop_new ltac:(lia) (start r)) as [Hgr _].
      rewrite Eq in Hgr. rewrite E3 in Hgr. specialize (Hgr ltac:(discriminate)). injection Hgr as _ _ -> _ _. lia. }
    destruct (ga_statistics_find at_statistics 0 full fuel pop_new (start r) _ _ _ _ statistics_ok eq_refl
      (apart_keeps_ga _ _ _ full_apart) E) as [S1 [S2 S3]].
    destruct (ga_count_calls at_calls calls_ok (config goal [stat_logger]) fuel pop_new (start r) _ _ _ _ (stat_apart _) (or_introl E)) as [C1 C2].
    destruct (find_budget _ _ _ _ full full_economy fuel pop_new (start r) _ _ _ _ E) as [B _].
    destruct (ga_find_told 0 full fuel pop_new (start r) _ _ _ _ ltac:(simpl; lia) E) as [q [ms [M1 [_ [M2 M3]]]]].
    (* every recorded state has a best individual *)
    assert (Hseen : Forall (population_seen (in_box box) (fun v : f64 => is_finite v = true)) t).
    { destruct (ga_program_fits np32 np64 dbg false lo hi size d f pairing prob rs stop [no_logger] Hlo Hhi Hlh Hsize Hd Hpair Hf
        checked no_logging) as [cfg [Ec [Hfit _]]].
      change (create [no_logger] goal = Ret cfg) in Ec. rewrite create_is in Ec. injection Ec as <-.
      pose proof (ga_find_seen _ _ _ _ _ _ _ fuel pop_new (start r) Hfit (world_new false r _)) as Hse.
      change (Forall (population_seen (in_box box) (fun v : f64 => is_finite v = true)) (snd (ga_find_min quiet fuel pop_new (start r)))) in Hse.
      rewrite Eq in Hse. exact Hse. }
    assert (Hrow : exists row, bests pop_view (tl (consulted t)) = map Some row).
    { apply all_some. intros o Ho. unfold bests in Ho. apply in_map_iff in Ho. destruct Ho as [m [<- Hm]].
      assert (Hit : 1 <= iteration m).
      { assert (Hs' : In (iteration m) (seq 1 (iteration p'))) by (rewrite <- S3; apply in_map_iff; eauto). apply in_seq in Hs'. lia. }
      assert (Hc : In m (consulted t)) by (destruct (consulted t); [destruct Hm|right; exact Hm]).
      destruct (consulted_in t m Hc) as [b Hb']. rewrite Forall_forall in Hseen. destruct (Hseen _ Hb') as [_ Hse].
      unfold settled_best in Hse. simpl.
      change (match best_individual m with None => iteration m = 0 | Some b => iteration m <> 0 /\ individual_fits (in_box box) (fun v : f64 => is_finite v = true) b end) in Hse.
      destruct (best_individual m); [discriminate|]. exfalso. clear - Hit Hse. rewrite Hse in Hit. inversion Hit. }
    destruct Hrow as [row Hrow].
    assert (Lrow : length row = iteration p').
    { rewrite <- (map_length Some row), <- Hrow. unfold bests. rewrite map_length, <- (map_length (fun q => iteration q)), S3. apply seq_length. }
    exists (StatRun (x, v) row (length (evals t))). split.
    - split; [exact Hs|]. cbn [sr_row sr_point sr_calls]. rewrite Lrow. split; [exact Hb|]. split; [exact Hmost|]. split.
      + rewrite M1 in Hrow. simpl in Hrow.
        assert (Hl : last (map (fun s => as_best (pop_view s)) ms) (Some (x, v)) = Some (x, v)).
        { destruct ms as [|m ms _] using rev_ind; [reflexivity|]. rewrite map_app. simpl. rewrite last_last.
          rewrite last_last in M2. subst m. symmetry. exact M3. }
        unfold bests in Hrow. rewrite Hrow in Hl. clear - Hl. induction row as [|a [|b row] IH]; simpl in *; [reflexivity|congruence|auto].
      + unfold ga_calls. lia.
    - unfold data_of. cbn [map sr_point sr_row sr_calls]. rewrite <- Hrow.
      rewrite C2 in C1. change (lget at_calls (start r)) with (@nil nat) in C1.
      assert (Hpos : counted (length (evals t)) [] = [length (evals t)]).
      { destruct (length (evals t)) eqn:El; [lia|]. reflexivity. }
      rewrite Hpos in C1. simpl in S1, S2, C1. destruct u' as [ur ug us [[ures uconv] ucalls]]. simpl in *. subst. reflexivity.
  Qed.
  Theorem ga_single_never_panics fuel r : fst (single fuel r) <> Panic.
  Proof.
    rewrite single_is. pose proof (proj1 (ga_quiet fuel pop_new (start r))) as Q.
    pose proof (ga_main_never_panics np32 np64 dbg false lo hi size d f pairing prob rs stop [no_logger] Hlo Hhi Hlh Hsize Hd Hpair Hf
      checked no_logging fuel r (statistics_new, ccd_new)) as N.
    change (fst (fst (ga_main (create [no_logger] goal) fuel r (statistics_new, ccd_new))) <> Panic) in N. rewrite quiet_is in N.
    rewrite <- Q in N. destruct (ga_find_min full fuel pop_new (start r)) as [[[a| |] u'] t]; simpl in *; congruence.
  Qed.
  Theorem ga_single_ends k fuel r : In (After k) rs -> k < fuel -> exists data r', single fuel r = (Ret data, r').
  Proof.
    intros Hk Hfu. rewrite single_is. pose proof (proj1 (ga_quiet fuel pop_new (start r))) as Q.
    destruct (ga_main_ends np32 np64 dbg false lo hi size d f pairing prob rs stop [no_logger] Hlo Hhi Hlh Hsize Hd Hpair Hf
      checked no_logging k fuel r (statistics_new, ccd_new) Hk H0 Hfu) as [x [v [p' [u' [t [E _]]]]]].
    change (ga_main (create [no_logger] goal) fuel r (statistics_new, ccd_new) = (Ret (Some (x, v), p'), u', t)) in E. rewrite quiet_is in E.
    rewrite E in Q. destruct (ga_find_min full fuel pop_new (start r)) as [[[a| |] u2] t2]; simpl in *; try discriminate. eauto.
  Qed.
End Genetic.

Lemma ends_checks np64 dbg r c q : checks np64 dbg r c -> ends (c q : comp U bool).
Proof.
  intros H. destruct r as [t|n|k]; simpl in H; [subst c; apply ends_ret| |subst c; apply ends_ret].
  destruct H as [delta ->]. unfold not_change. apply ends_zoom. intros g. unfold goal_not_change.
  destruct (as_best q) as [[x v]|]; [|discriminate]. cbn zeta.
  assert (K : forall a b, usize_sub dbg a b <> NoFuel).
  { intros a b. unfold usize_sub. destruct (b <=? a)%Z; [|destruct dbg]; discriminate. }
  match goal with |- context [usize_sub dbg ?a ?b] => specialize (K a b); destruct (usize_sub dbg a b) end; try discriminate.
  now destruct K.
Qed.

(** ** Swarm runs *)
Section Swarm.
  Variables (np32 : nan_policy 24 128) (np64 : nan_policy 53 1024) (dbg : bool).
  Variables (lo hi : f32) (n d : nat) (calc : swarm f32 -> particle f32 -> comp U vec) (f : vec -> outcome f64)
    (post_velocity moves : list (vec -> comp U vec)) (rs : list reason) (cs : list (stop_checker U vec)).
  Notation box := (cube d lo hi).
  Notation goal := (fun x : vec => cpure (f x) : comp U f64).
  Notation stop := (composite_any cs).
  Notation find := (@pso_find_min U f32 (FloatIEEE np32)).
  Definition create_swarm := (fun ls g => @pso_program run_data np32 np64 lo hi n d (Ret calc) g post_velocity (Ret moves) (Ret (composite_any cs)) ls).

  Hypothesis Hlo : is_finite lo = true.
  Hypothesis Hhi : is_finite hi = true.
  Hypothesis Hlh : ltb lo hi = true.
  Hypothesis Hn : 0 < n.
  Hypothesis Hcalc : @standard_calc 24 128 _ _ np32 np32 np64 U at_rng calc.
  Hypothesis Htotal : forall x : vec, List.length x = d -> exists v, f x = Ret v.
  Hypothesis Hf : forall x, in_box box x -> exists v, f x = Ret v /\ is_finite v = true.
  Hypothesis Hpost : Forall (@standard_post_velocity 24 128 _ _ np32 U d) post_velocity.
  Hypothesis Hmoves : Forall (@standard_post_move 24 128 _ _ np32 np32 _ U at_rng d) moves.
  Hypothesis Hchecks : Forall2 (checks np64 dbg) rs cs.
  Hypothesis Acalc : forall G (L : lens U G) s p, separate L at_rng -> apart L (calc s p).
  Hypothesis Apost : forall G (L : lens U G) fn v, separate L at_rng -> In fn post_velocity -> apart L (fn v).
  Hypothesis Amoves : forall G (L : lens U G) fn x, separate L at_rng -> In fn moves -> apart L (fn x).

  Definition swarm_config (g : vec -> comp U f64) (ls : list (logger U vec)) : pso_config U f32 :=
    pso_set_post_velocity_calc
      (pso_set_post_moves
         (pso_set_loggers
            (pso_new g stop (zoom at_rng (@random_vectors f32 (NumGene32 np64 np32) np64 box n))
               (cret (@zero_velocities f32 (FloatIEEE np32) d n)) calc) ls)
         (moves ++ [fun x => cpure (@move_to_boundary f32 (FloatIEEE np32) box x)])) post_velocity.
  Lemma create_swarm_is g ls : create_swarm ls g = Ret (swarm_config g ls).
  Proof. reflexivity. Qed.

  Lemma swarm_apart {G} (L : lens U G) i g ls : private L -> (forall x, apart L (g x)) ->
    (forall j l k s, nth_error ls j = Some l -> j <> i -> apart L (told_by k l s)) -> pso_others_apart i L (swarm_config g ls).
  Proof.
    intros HL Hg Hls. unfold pso_others_apart, swarm_config. simpl.
    split; [exact Hg|]. split; [intros s; eapply apart_any; eauto|]. split; [apply apart_zoom, HL|].
    split; [apply apart_ret|]. split; [intros s p; apply Acalc, HL|]. split; [intros fn v Hi; apply Apost; [apply HL|exact Hi]|].
    split; [|exact Hls]. intros fn x Hi. apply in_app_or in Hi. destruct Hi as [Hi|[<-|[]]]; [apply Amoves; [apply HL|exact Hi]|apply apart_pure].
  Qed.
  Notation full := (swarm_config (counted_goal goal) [stat_logger]).
  Notation quiet := (swarm_config goal [no_logger]).
  Lemma swarm_stat_apart i : pso_others_apart i at_calls (swarm_config goal [stat_logger]).
  Proof.
    apply swarm_apart; [exact private_calls|intros x; apply apart_pure|].
    intros [|[|j]] l k s E _; try discriminate E. injection E as <-. destruct k; apply apart_zoom, calls_statistics.
  Qed.
  Lemma swarm_full_apart : pso_others_apart 0 at_statistics full.
  Proof.
    apply swarm_apart; [exact private_statistics| |].
    - intros x. unfold counted_goal, goal_calc_statistics. apply apart_bind; [apply apart_zoom, statistics_calls|].
      intros _. apply apart_pure.
    - intros [|[|j]] l k s E Hj; try discriminate E. contradiction.
  Qed.
  Lemma pso_quiet fuel s u : fst (fst (find full fuel s u)) = fst (fst (find quiet fuel s u)) /\
    snd (find full fuel s u) = snd (find quiet fuel s u).
  Proof.
    pose proof (proj1 (@pso_count_undisturbed U f32 (FloatIEEE np32) at_calls calls_ok (swarm_config goal [stat_logger]) fuel s u (swarm_stat_apart _))) as A.
    assert (B : alike at_statistics (find (swarm_config goal [stat_logger]) fuel s u) (find quiet fuel s u)).
    { apply (@pso_statistics_undisturbed U f32 (FloatIEEE np32) at_statistics 0 (swarm_config goal [stat_logger]) fuel s u statistics_ok eq_refl).
      apply swarm_apart; [exact private_statistics|intros x; apply apart_pure|].
      intros [|[|j]] l k q E Hj; try discriminate E. contradiction. }
    apply alike_outcome in A. apply alike_outcome in B. destruct A as [A1 A2], B as [B1 B2].
    change (pso_with_goal (swarm_config goal [stat_logger]) (goal_calc_statistics at_calls (pso_goal (swarm_config goal [stat_logger]))))
      with full in A1, A2. split; [now rewrite A1|now rewrite A2].
  Qed.

  Notation single := (pso_single np32 create_swarm goal).
  Notation start r := (World r gnc_new None ((statistics_new, ccd_new) : run_data)).
  Lemma pso_single_is fuel r : single fuel r =
    let '(o, u, _) := find full fuel swarm_new (start r) in (let! _ := o in Ret (w_rest u), w_rng u).
  Proof. reflexivity. Qed.
  Notation checked := (fun q => any_reasons np64 dbg false rs cs q Hchecks).

  (** The particles evaluate the goal at the start and in every iteration. *)
  Definition pso_calls (i c : nat) : Prop := c = n * (i + 1).
  Theorem pso_single_good fuel r data r' : single fuel r = (Ret data, r') ->
    exists run, good_run f box rs pso_calls run /\ data = data_of [run].
  Proof.
    rewrite pso_single_is. destruct (find full fuel swarm_new (start r)) as [[o u'] t] eqn:E.
    destruct o as [[res s']| |]; cbn [obind]; intros H; try discriminate H. injection H as <- _.
    destruct (pso_quiet fuel swarm_new (start r)) as [Q1 Q2]. rewrite E in Q1, Q2.
    destruct (find quiet fuel swarm_new (start r)) as [[o' u2] t'] eqn:Eq. simpl in Q1, Q2. subst o' t'.
    destruct (pso_main_result np32 np64 false lo hi n d calc f post_velocity moves rs stop [no_logger] Hlo Hhi Hlh Hn Hcalc Htotal Hf Hpost Hmoves
      checked no_logging fuel r _ res s' u2 t Eq) as [x [v [-> [Hs Hb]]]].
    assert (Hmost : forall k, In (After k) rs -> sw_iteration s' <= k).
    { intros k Hk. destruct (pso_main_ends np32 np64 false lo hi n d calc f post_velocity moves rs stop [no_logger] Hlo Hhi Hlh Hn Hcalc Htotal Hf Hpost Hmoves
        checked no_logging k (fuel + k + 1) r (statistics_new, ccd_new) Hk ltac:(lia)) as [x' [v' [s2 [u3 [t3 [E3 [_ [Hle _]]]]]]]].
      change (find quiet (fuel + k + 1) swarm_new (start r) = (Ret (Some (x', v'), s2), u3, t3)) in E3.
      destruct (@pso_find_grows U f32 (FloatIEEE np32) quiet fuel (fuel + k + 1) swarm_new ltac:(lia) (start r)) as [Hgr _].
      rewrite Eq in Hgr. rewrite E3 in Hgr. specialize (Hgr ltac:(discriminate)). injection Hgr as _ _ -> _ _. lia. }
    destruct (@pso_statistics_find U f32 (FloatIEEE np32) at_statistics 0 full fuel swarm_new (start r) _ _ _ _ statistics_ok eq_refl
      (apart_keeps_pso _ _ _ swarm_full_apart) E) as [S1 [S2 S3]].
    pose proof (@pso_counted_find U f32 (FloatIEEE np32) at_calls calls_ok (swarm_config goal [stat_logger]) fuel swarm_new (start r) _ _ _ _ (swarm_stat_apart _) E) as C1.
    destruct (@pso_find_told U f32 (FloatIEEE np32) 0 full fuel swarm_new (start r) _ _ _ _ ltac:(simpl; lia) E) as [q [ms [M1 [_ [M2 M3]]]]].
    destruct (pso_program_fits np32 np64 false lo hi n d calc f post_velocity moves rs stop [no_logger] Hlo Hhi Hlh Hcalc Htotal Hpost Hmoves
        checked no_logging) as [cfg [Ec [Hfit _]]].
    change (create_swarm [no_logger] goal = Ret cfg) in Ec. rewrite create_swarm_is in Ec. injection Ec as <-.
    assert (Hseen : Forall (swarm_seen d n) t).
    { pose proof (@pso_find_seen U f32 (FloatIEEE np32) _ _ _ _ _ fuel swarm_new (start r) Hfit (world_new false r _)) as Hse.
      change (Forall (swarm_seen d n) (snd (find quiet fuel swarm_new (start r)))) in Hse. rewrite Eq in Hse. exact Hse. }
    assert (Ln : length (particles s') = n).
    { destruct (@pso_find_fits U f32 (FloatIEEE np32) _ _ _ _ _ fuel swarm_new (start r) _ _ _ _ Hfit (world_new false r _) Eq) as [_ [Ln _]]. exact Ln. }
    rewrite Ln in C1.
    assert (Hrow : exists row, bests swarm_view (tl (consulted t)) = map Some row).
    { apply all_some. intros o Ho. unfold bests in Ho. apply in_map_iff in Ho. destruct Ho as [m [<- Hm]].
      assert (Hc : In m (consulted t)) by (destruct (consulted t); [destruct Hm|right; exact Hm]).
      destruct (consulted_in t m Hc) as [b Hb']. rewrite Forall_forall in Hseen. destruct (Hseen _ Hb' m eq_refl) as [[_ [_ [_ [K _]]]] Lm].
      simpl. destruct (best_particle m) eqn:Em; [discriminate|]. exfalso. rewrite (proj2 K eq_refl) in Lm. simpl in Lm. lia. }
    destruct Hrow as [row Hrow].
    assert (Lrow : length row = sw_iteration s').
    { rewrite <- (map_length Some row), <- Hrow. unfold bests. rewrite map_length, <- (map_length (fun q => sw_iteration q)), S3. apply seq_length. }
    exists (StatRun (x, v) row (n * (sw_iteration s' + 1))). split.
    - split; [exact Hs|]. cbn [sr_row sr_point sr_calls]. rewrite Lrow. split; [exact Hb|]. split; [exact Hmost|]. split; [|reflexivity].
      rewrite M1 in Hrow. simpl in Hrow.
      assert (Hl : last (map (fun s => as_best (swarm_view s)) ms) (Some (x, v)) = Some (x, v)).
      { destruct ms as [|m ms _] using rev_ind; [reflexivity|]. rewrite map_app. simpl. rewrite last_last.
        rewrite last_last in M2. subst m. symmetry. exact M3. }
      unfold bests in Hrow. rewrite Hrow in Hl. clear - Hl. induction row as [|a [|b row] IH]; simpl in *; [reflexivity|congruence|auto].
    - unfold data_of. cbn [map sr_point sr_row sr_calls]. rewrite <- Hrow.
      change (lget at_calls (start r)) with (@nil nat) in C1.
      assert (Hpos : counted (n * (sw_iteration s' + 1)) [] = [n * (sw_iteration s' + 1)]).
      { destruct (n * (sw_iteration s' + 1)) eqn:El; [nia|]. reflexivity. }
      rewrite Hpos in C1. simpl in S1, S2, C1. destruct u' as [ur ug us [[ures uconv] ucalls]]. simpl in *. subst. reflexivity.
  Qed.
  Theorem pso_single_never_panics fuel r : fst (single fuel r) <> Panic.
  Proof.
    rewrite pso_single_is. pose proof (proj1 (pso_quiet fuel swarm_new (start r))) as Q.
    pose proof (pso_main_never_panics np32 np64 false lo hi n d calc f post_velocity moves rs stop [no_logger] Hlo Hhi Hlh Hcalc Htotal Hpost Hmoves
      checked no_logging fuel r (statistics_new, ccd_new)) as N.
    change (fst (fst (find quiet fuel swarm_new (start r))) <> Panic) in N.
    rewrite <- Q in N. destruct (find full fuel swarm_new (start r)) as [[[a| |] u'] t]; simpl in *; congruence.
  Qed.
  Theorem pso_single_ends k fuel r : In (After k) rs -> k < fuel -> exists data r', single fuel r = (Ret data, r').
  Proof.
    intros Hk Hfu. rewrite pso_single_is. pose proof (proj1 (pso_quiet fuel swarm_new (start r))) as Q.
    destruct (pso_main_ends np32 np64 false lo hi n d calc f post_velocity moves rs stop [no_logger] Hlo Hhi Hlh Hn Hcalc Htotal Hf Hpost Hmoves
      checked no_logging k fuel r (statistics_new, ccd_new) Hk Hfu) as [x [v [p' [u' [t [E _]]]]]].
    change (find quiet fuel swarm_new (start r) = (Ret (Some (x, v), p'), u', t)) in E.
    rewrite E in Q. destruct (find full fuel swarm_new (start r)) as [[[a| |] u2] t2]; simpl in *; try discriminate. eauto.
  Qed.

  (** The goal changes by [delta] only so often. *)
  Theorem pso_single_settles pre m delta post : cs = pre ++ not_change np64 dbg m delta :: post ->
    (forall c q, In c (pre ++ post) -> keeps (lget at_gnc) (c q : comp U bool)) ->
    (forall x, f x <> NoFuel) -> is_finite delta = true -> ltb (b_of_Z 0) delta = true ->
    exists B, forall fuel r, B < fuel -> exists data r', single fuel r = (Ret data, r').
  Proof.
    intros Ecs Hothers Hdone Hd Hp. destruct (pso_settles_finite m delta Hd Hp) as [B HB]. exists B. intros fuel r Hfu.
    pose proof (pso_single_never_panics fuel r) as N. rewrite pso_single_is in N |- *.
    pose proof (proj1 (pso_quiet fuel swarm_new (start r))) as Q.
    destruct (find quiet fuel swarm_new (start r)) as [[o u'] t] eqn:E.
    assert (Hend : o <> NoFuel).
    { apply (HB np64 dbg U f32 (FloatIEEE np32) at_gnc quiet fuel swarm_new (start r) o u' t); try exact E; try exact Hfu; try reflexivity.
      - assert (HL : separate at_gnc (at_rng : lens U rng)) by (split; reflexivity). unfold pso_keeps, swarm_config. simpl.
        split; [intros x u; reflexivity|]. split; [apply (proj1 (apart_zoom _ _ _ HL))|]. split; [intros u; reflexivity|].
        split; [intros s p; apply (Acalc _ _ s p HL)|]. split; [intros fn v Hi; apply (Apost _ _ fn v HL Hi)|].
        split; [|intros l k s [<-|[]] u; destruct k; reflexivity].
        intros fn x Hi. apply in_app_or in Hi. destruct Hi as [Hi|[<-|[]]]; [apply (Amoves _ _ fn x HL Hi)|intros u; reflexivity].
      - unfold pso_ends, swarm_config. simpl. rewrite Forall_forall in Hpost, Hmoves.
        split; [|split; [apply ends_zoom, ends_vectors32|split; [apply ends_ret|split; [intros s p; exact (standard_calc_ends _ _ _ _ _ _ _ Hcalc)|split]]]].
        + intros x u. apply Hdone.
        + intros fn v Hi. exact (standard_post_velocity_ends _ _ _ _ (Hpost fn Hi)).
        + split; [|intros l k s [<-|[]]; destruct k; apply ends_ret].
          intros fn x Hi. apply in_app_or in Hi. destruct Hi as [Hi|[<-|[]]]; [|apply ends_boundary].
          exact (standard_post_move_ends _ _ _ _ _ _ (Hmoves fn Hi)).
      - intros q. unfold swarm_config. simpl. clear - Hchecks. induction Hchecks as [|rs0 c rs1 cs1 Hc _ IH]; cbn [composite_any]; [apply ends_ret|].
        apply ends_bind; [eapply ends_checks; eauto|]. intros [|]; [apply ends_ret|apply IH; now inversion Hchecks].
      - unfold swarm_config. simpl. rewrite Ecs. apply any_no_later; [|intros c Hc q; now apply Hothers].
        apply zoom_no_later. split; intros; try destruct u as [? ? ? ?]; reflexivity.
      - intros w coords w' Ew. change (zoom at_rng (@random_vectors f32 (NumGene32 np64 np32) np64 box n) w = (Ret coords, w')) in Ew.
        apply zoomed in Ew. destruct Ew as [g' Ew].
        destruct (random_vectors_f32 np64 np32 box n (lget at_rng w)) as [vs [Ev [Lv _]]].
        { intros a b Hi. apply repeat_spec in Hi. injection Hi as -> ->. auto. }
        rewrite Ew in Ev. injection Ev as <- _. intros ->. simpl in Lv. lia.
      - intros x v Hv. destruct (pso_values_evaluated quiet fuel swarm_new (start r) o u' t E x v Hv) as [Hx [u1 [u2 Eg]]].
        assert (Hb : in_box box x).
        { destruct (pso_in_box np32 box (in_swarm np32 lo hi d f) swarm_new [] quiet fuel (start r) o u' t) as [Hb _].
          - apply good_intervals_box32. apply swarm_good; auto.
          - intros c Hc. apply Hc.
          - apply pso_reach_new.
          - split; [exists moves|]; reflexivity.
          - left. exact E.
          - rewrite Forall_forall in Hb. now apply Hb. }
        destruct (Hf x Hb) as [v' [E1 E2]]. change ((f x, u1) = (Ret v, u2)) in Eg. rewrite E1 in Eg. injection Eg as -> _. exact E2. }
    destruct (find full fuel swarm_new (start r)) as [[[a| |] u2] t2]; simpl in *; try congruence. eauto.
  Qed.
End Swarm.
