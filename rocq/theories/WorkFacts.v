(** * How much the example programs do *)

From Coq Require Import List Arith ZArith Bool String Lia.
From Flocq Require Import IEEE754.Binary.
From Verif Require Import Base Logic FloatModel FloatFacts Rng GaModel GaComponents PsoModel PsoComponents
  StopModel LogModel TestFuncModel ExampleModel StatProgramModel
  SpecGa SpecPso SpecRun SpecBox SpecSel SpecTotal SpecStandard SpecExample SpecBudget SpecWork
  GaFacts GaSafety GaTheorems GaMore GaProofs PsoFacts PsoRuns PsoProofs SelFacts SelProofs CreateFacts PostFacts GaTotal GaStandard PsoStandard RangeFacts BoxFacts BudgetFacts
  ExampleFacts ExampleRuns ExampleAsserts DemoExample.
Import ListNotations.
Local Open Scope nat_scope.

Section Work.
  Context {W : Type}.
  Variables (np32 : nan_policy 24 128) (np64 : nan_policy 53 1024).
  Context {LM : Libm f32}.
  Variable dbg : bool.
  Notation U := (world W).
  Notation vec := (list f32).

  Section Cube.
    Variables (lo hi : f32) (n d : nat).
    Notation box := (cube d lo hi).
    Hypothesis Hlo : is_finite lo = true.
    Hypothesis Hhi : is_finite hi = true.
    Hypothesis Hlh : ltb lo hi = true.
    Hypothesis Hn : 0 < n.
    Hypothesis Hd : 0 < d.

    Lemma box_intervals : good_intervals32 box.
    Proof. intros a b Hi. apply repeat_spec in Hi. injection Hi as -> ->. auto. Qed.
    Lemma box_nonempty : box <> [].
    Proof. unfold cube. destruct d; [lia|discriminate]. Qed.
    Lemma creator_is : @random_creator_new f32 (NumGene32 np64 np32) n box = Ret (RandomCreator n box).
    Proof. apply new_creator; [exact Hn|exact box_nonempty|]. intros i Hi. apply box_intervals. now destruct i. Qed.
    Lemma made_in_box vs : (forall j (v : vec), nth_error vs j = Some v -> List.length v = List.length box /\
        forall k g lo' hi', nth_error v k = Some g -> nth_error box k = Some (lo', hi') -> leb lo' g = true /\ leb g hi' = true) ->
      Forall (in_box box) vs.
    Proof.
      intros H. apply Forall_forall. intros x Hx. apply In_nth_error in Hx. destruct Hx as [j Hj].
      destruct (H j x Hj) as [L1 L2]. apply nth_box; [apply good_intervals_box32, box_intervals|exact L1|].
      intros k g lo' hi' Hg Hi. exact (L2 k g lo' hi' Hg Hi).
    Qed.

    (** ** Genetic programs *)
    Section Genetic.
      Variables (goal : vec -> comp U f64) (tr : tournament) (prob : f64)
        (stop : stop_checker U vec) (loggers : list (logger U vec)).
      Notation program := (@ga_program W np32 np64 LM dbg lo hi n d goal (tournament_pairs tr) prob (Ret stop) loggers).
      Notation m := (families_count tr).

      (** The configurations of the program, whatever the stop checker. *)
      Definition of_program (c : ga_config U vec) : Prop :=
        ga_creator c = zoom at_rng (@random_create f32 (NumGene32 np64 np32) np64 (RandomCreator n box)) /\
        ga_pairing c = (fun p => zoom at_rng (tournament_pairs tr p)) /\
        (exists single, ga_cross c = vec_cross_all_genes single) /\
        ga_pre_births c = [fun p xs => cpure (@pre_birth_interval f32 (FloatIEEE np32) box p xs)] /\
        ga_selections c = [fun p => cret (kill_fitness_nan p)] ++ [fun p => cpure (limit_population n p)].

      Lemma program_is : exists cfg, program = Ret cfg /\ of_program cfg /\ forall stop', of_program (ga_set_stop_checker cfg stop').
      Proof.
        unfold ga_program, Gene32, Float32. fold (cube d lo hi). rewrite creator_is. cbn [obind]. eexists. split; [reflexivity|].
        split; [|intros stop']; (split; [reflexivity|]; split; [reflexivity|]; split; [eexists; reflexivity|]; split; reflexivity).
      Qed.
      Lemma program_copies c : of_program c -> Forall selection_copies (ga_selections c).
      Proof.
        intros [_ [_ [_ [_ ->]]]].
        constructor; [|constructor; [|constructor]]; apply (@standard_selection_copies 24 128 _ _ np32 U box).
        - apply std_kill_nan.
        - now apply std_limit.
      Qed.
      Lemma program_created c : of_program c -> forall u xs u', ga_creator c u = (Ret xs, u') -> List.length xs = n /\ Forall (in_box box) xs.
      Proof.
        intros [-> _] u xs u' E. apply zoomed in E. destruct E as [g' E].
        destruct (random_creator_f32 np64 np32 n box _ (lget at_rng u) creator_is) as [vs [Ev [Lv Hv]]].
        { intros i Hi. apply repeat_spec in Hi. subst i. auto. }
        rewrite E in Ev. injection Ev as <- _. split; [exact Lv|]. apply made_in_box. intros j v Hj.
        destruct (Hv j v Hj) as [L1 L2]. split; [exact L1|]. intros k g lo' hi' Hg Hi. apply (L2 k g lo' hi' Hg Hi).
      Qed.
      Lemma program_stays c : of_program c -> stays_in (in_box box) c.
      Proof.
        intros Hc. split; [intros u xs u' E; apply (program_created c Hc u xs u' E)|].
        destruct Hc as [_ [_ [_ [Ep _]]]]. exists [], (fun p xs => cpure (@pre_birth_interval f32 (FloatIEEE np32) box p xs)).
        split; [exact Ep|]. intros p xs u ys u' E. injection E as E _.
        destruct (@pre_birth_interval_spec f32 (FloatIEEE np32) box p xs) as [[cs' [E' [_ [keep [_ [E2 K]]]]]]|[E' _]]; [|congruence].
        rewrite E in E'. injection E' as <-. apply Forall_forall. intros x Hx. rewrite E2 in Hx.
        apply in_map_iff in Hx. destruct Hx as [[c' b] [<- Hin]]. apply filter_In in Hin. destruct Hin as [Hin Hb'].
        simpl in *. subst b. apply (in_box_genes np32); [apply good_intervals_box32, box_intervals|]. clear - K Hin.
        induction K as [|c0 b0 cs keep H1 H2 IH]; [destruct Hin|]. destruct Hin as [Hin|Hin]; [|auto].
        injection Hin as -> ->. now apply H1.
      Qed.
      Lemma program_economy c : of_program c -> ga_economy (fun k => k <= n + 1) n m 1 c.
      Proof.
        intros Hc. pose proof (program_created c Hc) as Hcr. destruct Hc as [E1 [E2 [E3 [E4 E5]]]].
        apply (@limited_economy U f32 (FloatIEEE np32) at_rng n box c) with (earlier := [fun p => cret (kill_fitness_nan p)]) (pairing := tournament_pairs tr);
          try lia; auto.
        - intros u xs u' E. apply (Hcr u xs u' E).
        - rewrite E4. intros f [<-|[]]. reflexivity.
        - intros p r l r' _ H. apply tournament_count in H. lia.
      Qed.

      Theorem ga_main_works fuel r w : ga_works n m box (ga_main program fuel r w).
      Proof.
        destruct program_is as [cfg [-> [Hc _]]]. unfold ga_main.
        destruct (ga_find_min cfg fuel pop_new (World r gnc_new None w)) as [[o u'] t] eqn:E. unfold ga_works.
        destruct (run_inside of_program program_copies (in_box box) pop_new [] cfg fuel _ _ _ _ program_stays (ga_reach_new _) Hc (or_introl E))
          as [Hin _].
        split; [exact Hin|]. intros res p ->.
        destruct (find_budget _ _ _ _ cfg (program_economy cfg Hc) fuel pop_new _ _ _ _ _ E) as [B [R C]].
        rewrite Nat.mul_1_r in B. auto.
      Qed.
      Theorem ga_main_works_twice stop' fuel r w : ga_works_twice n m box (ga_main_iterative program stop' fuel r w).
      Proof.
        destruct program_is as [cfg [-> [Hc Hc2]]]. unfold ga_main_iterative. specialize (Hc2 stop').
        unfold mbind. destruct (ga_find_min cfg fuel pop_new (World r gnc_new None w)) as [[o u1] t1] eqn:E.
        destruct (run_inside of_program program_copies (in_box box) pop_new [] cfg fuel _ _ _ _ program_stays (ga_reach_new _) Hc (or_introl E))
          as [Hin1 _].
        destruct o as [[res1 p1]| |]; [|split; [exact Hin1|intros; discriminate]..].
        cbn [snd]. destruct (ga_next_iterations (ga_set_stop_checker cfg stop') fuel p1 u1) as [[o2 u2] t2] eqn:E2.
        assert (R1 : ga_reach of_program p1 t1) by (eapply ga_reach_find; [exact Hc|apply ga_reach_new|exact E]).
        destruct (run_inside of_program program_copies (in_box box) p1 t1 _ fuel _ _ _ _ program_stays R1 Hc2 (or_intror E2)) as [Hin2 _].
        assert (Hin : Forall (in_box box) (evals (t1 ++ t2))) by (rewrite evals_app; apply Forall_app; auto).
        destruct o2 as [[res2 p2]| |]; [|split; [exact Hin|intros; discriminate]..].
        unfold mret. rewrite app_nil_r. split; [exact Hin|].
        intros r1 q1 r2 q2 Eq. injection Eq as <- <- <- <-.
        destruct (find_budget _ _ _ _ cfg (program_economy cfg Hc) fuel pop_new _ _ _ _ _ E) as [B1 [P1 C1]].
        destruct (next_budget _ _ _ _ _ (program_economy _ Hc2) fuel p1 _ _ _ _ _ E2 P1) as [I2 [B2 [P2 C2]]].
        rewrite Nat.mul_1_r in B1, B2. rewrite evals_app, app_length, BudgetFacts.consulted_app.
        split; [exact I2|]. split; [|split; [exact P1|split; [exact P2|apply Forall_app; auto]]].
        assert (m * iteration p2 = m * iteration p1 + m * (iteration p2 - iteration p1)) by nia. lia.
      Qed.
    End Genetic.

    (** ** Particle swarm programs *)
    Section Swarm.
      Variables (calc : swarm f32 -> particle f32 -> comp U vec) (goal : vec -> comp U f64)
        (post_velocity moves : list (vec -> comp U vec))
        (stop : stop_checker U vec) (loggers : list (logger U vec)).
      Notation program := (@pso_program W np32 np64 lo hi n d (Ret calc) goal post_velocity (Ret moves) (Ret stop) loggers).
      Notation find := (@pso_find_min U f32 (FloatIEEE np32)).
      Notation next := (@pso_next_iterations U f32 (FloatIEEE np32)).

      Definition of_swarm (c : pso_config U f32) : Prop :=
        pso_coordinates c = zoom at_rng (@random_vectors f32 (NumGene32 np64 np32) np64 box n) /\
        exists earlier, pso_post_move c = earlier ++ [fun x => cpure (@move_to_boundary f32 (FloatIEEE np32) box x)].
      Lemma swarm_is : exists cfg, program = Ret cfg /\ of_swarm cfg /\ forall stop', of_swarm (pso_set_stop_checker cfg stop').
      Proof.
        unfold pso_program, Gene32, Float32. fold (cube d lo hi). cbn [obind]. eexists. split; [reflexivity|].
        split; [|intros stop']; (split; [reflexivity|exists moves; reflexivity]).
      Qed.
      Lemma swarm_placed c : of_swarm c -> forall u xs u', pso_coordinates c u = (Ret xs, u') -> List.length xs = n.
      Proof.
        intros [-> _] u xs u' E. apply zoomed in E. destruct E as [g' E].
        destruct (random_vectors_f32 np64 np32 box n (lget at_rng u)) as [vs [Ev [Lv _]]].
        { intros a b Hi. destruct (box_intervals a b Hi) as [A [B C]]. auto. }
        rewrite E in Ev. injection Ev as <- _. exact Lv.
      Qed.
      Lemma find_sizes cfg fuel s u r s' u' t : of_swarm cfg -> find cfg fuel s u = (Ret (r, s'), u', t) ->
        List.length (particles s') = n /\ List.length (evals t) = n * (sw_iteration s' + 1) /\
        Forall (fun q => List.length (particles q) = n) (consulted t).
      Proof.
        intros Hc E. destruct (@pso_evaluations U f32 (FloatIEEE np32) cfg fuel s u r s' u' t E) as [_ [_ [_ [Le [xs [t1 [Et Lx]]]]]]].
        assert (G : Forall (pso_genuine cfg) t) by exact (@pso_find_genuine U f32 (FloatIEEE np32) cfg fuel s u _ u' t E).
        rewrite Et in G. inversion G as [|? ? Gc _]; subst. destruct Gc as [w [w' Ew]]. apply (swarm_placed cfg Hc) in Ew.
        assert (Hs : List.length (particles s') = n) by congruence. split; [exact Hs|]. split; [congruence|].
        apply pso_find_ret in E. destruct E as [_ [s0 [g [tr [k [Hst [Hk ->]]]]]]].
        pose proof (start_read _ _ _ Hst) as [_ [_ [C0 _]]].
        pose proof (rounds_read _ _ _ _ _ _ _ Hk) as [rest [C [_ [La [_ [_ [N _]]]]]]].
        rewrite !PsoRuns.consulted_app, C0, C, !consulted_log. simpl. rewrite app_nil_r.
        assert (H0 : List.length (particles s0) = n).
        { rewrite <- Hs, <- La. destruct rest as [|q l]; [reflexivity|]. symmetry. apply N. clear.
          revert q. induction l as [|a l IH]; intros q; simpl; [auto|right; apply IH]. }
        constructor; [exact H0|]. apply Forall_forall. intros q Hq. rewrite <- H0. now apply N.
      Qed.

      Lemma next_sizes cfg fuel s u r s' u' t : next cfg fuel s u = (Ret (r, s'), u', t) -> List.length (particles s) = n ->
        List.length (particles s') = n /\ sw_iteration s <= sw_iteration s' /\
        List.length (evals t) = n * (sw_iteration s' - sw_iteration s) /\
        Forall (fun q => List.length (particles q) = n) (consulted t).
      Proof.
        intros E Hs. destruct (@pso_next_evaluations U f32 (FloatIEEE np32) cfg fuel s u r s' u' t E) as [rest [C [_ [_ [I [N L]]]]]].
        apply pso_next_ret in E. destruct E as [_ [tr [k [Hk ->]]]].
        pose proof (rounds_read _ _ _ _ _ _ _ Hk) as [rest' [C' [_ [La _]]]].
        assert (Er : rest' = rest).
        { rewrite !PsoRuns.consulted_app, C', !consulted_log in C. simpl in C. rewrite app_nil_r in C. now injection C. }
        subst rest'. split; [|split; [lia|split; [|rewrite C; constructor; [exact Hs|]]]].
        - rewrite <- La. destruct rest as [|q l]; [exact Hs|]. rewrite <- Hs. apply N. clear.
          revert q. induction l as [|a l IH]; intros q; simpl; [auto|right; apply IH].
        - rewrite L, I, Hs. f_equal. lia.
        - apply Forall_forall. intros q Hq. rewrite <- Hs. now apply N.
      Qed.

      Theorem pso_main_works fuel r w : pso_works n box (pso_main np32 program fuel r w).
      Proof.
        destruct swarm_is as [cfg [-> [Hc _]]]. unfold pso_main, Float32.
        destruct (find cfg fuel swarm_new (World r gnc_new None w)) as [[o u'] t] eqn:E. unfold pso_works.
        destruct (pso_in_box np32 box of_swarm swarm_new [] cfg fuel _ o u' t (good_intervals_box32 box box_intervals)
          (fun c Hk => proj2 Hk) (pso_reach_new _) Hc (or_introl E)) as [Hin _].
        split; [exact Hin|]. intros res s ->. exact (find_sizes cfg fuel _ _ _ _ _ _ Hc E).
      Qed.
      Theorem pso_main_works_twice stop' fuel r w : pso_works_twice n box (pso_main_iterative np32 program stop' fuel r w).
      Proof.
        destruct swarm_is as [cfg [-> [Hc Hc2]]]. unfold pso_main_iterative, Float32. specialize (Hc2 stop').
        unfold mbind. destruct (find cfg fuel swarm_new (World r gnc_new None w)) as [[o u1] t1] eqn:E.
        destruct (pso_in_box np32 box of_swarm swarm_new [] cfg fuel _ o u1 t1 (good_intervals_box32 box box_intervals)
          (fun c Hk => proj2 Hk) (pso_reach_new _) Hc (or_introl E)) as [Hin1 _].
        destruct o as [[res1 s1]| |]; [|split; [exact Hin1|intros; discriminate]..].
        cbn [snd]. destruct (next (pso_set_stop_checker cfg stop') fuel s1 u1) as [[o2 u2] t2] eqn:E2.
        assert (R1 : pso_reach (FT := FloatIEEE np32) of_swarm s1 t1) by (eapply pso_reach_find; [exact Hc|apply pso_reach_new|exact E]).
        destruct (pso_in_box np32 box of_swarm s1 t1 _ fuel _ o2 u2 t2 (good_intervals_box32 box box_intervals)
          (fun c Hk => proj2 Hk) R1 Hc2 (or_intror E2)) as [Hin2 _].
        assert (Hin : Forall (in_box box) (evals (t1 ++ t2))) by (rewrite evals_app; apply Forall_app; auto).
        destruct o2 as [[res2 s2]| |]; [|split; [exact Hin|intros; discriminate]..].
        unfold mret. rewrite app_nil_r. split; [exact Hin|].
        intros r1 q1 r2 q2 Eq. injection Eq as <- <- <- <-.
        destruct (find_sizes cfg fuel _ _ _ _ _ _ Hc E) as [N1 [L1 C1]].
        pose proof (next_sizes _ _ _ _ _ _ _ _ E2 N1) as [N2 [I2 [L2 C2]]].
        split; [exact N1|]. split; [exact N2|]. split; [exact I2|].
        rewrite evals_app, app_length, L1, L2, PsoRuns.consulted_app. split; [nia|]. apply Forall_app. auto.
      Qed.
    End Swarm.
  End Cube.
End Work.

(** ** The programs, one by one *)
Section Programs.
  Context {W : Type}.
  Variables (write : string -> comp W bool) (now : comp W Z).
  Variable fmt : formatter f32.
  Variables (np32 : nan_policy 24 128) (np64 : nan_policy 53 1024).
  Context {LM : Libm f32}.
  Variable dbg : bool.
  Notation decimal_cube d := (cube d (decimal32 (-512) 2) (decimal32 512 2)).
  Ltac fin := vm_compute; reflexivity.

  Theorem genetic_programs_work fuel r (w : W) :
    ga_works 200 100 (int_cube 5 (-100) 100) (ga_main (genetic_paraboloid write now fmt np32 np64 dbg) fuel r w) /\
    ga_works 20 10 (decimal_cube 30) (ga_main (genetic_rastrigin write now fmt np32 np64 dbg) fuel r w) /\
    ga_works 600 300 (int_cube 3 (-2) 2) (ga_main (genetic_rosenbrock write now fmt np32 np64 dbg) fuel r w) /\
    ga_works 500 250 (int_cube 15 (-500) 500) (ga_main (genetic_schwefel write now fmt np32 np64 dbg) fuel r w) /\
    ga_works 800 400 (int_cube 5 (-100) 100) (ga_main (test_genetic_paraboloid np32 np64 dbg) fuel r w) /\
    ga_works 20 10 (decimal_cube 30) (ga_main (test_genetic_rastrigin np32 np64 dbg) fuel r w) /\
    ga_works 800 400 (int_cube 5 (-500) 500) (ga_main (test_genetic_schwefel np32 np64 dbg) fuel r w).
  Proof.
    rewrite <- lit_5_12, <- lit_m5_12. refine (conj _ (conj _ (conj _ (conj _ (conj _ (conj _ _)))))).
    - unfold genetic_paraboloid. rewrite any_cons. apply (@ga_main_works W np32 np64 LM dbg (b_of_Z (-100)) (b_of_Z 100) 200 5) with (tr := (set_rounds_count (set_partners_count (tournament_new (200 / 2)) 2) 2)); [fin|fin|fin|lia|lia].
    - unfold genetic_rastrigin. rewrite any_cons. apply (@ga_main_works W np32 np64 LM dbg f32_m5_12 f32_5_12 20 30) with (tr := (set_rounds_count (tournament_new (20 / 2)) 5)); [fin|fin|fin|lia|lia].
    - unfold genetic_rosenbrock. rewrite any_cons. apply (@ga_main_works W np32 np64 LM dbg (b_of_Z (-2)) (b_of_Z 2) 600 3) with (tr := (set_rounds_count (tournament_new (600 / 2)) 5)); [fin|fin|fin|lia|lia].
    - unfold genetic_schwefel. rewrite any_cons. apply (@ga_main_works W np32 np64 LM dbg (b_of_Z (-500)) (b_of_Z 500) 500 15) with (tr := (set_rounds_count (tournament_new (500 / 2)) 5)); [fin|fin|fin|lia|lia].
    - unfold test_genetic_paraboloid. rewrite any_cons. apply (@ga_main_works W np32 np64 LM dbg (b_of_Z (-100)) (b_of_Z 100) 800 5) with (tr := (set_rounds_count (set_partners_count (tournament_new (800 / 2)) 2) 2)); [fin|fin|fin|lia|lia].
    - unfold test_genetic_rastrigin. rewrite any_cons. apply (@ga_main_works W np32 np64 LM dbg f32_m5_12 f32_5_12 20 30) with (tr := (set_rounds_count (tournament_new (20 / 2)) 5)); [fin|fin|fin|lia|lia].
    - unfold test_genetic_schwefel. rewrite any_cons. apply (@ga_main_works W np32 np64 LM dbg (b_of_Z (-500)) (b_of_Z 500) 800 5) with (tr := (set_rounds_count (tournament_new (800 / 2)) 5)); [fin|fin|fin|lia|lia].
  Qed.
  Theorem genetic_iterative_works stop' fuel r (w : W) :
    ga_works_twice 500 250 (int_cube 15 (-500) 500)
      (ga_main_iterative (genetic_schwefel_iterative write now fmt np32 np64 dbg) stop' fuel r w).
  Proof. unfold genetic_schwefel_iterative. apply (@ga_main_works_twice W np32 np64 LM dbg (b_of_Z (-500)) (b_of_Z 500) 500 15) with (tr := set_rounds_count (tournament_new (500 / 2)) 5); [fin|fin|fin|lia|lia]. Qed.
  Theorem swarm_programs_work fuel r (w : W) :
    pso_works 80 (int_cube 5 (-100) 100) (pso_main np32 (particleswarm_paraboloid write now fmt np32 np64 dbg) fuel r w) /\
    pso_works 500 (decimal_cube 3) (pso_main np32 (particleswarm_rastrigin write now fmt np32 np64 dbg) fuel r w) /\
    pso_works 1000 (int_cube 3 (-2) 2) (pso_main np32 (particleswarm_rosenbrock write now fmt np32 np64 dbg) fuel r w) /\
    pso_works 100 (int_cube 3 (-500) 500) (pso_main np32 (particleswarm_schwefel write now fmt np32 np64 dbg) fuel r w) /\
    pso_works 150 (int_cube 5 (-100) 100) (pso_main np32 (test_particleswarm_paraboloid np32 np64 dbg) fuel r w).
  Proof.
    rewrite <- lit_5_12, <- lit_m5_12. refine (conj _ (conj _ (conj _ (conj _ _)))).
    - unfold particleswarm_paraboloid. rewrite any_cons. destruct (canonical_ok np32 (b_of_Z 2) (b_of_Z 6) f32_0_2) as [xi Hxi]; [fin|fin|fin|].
      unfold Float32. rewrite (canonical_is _ _ _ _ _ Hxi). apply (@pso_main_works W np32 np64 (b_of_Z (-100)) (b_of_Z 100) 80 5); [fin|fin|fin].
    - unfold particleswarm_rastrigin. rewrite any_cons. destruct (canonical_ok np32 (b_of_Z 2) (b_of_Z 5) f32_0_2) as [xi Hxi]; [fin|fin|fin|].
      unfold Float32. rewrite (canonical_is _ _ _ _ _ Hxi). apply (@pso_main_works W np32 np64 f32_m5_12 f32_5_12 500 3); [fin|fin|fin].
    - unfold particleswarm_rosenbrock. rewrite any_cons. destruct (canonical_ok np32 (b_of_Z 1) (b_of_Z 8) f32_0_2) as [xi Hxi]; [fin|fin|fin|].
      unfold Float32. rewrite (canonical_is _ _ _ _ _ Hxi). apply (@pso_main_works W np32 np64 (b_of_Z (-2)) (b_of_Z 2) 1000 3); [fin|fin|fin].
    - unfold particleswarm_schwefel. rewrite any_cons. destruct (canonical_ok np32 f32_3_2 (b_of_Z 1) f32_0_9) as [xi Hxi]; [fin|fin|fin|].
      unfold Float32. rewrite (canonical_is _ _ _ _ _ Hxi). apply (@pso_main_works W np32 np64 (b_of_Z (-500)) (b_of_Z 500) 100 3); [fin|fin|fin].
    - unfold test_particleswarm_paraboloid. rewrite any_cons. destruct (canonical_ok np32 (b_of_Z 2) (b_of_Z 6) f32_0_2) as [xi Hxi]; [fin|fin|fin|].
      unfold Float32. rewrite (canonical_is _ _ _ _ _ Hxi). apply (@pso_main_works W np32 np64 (b_of_Z (-100)) (b_of_Z 100) 150 5); [fin|fin|fin].
  Qed.
  Theorem swarm_iterative_works stop' fuel r (w : W) :
    pso_works_twice 100 (int_cube 3 (-500) 500)
      (pso_main_iterative np32 (particleswarm_schwefel_iterative write now fmt np32 np64) stop' fuel r w).
  Proof.
    unfold particleswarm_schwefel_iterative. destruct (canonical_ok np32 f32_3_2 (b_of_Z 1) f32_0_9) as [xi Hxi]; [fin|fin|fin|].
    unfold Float32. rewrite (canonical_is _ _ _ _ _ Hxi). apply (@pso_main_works_twice W np32 np64 (b_of_Z (-500)) (b_of_Z 500) 100 3); [fin|fin|fin|lia|lia].
  Qed.
End Programs.

(** ** Literals *)
Theorem example_literals :
  f32_5_12 = decimal32 512 2 /\ f32_m5_12 = decimal32 (-512) 2 /\ f32_0_1 = decimal32 1 1 /\
  f32_0_2 = decimal32 2 1 /\ f32_0_3 = decimal32 3 1 /\ f32_0_9 = decimal32 9 1 /\ f32_3_2 = decimal32 32 1 /\
  f64_0_1 = decimal64 1 1 /\ f64_1em3 = decimal64 1 3 /\ f64_1em4 = decimal64 1 4 /\ f64_1em6 = decimal64 1 6 /\
  f64_1em7 = decimal64 1 7 /\ f64_1em8 = decimal64 1 8 /\ f64_1em9 = decimal64 1 9 /\
  f32_1em2 = decimal32 1 2 /\ f32_0_05 = decimal32 5 2 /\ f32_0_6 = decimal32 6 1 /\ f32_0_85 = decimal32 85 2 /\
  f32_2_2 = decimal32 22 1 /\ f32_3_4 = decimal32 34 1 /\ f32_420_9687 = decimal32 4209687 4 /\
  f64_0_75 = decimal64 75 2 /\ f64_1em10 = decimal64 1 10.
Proof. repeat match goal with |- _ /\ _ => split end; same_float. Qed.

(** ** Examples *)
Lemma demo_genetic_work (fmt : formatter f32) r : exists x v p u t,
  ga_main (@genetic_paraboloid _ record_lines clock_at_7 fmt np32_default np64_default demo_libm32 true) 3001 r []
    = (Ret (Some (x, v), p), u, t) /\
  200 <= List.length (evals t) <= 200 + 100 * 3000.
Proof.
  destruct demo_terminal as [Hw [Hn _]].
  destruct (@genetic_paraboloid_ends _ record_lines clock_at_7 fmt np32_default np64_default demo_libm32 true Hw Hn 3001 r [] ltac:(lia))
    as [x [v [p [u [t [E [_ [Hi _]]]]]]]].
  exists x, v, p, u, t. split; [exact E|].
  destruct (@genetic_programs_work _ record_lines clock_at_7 fmt np32_default np64_default demo_libm32 true 3001 r []) as [K _].
  rewrite E in K. destruct K as [_ K]. destruct (K _ _ eq_refl) as [[K1 K2] _].
  split; [exact K1|]. eapply Nat.le_trans; [exact K2|]. apply Nat.add_le_mono_l, Nat.mul_le_mono_l. apply Hi.
Qed.
Lemma demo_swarm_work (fmt : formatter f32) r : exists x v s u t,
  pso_main np32_default (@particleswarm_paraboloid _ record_lines clock_at_7 fmt np32_default np64_default true) 3001 r []
    = (Ret (Some (x, v), s), u, t) /\
  80 <= List.length (evals t) <= 80 * 3001.
Proof.
  destruct demo_terminal as [Hw [Hn _]].
  destruct (@particleswarm_paraboloid_ends _ record_lines clock_at_7 fmt np32_default np64_default true Hw Hn 3001 r [] ltac:(lia))
    as [x [v [s [u [t [E [_ [Hi _]]]]]]]].
  exists x, v, s, u, t. split; [exact E|].
  destruct (@swarm_programs_work _ record_lines clock_at_7 fmt np32_default np64_default demo_libm32 true 3001 r []) as [K _].
  rewrite E in K. destruct K as [_ K]. destruct (K _ _ eq_refl) as [_ [K1 _]].
  rewrite K1. split; [lia|]. apply Nat.mul_le_mono_l. lia.
Qed.
