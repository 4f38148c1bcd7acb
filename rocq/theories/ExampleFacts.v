(** * The example programs *)

From Coq Require Import List Arith ZArith Bool String Reals Lia Lra.
From Flocq Require Import Core.Core IEEE754.BinarySingleNaN IEEE754.Binary.
From Verif Require Import Base Logic FloatModel FloatFacts Rng GaModel GaComponents PsoModel PsoComponents
  StopModel LogModel TestFuncModel ExampleModel
  SpecGa SpecPso SpecRun SpecBox SpecTotal SpecStandard SpecTest SpecExample
  GaFacts GaTheorems GaProofs PsoProofs PsoFacts GaTotal PsoTotal PsoStandard GaStandard RangeFacts TestFacts BoxFacts.
Import ListNotations.
Local Open Scope nat_scope.

Section Examples.
  Context {W : Type}.
  Variables (write : string -> comp W bool) (now : comp W Z).
  Variable fmt : formatter f32.
  Variables (np32 : nan_policy 24 128) (np64 : nan_policy 53 1024).
  Context {LM : Libm f32}.
  Variable dbg : bool.
  Hypothesis Hwrite : accepts write.
  Hypothesis Hnow : ticks now.
  Notation U := (world W).
  Notation vec := (list f32).
  Notation verbose := (verbose write fmt).
  Notation result_only := (result_only write fmt).
  Notation time := (time write now fmt).

  (** Between the calls the GoalNotChange checker last saw a change in the past; while a
      program with a TimeLogger ([timed]) runs, the logger knows when it started. *)
  Variable timed : bool.
  Definition world_ok (ph : phase) (i : nat) (u : U) : Prop :=
    change_iter (w_gnc u) <= i /\ (timed = true -> ph = Running -> w_started u <> None).

  Lemma world_rests i u : world_ok Running i u -> world_ok Resting i u.
  Proof. intros [A _]. split; [exact A|discriminate]. Qed.
  Lemma world_new r w : world_ok Resting 0 (World r gnc_new None w).
  Proof. split; [simpl; lia|discriminate]. Qed.
  Lemma world_lasting : lasting at_rng world_ok.
  Proof. split; [intros i u [A B]; split; [lia|auto]|]. intros ph i r u [A B]. split; auto. Qed.
  Lemma rng_ok : lens_ok (at_rng : lens U rng).
  Proof. split; intros; try destruct u; reflexivity. Qed.

  (** ** Loggers *)
  Lemma writeln_returns ph i s : returns (world_ok ph i) (writeln (print write) s).
  Proof.
    intros u Hu. unfold writeln, cbind, print, zoom. destruct (Hwrite (s ++ nl)%string (lget at_rest u)) as [w' E].
    rewrite E. eexists _, _. split; [reflexivity|]. split; [exact Logic.I|]. destruct Hu as [A B]. split; auto.
  Qed.
  Lemma silent_returns ph i q : returns (world_ok ph i) (@silent f32 U q).
  Proof. intros u Hu. eexists _, _. split; [reflexivity|]. auto. Qed.
  Lemma bind_returns (J : U -> Prop) {A B} (c : comp U A) (k : A -> comp U B) :
    returns J c -> (forall a, returns J (k a)) -> returns J (do a <- c ;; k a).
  Proof.
    intros Hc Hk u Hu. destruct (Hc u Hu) as [a [u1 [E [_ Hu1]]]]. unfold cbind. rewrite E. exact (Hk a u1 Hu1).
  Qed.

  Lemma verbose_returns ph i k q : returns (world_ok ph i) (told_by k verbose q).
  Proof.
    destruct k; try apply silent_returns. simpl. destruct (as_best q) as [[x g]|]; [apply writeln_returns|].
    intros u Hu. eexists _, _. split; [reflexivity|]. auto.
  Qed.
  Lemma result_only_returns ph i k q : returns (world_ok ph i) (told_by k result_only q).
  Proof.
    destruct k; try apply silent_returns. simpl. unfold result_only_finish. destruct (as_best q) as [[x g]|].
    - apply bind_returns; [apply bind_returns; [apply writeln_returns|intros _; apply writeln_returns]|].
      intros _. apply writeln_returns.
    - apply bind_returns; [apply writeln_returns|]. intros _. apply writeln_returns.
  Qed.

  Lemma tell_plain ph i k q (ls : list (logger U vec)) : (forall l, In l ls -> returns (world_ok ph i) (told_by k l q)) ->
    returns (world_ok ph i) (tell_all k ls q).
  Proof.
    induction ls as [|l ls IH]; intros H; cbn [tell_all].
    - intros u Hu. eexists _, _. split; [reflexivity|]. auto.
    - apply bind_returns; [apply H; simpl; auto|]. intros _. apply IH. intros l' Hl'. apply H. simpl. auto.
  Qed.
  Lemma tell_app k (l1 l2 : list (logger U vec)) q u u1 : tell_all k l1 q u = (Ret tt, u1) ->
    tell_all k (l1 ++ l2) q u = tell_all k l2 q u1.
  Proof.
    revert u. induction l1 as [|l l1 IH]; intros u E; cbn [tell_all app] in *; [injection E as <-; reflexivity|].
    unfold cbind in *. destruct (told_by k l q u) as [[a| |] u2]; try discriminate. now apply IH.
  Qed.

  (** Loggers that keep no state, and the TimeLogger at the end of a timed program. *)
  Lemma example_logging (ls : list (logger U vec)) :
    (forall l, In l ls -> l = verbose \/ l = result_only) ->
    logging_fits (fun _ => True) world_ok (if timed then ls ++ [time] else ls).
  Proof.
    intros Hls.
    assert (Hp : forall ph i k q l, In l ls -> returns (world_ok ph i) (told_by k l q)).
    { intros ph i k q l Hl. destruct (Hls l Hl) as [->| ->]; [apply verbose_returns|apply result_only_returns]. }
    destruct timed eqn:Et.
    2:{ constructor; try (intros; now apply Hp).
        intros q u _ Hu. destruct (tell_plain Resting (as_iter q) LResume q ls (fun l => Hp _ _ _ _ l) u Hu) as [[] [u' [E [_ [A _]]]]].
        exists u'. split; [exact E|]. split; [exact A|]. congruence. }
    constructor.
    - intros l q Hl _. apply in_app_or in Hl. destruct Hl as [Hl|[<-|[]]]; [now apply Hp|apply silent_returns].
    - intros q u _ Hu. destruct (tell_plain Resting (as_iter q) LResume q ls (fun l => Hp _ _ _ _ l) u Hu) as [[] [u1 [E [_ [A _]]]]].
      rewrite (tell_app _ _ _ _ _ _ E). destruct (Hnow (lget at_rest u1)) as [t [w' Et']].
      eexists. split.
      + cbn [tell_all]. unfold cbind. simpl. unfold cbind. unfold zoom at 1. rewrite Et'. reflexivity.
      + split; [exact A|]. simpl. discriminate.
    - intros l q Hl _. apply in_app_or in Hl. destruct Hl as [Hl|[<-|[]]]; [now apply Hp|apply silent_returns].
    - intros l q Hl _. apply in_app_or in Hl. destruct Hl as [Hl|[<-|[]]]; [now apply Hp|].
      simpl. apply bind_returns; [|intros s; apply bind_returns; [|intros t; apply writeln_returns]].
      + intros u Hu. pose proof (proj2 Hu Et eq_refl) as Hn. unfold zoom. simpl.
        destruct u as [r g [s|] w]; [|exfalso; apply Hn; reflexivity]. simpl. eexists _, _. split; [reflexivity|]. auto.
      + intros u [A B]. unfold zoom. destruct (Hnow (lget at_rest u)) as [t [w' E]]. rewrite E.
        eexists _, _. split; [reflexivity|]. split; auto. split; auto.
  Qed.

  (** ** Stop checkers *)
  Definition true_of (q : alg_state vec) (r : reason) : Prop :=
    match r with
    | Below t => exists x v, as_best q = Some (x, v) /\ leb v t = true
    | Quiet n => n < as_iter q
    | After k => k <= as_iter q
    end.
  Definition reasons (rs : list reason) (q : alg_state vec) (b : bool) : Prop :=
    (b = true -> Exists (true_of q) rs) /\ (b = false -> Forall (fun r => match r with Quiet _ => True | _ => ~ true_of q r end) rs).

  (** The checker that stops for this reason. *)
  Definition checks (r : reason) (c : stop_checker U vec) : Prop :=
    match r with
    | Below t => c = threshold t
    | Quiet n => exists delta, c = not_change np64 dbg n delta
    | After k => c = max_iterations k
    end.
  Lemma checks_always r c q : checks r c -> always (world_ok Running (as_iter q)) (reasons [r] q) (c q).
  Proof.
    intros Hc u Hu. destruct r as [t|n|k]; simpl in Hc.
    - subst c. unfold threshold, cret. eexists _, _. split; [reflexivity|]. split; [|exact Hu].
      destruct (as_best q) as [[x v]|] eqn:Eq.
      + destruct (leb v t) eqn:El; (split; [intros E|intros E]; try discriminate).
        * constructor. simpl. eauto.
        * constructor; [|constructor]. simpl. intros [x' [v' [E1 E2]]]. congruence.
      + split; [discriminate|]. intros _. constructor; [|constructor]. simpl. intros [x' [v' [E1 E2]]]. congruence.
    - destruct Hc as [delta ->]. unfold not_change, zoom, goal_not_change. destruct Hu as [A B].
      simpl lget. destruct (as_best q) as [[x v]|] eqn:Eq.
      2:{ eexists _, _. split; [reflexivity|]. split; [|split; auto]. split; [discriminate|]. intros _. repeat constructor. }
      set (g' := if ltb delta _ then _ else _).
      assert (Hg : change_iter g' <= as_iter q) by (subst g'; destruct (ltb delta _); simpl; [lia|exact A]).
      clearbody g'. unfold usize_sub.
      replace (Z.of_nat (change_iter g') <=? Z.of_nat (as_iter q))%Z with true
        by (symmetry; apply Z.leb_le; lia).
      simpl obind. eexists _, _. split; [reflexivity|]. split; [|split; auto].
      split; [|intros _; repeat constructor]. intros E. constructor. simpl. apply Z.ltb_lt in E. lia.
    - subst c. unfold max_iterations, cret. eexists _, _. split; [reflexivity|]. split; [|exact Hu].
      split; intros E.
      + constructor. simpl. now apply Nat.leb_le.
      + constructor; [|constructor]. simpl. apply Nat.leb_gt in E. lia.
  Qed.
  Lemma any_reasons rs cs q : Forall2 checks rs cs ->
    always (world_ok Running (as_iter q)) (reasons rs q) (composite_any cs q).
  Proof.
    induction 1 as [|r c rs cs Hc H IH]; intros u Hu; cbn [composite_any].
    - eexists _, _. split; [reflexivity|]. split; [split; [discriminate|constructor]|exact Hu].
    - destruct (checks_always r c q Hc u Hu) as [b [u1 [E [[R1 R2] Hu1]]]]. unfold cbind. rewrite E.
      destruct b.
      + eexists _, _. split; [reflexivity|]. split; [|exact Hu1]. split; [|discriminate].
        intros _. specialize (R1 eq_refl). inversion R1 as [? ? K|? ? K]; subst; [now constructor|inversion K].
      + destruct (IH u1 Hu1) as [b' [u2 [E2 [[S1 S2] Hu2]]]]. exists b', u2. split; [exact E2|]. split; [|exact Hu2].
        split; [intros Eb; apply Exists_cons_tl; auto|].
        intros Eb. specialize (R2 eq_refl). inversion R2; subst. constructor; auto.
  Qed.
  Lemma reasons_stop rs k : In (After k) rs -> stops_by k (reasons rs).
  Proof.
    intros Hi q Hq [_ H]. specialize (H eq_refl). rewrite Forall_forall in H. apply (H (After k) Hi). exact Hq.
  Qed.
  Lemma reasons_stopped rs q x v : as_best q = Some (x, v) -> reasons rs q true -> stopped_by rs (as_iter q) v.
  Proof.
    intros Eq [H _]. eapply Exists_impl; [|exact (H eq_refl)].
    intros [t|n|k]; simpl; auto. intros [x' [v' [E L]]]. congruence.
  Qed.
  Lemma reasons_first rs q : as_best q = None -> as_iter q = 0 -> ~ In (After 0) rs -> ~ reasons rs q true.
  Proof.
    intros Eq Ei Hn [H _]. specialize (H eq_refl). apply Exists_exists in H. destruct H as [[t|n|k] [Hi Hr]]; simpl in Hr.
    - destruct Hr as [x [v [E _]]]. congruence.
    - lia.
    - rewrite Ei in Hr. assert (k = 0) by lia. subst k. auto.
  Qed.

  Lemma reasons_max k q : always (world_ok Running (as_iter q)) (reasons [After k] q) (@max_iterations U vec k q).
  Proof. apply checks_always. reflexivity. Qed.
  Lemma reasons_after k q : reasons [After k] q true -> k <= as_iter q.
  Proof. intros [H _]. specialize (H eq_refl). inversion H as [? ? K|? ? K]; subst; [exact K|inversion K]. Qed.

  (** ** Genetic programs *)
  Section Genetic.
    Variables (lo hi : f32) (size d : nat) (f : vec -> outcome f64)
      (pairing : population vec -> comp rng (list (list nat))) (prob : f64)
      (rs : list reason) (stop : stop_checker U vec) (loggers : list (logger U vec)).
    Notation box := (cube d lo hi).
    Notation program := (@ga_program W np32 np64 LM dbg lo hi size d (fun x => cpure (f x)) pairing prob (Ret stop) loggers).
    Notation finite := (fun v : f64 => is_finite v = true).

    Hypothesis Hlo : is_finite lo = true.
    Hypothesis Hhi : is_finite hi = true.
    Hypothesis Hlh : ltb lo hi = true.
    Hypothesis Hsize : 0 < size.
    Hypothesis Hd : 0 < d.
    Hypothesis Hpair : @standard_pairing 24 128 U at_rng (fun p => zoom at_rng (pairing p)).
    Hypothesis Hf : forall x, in_box box x -> exists v, f x = Ret v /\ is_finite v = true.
    Hypothesis Hstop : forall q, always (world_ok Running (as_iter q)) (reasons rs q) (stop q).
    Hypothesis Hlog : logging_fits (fun _ => True) world_ok loggers.

    Lemma cube_good : good_intervals32 box.
    Proof. intros a b Hi. apply repeat_spec in Hi. injection Hi as -> ->. auto. Qed.
    Lemma cube_some : box <> [].
    Proof. unfold cube. destruct d; [lia|discriminate]. Qed.

    Lemma ga_program_fits : exists cfg, program = Ret cfg /\
      ga_fits (in_box box) finite world_ok (reasons rs) (dim (List.length box)) 2 cfg /\
      Forall (@standard_selection 24 128 _ _ np32 U box) (ga_selections cfg) /\
      ga_goal cfg = (fun x => cpure (f x)).
    Proof.
      unfold ga_program, Gene32, Float32. fold (cube d lo hi).
      assert (Ec : @random_creator_new f32 (NumGene32 np64 np32) size box = Ret (RandomCreator size box)).
      { apply new_creator; [exact Hsize|exact cube_some|]. intros i Hi. apply cube_good. now destruct i. }
      rewrite Ec. cbn [obind]. eexists. split; [reflexivity|].
      assert (Hsel : Forall (@standard_selection 24 128 _ _ np32 U box)
        [fun p => cret (kill_fitness_nan p); fun p => cpure (limit_population size p)]).
      { constructor; [apply std_kill_nan|]. constructor; [now apply std_limit|constructor]. }
      split; [|split; [exact Hsel|reflexivity]].
      apply (@GaStandard.standard_fits32 U at_rng world_ok world_lasting LM np64 np32 box size); auto.
      - exact cube_good.
      - exact cube_some.
      - intros ph i x Hx u Hu. destruct (Hf x Hx) as [v [E Hv]]. exists v, u. split; [|auto]. change ((f x, u) = (Ret v, u)). now rewrite E.
      - apply std_cross_exp.
    Qed.

    Lemma goal_value (cfg : ga_config U vec) : ga_goal cfg = (fun x => cpure (f x)) -> forall t x v, Forall (genuine cfg) t -> evaluated t x v -> f x = Ret v.
    Proof.
      intros Eg t x v Ht Hi. rewrite Forall_forall in Ht. destruct (Ht _ Hi) as [u [u' E]]. rewrite Eg in E.
      unfold cpure in E. congruence.
    Qed.

    (** Whatever a run returns. *)
    Lemma ga_main_result fuel r w res p' u' t : ~ In (After 0) rs ->
      ga_main program fuel r w = (Ret (res, p'), u', t) ->
      exists x v, res = Some (x, v) /\ solves f box x v /\ 0 < iteration p' /\ stopped_by rs (iteration p') v.
    Proof.
      intros H0. destruct ga_program_fits as [cfg [Ep [Hfit [Hs Hg]]]]. rewrite Ep. unfold ga_main. intros E.
      destruct (ga_find_fits _ _ _ _ _ _ _ _ _ _ _ _ _ _ Hfit (world_new r w) E) as [F1 [F2 [F3 F4]]].
      change (@settled_best vec (in_box box) finite p') in F2.
      assert (Hl : Forall selection_copies (ga_selections cfg)).
      { eapply Forall_impl; [|exact Hs]. intros g. apply (standard_selection_copies np32). }
      destruct (find_min_rest cfg fuel _ _ _ _ _ _ Hl E) as [_ [H2 [_ H4]]].
      destruct (best_individual p') as [b|] eqn:Eb.
      - exists (chromosomes b), (fitness b). unfold settled_best in F2. rewrite Eb in F2. destruct F2 as [F2 [B1 B2]].
        assert (Er : res = Some (chromosomes b, fitness b)) by (rewrite H4; unfold GaFacts.solution; now rewrite Eb).
        split; [exact Er|]. split; [|split; [lia|]].
        + split; [exact B1|]. split; [|exact B2]. apply (goal_value cfg Hg t); [|].
          * exact (find_min_genuine cfg fuel _ _ _ _ _ E).
          * eapply solution_valued; [exact H2|]. rewrite <- H4. exact Er.
        + apply (reasons_stopped rs (pop_view p') (chromosomes b)); [|exact F3]. unfold pop_view. simpl. now rewrite Eb.
      - exfalso. unfold settled_best in F2. rewrite Eb in F2. apply (reasons_first rs (pop_view p')); auto.
        unfold pop_view. simpl. now rewrite Eb.
    Qed.
    Lemma ga_main_never_panics fuel r w : fst (fst (ga_main program fuel r w)) <> Panic.
    Proof.
      destruct ga_program_fits as [cfg [Ep [Hfit _]]]. rewrite Ep. unfold ga_main.
      exact (ga_find_never_panics _ _ _ _ _ _ _ _ _ _ Hfit (world_new r w)).
    Qed.
    Lemma ga_main_ends k fuel r w : In (After k) rs -> ~ In (After 0) rs -> k < fuel ->
      exists x v p' u' t, ga_main program fuel r w = (Ret (Some (x, v), p'), u', t) /\
        solves f box x v /\ 0 < iteration p' <= k /\ stopped_by rs (iteration p') v.
    Proof.
      intros Hk H0 Hfu. destruct ga_program_fits as [cfg [Ep [Hfit [Hs Hg]]]].
      destruct (ga_find_returns _ _ _ _ _ _ _ k fuel pop_new _ Hfit (reasons_stop rs k Hk) Hfu (world_new r w))
        as [res [p' [u' [t [E [_ [Hi _]]]]]]].
      assert (Em : ga_main program fuel r w = (Ret (res, p'), u', t)) by (rewrite Ep; exact E).
      destruct (ga_main_result fuel r w res p' u' t H0 Em) as [x [v [-> [A [B C]]]]].
      exists x, v, p', u', t. auto.
    Qed.

    (** Two runs, with MaxIterations(k1) and then MaxIterations(k2). *)
    Lemma fits_set_stop answers answers' born fit raw kk (cfg : ga_config U vec) stop' :
      ga_fits born fit world_ok answers raw kk cfg ->
      (forall q, always (world_ok Running (as_iter q)) (answers' q) (stop' q)) ->
      ga_fits born fit world_ok answers' raw kk (ga_set_stop_checker cfg stop').
    Proof. intros [] H. constructor; auto. intros p _. exact (H (ga_view p)). Qed.

    Lemma ga_iterative_ends k1 k2 fuel r w : rs = [After k1] -> 0 < k1 -> k1 <= k2 -> k2 < fuel ->
      exists x1 v1 p1 x2 v2 p2 u' t,
        ga_main_iterative program (max_iterations k2) fuel r w
          = (Ret (Some (x1, v1), p1, (Some (x2, v2), p2)), u', t) /\
        solves f box x1 v1 /\ iteration p1 = k1 /\ solves f box x2 v2 /\ iteration p2 = k2.
    Proof.
      intros Ers H1 H2 Hfu. destruct ga_program_fits as [cfg [Ep [Hfit [Hs Hg]]]]. rewrite Ers in Hfit.
      assert (S1 : stops_by k1 (reasons [After k1])) by (apply reasons_stop; simpl; auto).
      assert (S2 : stops_by k2 (reasons [After k2])) by (apply reasons_stop; simpl; auto).
      destruct (standard_ga_run np32 world_ok _ _ _ cfg box k1 fuel pop_new _ Hfit Hs S1 ltac:(lia) (world_new r w))
        as [r1 [p1 [u1 [t1 [E1 [A1 [B1 [C1 [D1 [F1 [G1 [K1 U1]]]]]]]]]]]].
      pose proof (reasons_after _ _ B1) as I1. simpl in I1.
      assert (Ei1 : iteration p1 = k1) by lia.
      pose proof (ga_find_fits _ _ _ _ _ _ _ _ _ _ _ _ _ _ Hfit (world_new r w) E1) as [_ [St1 _]].
      set (cfg2 := ga_set_stop_checker cfg (max_iterations k2)).
      assert (Hfit2 : ga_fits (in_box box) finite world_ok (reasons [After k2]) (dim (List.length box)) 2 cfg2).
      { eapply fits_set_stop; [exact Hfit|]. intros q. apply reasons_max. }
      set (ok := fun c : ga_config U vec =>
        Forall (@standard_selection 24 128 _ _ np32 U box) (ga_selections c) /\ ga_goal c = (fun x => cpure (f x))).
      assert (R1 : ga_reach ok p1 t1).
      { eapply ga_reach_find; [|apply ga_reach_new|exact E1]. split; auto. }
      destruct (standard_ga_next np32 world_ok ok (reasons [After k2]) _ _ cfg2 box k2 fuel p1 t1 u1
        (fun c Hc => proj1 Hc) R1 (conj Hs Hg) C1 St1 Hfit2 S2 ltac:(lia) (world_rests _ _ U1))
        as [r2 [p2 [u2 [t2 [E2 [A2 [B2 [C2 [_ [D2 [F2 [G2 [K2 U2]]]]]]]]]]]]].
      pose proof (reasons_after _ _ B2) as I2. simpl in I2.
      assert (Ei2 : iteration p2 = k2) by lia.
      destruct r1 as [[x1 v1]|]; [|exfalso; pose proof (proj1 G1 eq_refl); lia].
      destruct r2 as [[x2 v2]|]; [|exfalso; pose proof (proj1 G2 eq_refl); lia].
      exists x1, v1, p1, x2, v2, p2, u2, (t1 ++ t2). split.
      { unfold ga_main_iterative. rewrite Ep. unfold mbind.
        change (@ga_find_min U vec cfg fuel pop_new (World r gnc_new None w) = (Ret (Some (x1, v1), p1), u1, t1)) in E1.
        change (@ga_next_iterations U vec cfg2 fuel p1 u1 = (Ret (Some (x2, v2), p2), u2, t2)) in E2.
        rewrite E1. cbn [snd]. fold cfg2. rewrite E2. cbn. now rewrite app_nil_r. }
      destruct (K1 _ _ eq_refl) as [P1 [P2 P3]]. destruct (K2 _ _ eq_refl) as [Q1 [Q2 Q3]].
      assert (V : forall x v, evaluated (t1 ++ t2) x v -> f x = Ret v).
      { assert (R2 : ga_reach ok p2 (t1 ++ t2)) by (eapply ga_reach_next; [|exact R1|exact E2]; split; auto).
        pose proof (reach_genuine ok p2 (t1 ++ t2) R2) as G. rewrite Forall_forall in G.
        intros x v Hx. destruct (G _ Hx) as [c [[_ Eg] [u [u' E]]]]. rewrite Eg in E. unfold cpure in E. congruence. }
      split; [split; [exact P1|split; [apply V, in_or_app; left; exact P3|exact P2]]|]. split; [exact Ei1|].
      split; [split; [exact Q1|split; [apply V; exact Q3|exact Q2]]|exact Ei2].
    Qed.
  End Genetic.

  (** ** Particle swarm programs *)
  Section Swarm.
    Variables (lo hi : f32) (n d : nat) (calc : swarm f32 -> particle f32 -> comp U vec) (f : vec -> outcome f64)
      (post_velocity moves : list (vec -> comp U vec))
      (rs : list reason) (stop : stop_checker U vec) (loggers : list (logger U vec)).
    Notation box := (cube d lo hi).
    Notation program := (@pso_program W np32 np64 lo hi n d (Ret calc) (fun x => cpure (f x)) post_velocity (Ret moves) (Ret stop) loggers).
    Notation find := (@pso_find_min U f32 (FloatIEEE np32)).
    Notation next := (@pso_next_iterations U f32 (FloatIEEE np32)).

    Hypothesis Hlo : is_finite lo = true.
    Hypothesis Hhi : is_finite hi = true.
    Hypothesis Hlh : ltb lo hi = true.
    Hypothesis Hn : 0 < n.
    Hypothesis Hcalc : @standard_calc 24 128 _ _ np32 np32 np64 U at_rng calc.
    Hypothesis Htotal : forall x : vec, List.length x = d -> exists v, f x = Ret v.
    Hypothesis Hf : forall x, in_box box x -> exists v, f x = Ret v /\ is_finite v = true.
    Hypothesis Hpost : Forall (@standard_post_velocity 24 128 _ _ np32 U d) post_velocity.
    Hypothesis Hmoves : Forall (@standard_post_move 24 128 _ _ np32 np32 _ U at_rng d) moves.
    Hypothesis Hstop : forall q, always (world_ok Running (as_iter q)) (reasons rs q) (stop q).
    Hypothesis Hlog : logging_fits (fun _ => True) world_ok loggers.

    (** The configurations of the program. *)
    Definition in_swarm (c : pso_config U f32) : Prop :=
      (exists earlier, pso_post_move c = earlier ++ [fun x => cpure (@move_to_boundary f32 (FloatIEEE np32) box x)]) /\
      pso_goal c = (fun x => cpure (f x)).

    Lemma swarm_good : good_intervals32 box.
    Proof. intros a b Hi. apply repeat_spec in Hi. injection Hi as -> ->. auto. Qed.
    Lemma cube_length : List.length box = d.
    Proof. apply repeat_length. Qed.

    Lemma pso_program_fits : exists cfg, program = Ret cfg /\
      pso_fits world_ok (reasons rs) d n cfg /\ in_swarm cfg.
    Proof.
      unfold pso_program, Gene32, Float32. fold (cube d lo hi). cbn [obind].
      eexists. split; [reflexivity|]. split; [|split; [exists moves|]; reflexivity].
      pose proof (@PsoStandard.standard_fits32 U at_rng rng_ok world_ok world_lasting np32 np64 box n (reasons rs)
        (fun x => cpure (f x)) stop (cret (@zero_velocities f32 (FloatIEEE np32) d n))
        calc post_velocity moves loggers) as H.
      rewrite cube_length in H. apply H; auto.
      - exact swarm_good.
      - intros ph i x Hx u Hu. destruct (Htotal x Hx) as [v E]. exists v, u. split; [|auto].
        change ((f x, u) = (Ret v, u)). now rewrite E.
      - apply std_zero32.
    Qed.

    Lemma swarm_value h (x : vec) v : Forall (fun e => exists c, in_swarm c /\ pso_genuine c e) h -> evaluated h x v -> f x = Ret v.
    Proof.
      intros H Hi. rewrite Forall_forall in H. destruct (H _ Hi) as [c [[_ Eg] [u [u' E]]]]. rewrite Eg in E.
      unfold cpure in E. congruence.
    Qed.
    Lemma swarm_solution s h cfg fuel u x v s' u' t :
      pso_reach (FT := FloatIEEE np32) in_swarm s h -> in_swarm cfg ->
      find cfg fuel s u = (Ret (Some (x, v), s'), u', t) \/ next cfg fuel s u = (Ret (Some (x, v), s'), u', t) ->
      solves f box x v.
    Proof.
      intros Hr Hc E.
      destruct (pso_in_box np32 box in_swarm s h cfg fuel u (Ret (Some (x, v), s')) u' t
        (good_intervals_box32 box swarm_good) (fun c Hc => proj1 Hc) Hr Hc E) as [_ [_ K]].
      destruct (K _ _ eq_refl) as [_ K2].
      assert (Hx : in_box box x) by (eapply K2; eauto).
      destruct (Hf x Hx) as [v' [E1 E2]].
      assert (Ev : f x = Ret v).
      { destruct E as [E|E].
        - apply (swarm_value t); [|exact (proj1 (@pso_result_evaluated U f32 (FloatIEEE np32) in_swarm s h cfg fuel u x v s' u' t Hr) E)].
          apply (@pso_reach_genuine U f32 (FloatIEEE np32) in_swarm s' t). eapply pso_reach_find; eauto.
        - apply (swarm_value (h ++ t)); [|exact (proj2 (@pso_result_evaluated U f32 (FloatIEEE np32) in_swarm s h cfg fuel u x v s' u' t Hr) E)].
          apply (@pso_reach_genuine U f32 (FloatIEEE np32) in_swarm s' (h ++ t)). eapply pso_reach_next; eauto. }
      split; [exact Hx|]. split; [exact Ev|]. congruence.
    Qed.

    Lemma pso_main_never_panics fuel r w : fst (fst (pso_main np32 program fuel r w)) <> Panic.
    Proof.
      destruct pso_program_fits as [cfg [Ep [Hfit _]]]. rewrite Ep. unfold pso_main.
      exact (@pso_find_never_panics U f32 (FloatIEEE np32) _ _ _ _ _ _ _ _ Hfit (world_new r w)).
    Qed.
    (** Whatever a run returns. *)
    Lemma pso_main_result fuel r w res s' u' t :
      pso_main np32 program fuel r w = (Ret (res, s'), u', t) ->
      exists x v, res = Some (x, v) /\ solves f box x v /\ stopped_by rs (sw_iteration s') v.
    Proof.
      destruct pso_program_fits as [cfg [Ep [Hfit Hin]]]. rewrite Ep. unfold pso_main. intros E.
      destruct (@pso_find_answer U f32 (FloatIEEE np32) _ _ _ _ _ _ _ _ _ _ _ _ Hfit (world_new r w) E) as [A1 A2].
      destruct (@pso_find_fits U f32 (FloatIEEE np32) _ _ _ _ _ _ _ _ _ _ _ _ Hfit (world_new r w) E) as [_ [_ [A3 _]]].
      destruct res as [[x v]|]; [|exfalso; pose proof (proj1 A2 eq_refl); lia].
      exists x, v. split; [reflexivity|]. split.
      - eapply swarm_solution; [apply pso_reach_new|exact Hin|left; exact E].
      - apply (reasons_stopped rs (swarm_view s') x); auto.
    Qed.
    Lemma pso_main_ends m fuel r w : In (After m) rs -> m < fuel ->
      exists x v s' u' t, pso_main np32 program fuel r w = (Ret (Some (x, v), s'), u', t) /\
        solves f box x v /\ sw_iteration s' <= m /\ stopped_by rs (sw_iteration s') v.
    Proof.
      intros Hm Hfu. destruct pso_program_fits as [cfg [Ep [Hfit Hin]]].
      destruct (@pso_find_returns U f32 (FloatIEEE np32) _ _ _ _ cfg m fuel swarm_new _ Hfit (reasons_stop rs m Hm) Hfu (world_new r w))
        as [res [s' [u' [t [E [A [B [C [D [G _]]]]]]]]]].
      assert (Em : pso_main np32 program fuel r w = (Ret (res, s'), u', t)) by (rewrite Ep; exact E).
      destruct (pso_main_result fuel r w res s' u' t Em) as [x [v [-> [P Q]]]].
      exists x, v, s', u', t. auto.
    Qed.

    Lemma pso_fits_set_stop answers answers' (cfg : pso_config U f32) stop' :
      pso_fits world_ok answers d n cfg ->
      (forall q, always (world_ok Running (as_iter q)) (answers' q) (stop' q)) ->
      pso_fits world_ok answers' d n (pso_set_stop_checker cfg stop').
    Proof. intros [] H. constructor; auto. intros s _. exact (H (pso_view s)). Qed.

    Lemma pso_iterative_ends k1 k2 fuel r w : rs = [After k1] -> k1 <= k2 -> k2 < fuel ->
      exists x1 v1 s1 x2 v2 s2 u' t,
        pso_main_iterative np32 program (max_iterations k2) fuel r w
          = (Ret (Some (x1, v1), s1, (Some (x2, v2), s2)), u', t) /\
        solves f box x1 v1 /\ sw_iteration s1 = k1 /\ solves f box x2 v2 /\ sw_iteration s2 = k2 /\
        leb v2 v1 = true.
    Proof.
      intros Ers H2 Hfu. destruct pso_program_fits as [cfg [Ep [Hfit Hin]]]. rewrite Ers in Hfit.
      assert (S1 : stops_by k1 (reasons [After k1])) by (apply reasons_stop; simpl; auto).
      assert (S2 : stops_by k2 (reasons [After k2])) by (apply reasons_stop; simpl; auto).
      destruct (@pso_find_returns U f32 (FloatIEEE np32) _ _ _ _ cfg k1 fuel swarm_new _ Hfit S1 ltac:(lia) (world_new r w))
        as [r1 [s1 [u1 [t1 [E1 [A1 [B1 [C1 [D1 [G1 U1]]]]]]]]]].
      pose proof (reasons_after _ _ G1) as I1. simpl in I1.
      assert (Ei1 : sw_iteration s1 = k1) by lia.
      set (cfg2 := pso_set_stop_checker cfg (max_iterations k2)).
      assert (Hfit2 : pso_fits world_ok (reasons [After k2]) d n cfg2).
      { eapply pso_fits_set_stop; [exact Hfit|]. intros q. apply reasons_max. }
      assert (Hin2 : in_swarm cfg2) by exact Hin.
      destruct (@pso_next_returns U f32 (FloatIEEE np32) _ _ _ _ cfg2 k2 fuel s1 u1 Hfit2 S2 ltac:(lia) (world_rests _ _ U1) A1)
        as [r2 [s2 [u2 [t2 [E2 [A2 [B2 [C2 [D2 [G2 U2]]]]]]]]]].
      pose proof (reasons_after _ _ G2) as I2. simpl in I2.
      assert (Ei2 : sw_iteration s2 = k2) by lia.
      destruct r1 as [[x1 v1]|]; [|exfalso; pose proof (proj1 C1 eq_refl); lia].
      destruct r2 as [[x2 v2]|]; [|exfalso; pose proof (proj1 C2 eq_refl) as K; rewrite K in B1; simpl in B1; lia].
      assert (R1 : pso_reach (FT := FloatIEEE np32) in_swarm s1 t1) by (eapply pso_reach_find; [exact Hin|apply pso_reach_new|exact E1]).
      exists x1, v1, s1, x2, v2, s2, u2, (t1 ++ t2). split.
      { unfold pso_main_iterative. rewrite Ep. unfold mbind, Float32.
        change (find cfg fuel swarm_new (World r gnc_new None w) = (Ret (Some (x1, v1), s1), u1, t1)) in E1.
        rewrite E1. cbn [snd]. fold cfg2. rewrite E2. cbn. now rewrite app_nil_r. }
      split; [eapply swarm_solution; [apply pso_reach_new|exact Hin|left; exact E1]|]. split; [exact Ei1|].
      split; [eapply swarm_solution; [exact R1|exact Hin2|right; exact E2]|]. split; [exact Ei2|].
      assert (V1 : evaluated t1 x1 v1)
        by exact (proj1 (@pso_result_evaluated U f32 (FloatIEEE np32) in_swarm swarm_new [] cfg fuel _ x1 v1 s1 u1 t1 (pso_reach_new _)) E1).
      assert (F1 : is_finite v1 = true).
      { destruct (swarm_solution swarm_new [] cfg fuel _ x1 v1 s1 u1 t1 (pso_reach_new _) Hin (or_introl E1)) as [_ [_ K]]. exact K. }
      exact (proj2 (proj2 (@pso_least_value U f32 (FloatIEEE np32) in_swarm s1 t1 cfg2 fuel u1 x2 v2 s2 u2 t2 R1) E2 x1 v1
        (in_or_app _ _ _ (or_introl V1)) F1)).
    Qed.
  End Swarm.
End Examples.
