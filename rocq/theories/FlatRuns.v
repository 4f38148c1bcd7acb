(** * Runs in which the goal value never changes: proofs *)

From Coq Require Import List Arith ZArith Bool Lia Reals Lra String Sorting.Sorted.
From Flocq Require Import Core IEEE754.BinarySingleNaN IEEE754.Binary.
From Verif Require Import Base Logic FloatModel Rng FloatFacts ArithFacts GaModel GaComponents StopModel LogModel TestFuncModel ExampleModel
  SpecGa SpecBits SpecBox SpecRand SpecStandard SpecPossible SpecTest SpecExample SpecClosed SpecSteady SpecRun SpecStop SpecSettle SpecTotal
  RandFacts CreateFacts PossibleFacts PossibleRuns GaFacts GaSafety GaTheorems LoopFacts StopProofs StopRuns SettleFacts LimitFacts GaTotal GaStandard ExampleFacts ExampleRuns ClosedFacts SteadyFacts SteadyRuns.
Import ListNotations.
Local Open Scope nat_scope.

(** ** What a run that returned had asked *)
Section Asked.
  Context {U G T S X : Type}.
  Notation ev := (event T S X).
  Variable view : S -> alg_state T.
  Variable step : S -> M U ev S.
  Variable ls : list (logger U T).
  Variable l : lens U G.
  Variable chk : alg_state T -> comp G bool.
  Variable stop : alg_state T -> comp U bool.
  Hypothesis Hno : no_later l chk stop.
  Hypothesis Hstep : forall s, mkeeps (lget l) (step s).
  Hypothesis Hls : forall lg k s, In lg ls -> keeps (lget l) (lg_method k lg s).
  Notation num s := (as_iter (view s)).
  Hypothesis step_num : forall s u s' u' t, step s u = (Ret s', u', t) -> num s' = num s + 1.

  Definition went_on (s : S) (g : G) (s' : S) (sts : list (S * bool)) : Prop :=
    exists qs g', sts = map (fun q => (q, false)) qs ++ [(s', true)] /\
      asked (map (fun q => chk (view q)) qs) g (repeat false (List.length qs)) g' /\
      map (fun q => num q) qs = seq (num s) (List.length qs) /\ num s' = num s + List.length qs.

  Lemma gloop_went fuel : forall s u s' u' t, gloop view step stop fuel s u = (Ret s', u', t) -> went_on s (lget l u) s' (stops t).
  Proof.
    induction fuel as [|fuel IH]; intros s u s' u' t H; cbn [gloop] in H; [discriminate H|].
    unfold call_stop, mbind, call, emit in H.
    destruct (stop (view s) u) as [[b| |] u1] eqn:Es; [|discriminate H|discriminate H]. destruct b.
    - cbn [mret app] in H. injection H as -> -> <-. exists [], (lget l u). split; [reflexivity|]. split; [constructor|]. cbn. auto.
    - apply Hno in Es. cbn [mret app] in H. pose proof (Hstep s u1) as [Hk Hs].
      destruct (step s u1) as [[[s1| |] u2] t2] eqn:Et; [|discriminate H|discriminate H].
      cbn [fst snd] in Hk, Hs. pose proof (step_num _ _ _ _ _ Et) as Hn.
      destruct (gloop view step stop fuel s1 u2) as [[[s3| |] u3] t3] eqn:Eg; [|discriminate H|discriminate H].
      injection H as -> -> <-. destruct (IH _ _ _ _ _ Eg) as [qs [g' [E [A [N K]]]]].
      exists (s :: qs), g'. cbn [stops map app List.length repeat seq].
      rewrite stops_app, Hs, E. split; [reflexivity|]. split.
      { econstructor; [exact Es|]. rewrite <- Hk. exact A. }
      split; [rewrite N, Hn, Nat.add_1_r; reflexivity|]. rewrite K, Hn. lia.
  Qed.
  Lemma loggers_quiet k s u o u' t : call_loggers view k ls s u = (o, u', t) -> lget l u' = lget l u /\ @stops T S X t = [].
  Proof. intros H. pose proof (mkeeps_loggers (X := X) (lget l) view k ls s Hls u) as [A B]. rewrite H in A, B. auto. Qed.
  Lemma gfind_went init fuel u r s' u' t : mkeeps (lget l) init -> gfind view step ls init stop fuel u = (Ret (r, s'), u', t) ->
    exists s0 u0 t0, init u = (Ret s0, u0, t0) /\ went_on s0 (lget l u) s' (stops t).
  Proof.
    intros Hk H. unfold gfind, mbind at 1 in H. specialize (Hk u).
    destruct (init u) as [[[s0| |] u0] t0] eqn:E0; [|discriminate H|discriminate H]. cbn [fst snd] in Hk. destruct Hk as [K0 S0].
    exists s0, u0, t0. split; [reflexivity|]. unfold gnext, mbind in H.
    destruct (call_loggers view LStart ls s0 u0) as [[[[]| |] u1] t1] eqn:E1; [|discriminate H|discriminate H].
    destruct (call_loggers view LResume ls s0 u1) as [[[[]| |] u2] t2] eqn:E2; [|discriminate H|discriminate H].
    destruct (gloop view step stop fuel s0 u2) as [[[s3| |] u3] t3] eqn:E3; [|discriminate H|discriminate H].
    destruct (call_loggers view LFinish ls s3 u3) as [[[[]| |] u4] t4] eqn:E4; [|discriminate H|discriminate H].
    destruct (loggers_quiet _ _ _ _ _ _ E1) as [K1 S1], (loggers_quiet _ _ _ _ _ _ E2) as [K2 S2], (loggers_quiet _ _ _ _ _ _ E4) as [K4 S4].
    unfold mret in H. assert (s3 = s') by congruence. subst s3. assert (Et : t = t0 ++ t1 ++ t2 ++ t3 ++ t4 ++ []) by congruence.
    rewrite Et, !stops_app, S0, S1, S2, S4. cbn [app stops]. rewrite app_nil_r. rewrite <- K0, <- K1, <- K2. exact (gloop_went _ _ _ _ _ _ E3).
  Qed.
End Asked.

(** ** One value only *)
Lemma flat_bound np64 dbg m delta v {T} (qs : list (population T)) g g' :
  is_finite v = true -> is_finite delta = true -> ltb (b_of_Z 0) delta = true ->
  (forall q, In q qs -> 0 < iteration q -> exists b, best_individual q = Some b /\ fitness b = v) ->
  map (fun q => as_iter (pop_view q)) qs = seq 0 (List.length qs) -> change_iter g = 0 ->
  asked (map (fun q => goal_not_change np64 dbg m delta (pop_view q)) qs) g (repeat false (List.length qs)) g' ->
  List.length qs <= 1 + 2 * (m + 1).
Proof.
  intros Fv Fd Pd Hb Hn Hc Hq. destruct qs as [|q0 qs]; [cbn; lia|].
  cbn [List.length map seq repeat] in *. injection Hn as H0 Hn. change (map (fun q => as_iter (pop_view q)) qs = seq 1 (List.length qs)) in Hn.
  inversion Hq as [|x1 x2 x3 x4 g1 x5 x6 Hq0 Hq1]; subst x1 x2 x3 x4 x5 x6.
  assert (C1 : change_iter g1 <= 1).
  { unfold goal_not_change in Hq0. destruct (as_best (pop_view q0)) as [[x w]|].
    - cbv zeta in Hq0. apply (f_equal snd) in Hq0. cbn [snd] in Hq0. rewrite <- Hq0.
      match goal with |- context [if ?b then _ else _] => destruct b end; cbn [change_iter]; [|lia]. unfold pop_view in *. cbn [as_iter] in *. lia.
    - apply (f_equal snd) in Hq0. cbn [snd] in Hq0. rewrite <- Hq0. lia. }
  assert (P : forall q, In q qs -> 0 < iteration q).
  { intros q Hin. assert (Hi : In (as_iter (pop_view q)) (seq 1 (List.length qs))) by (rewrite <- Hn; exact (in_map (fun q => as_iter (pop_view q)) qs q Hin)).
    apply in_seq in Hi. cbn [pop_view as_iter] in Hi. lia. }
  assert (V : forall q, In q qs -> exists b, best_individual q = Some b /\ fitness b = v) by (intros q Hin; apply Hb; [now right|now apply P]).
  assert (Lv : leb v v = true) by (apply leb_key; assert (is_nan v = false) by (destruct v; try discriminate Fv; reflexivity); repeat split; auto; lra).
  assert (St : steps_between v v delta 0) by (split; [exact Fv|]; split; [exact Fv|]; split; [exact Fd|]; split; [exact Pd|]; cbn; lra).
  apply le_n_S.
  rewrite <- (map_map pop_view (goal_not_change np64 dbg m delta)) in Hq1. rewrite <- (map_map pop_view as_iter) in Hn.
  rewrite <- (map_length pop_view) in *.
  eapply Nat.le_trans; [apply (quiet_bound np64 dbg m 0 v v delta St _ 1 1 g1 g'); [exact Hn|exact C1| | |left; lia|exact Hq1]|lia].
  - apply Forall_forall. intros a Hin. apply in_map_iff in Hin. destruct Hin as [q [<- Hin]]. destruct (V q Hin) as [b [Eb Ev]].
    exists (chromosomes b), (fitness b). unfold pop_view. cbn [as_best]. rewrite Eb, Ev. split; [reflexivity|]. auto.
  - apply strongly_sorted_split. intros a x b y c E.
    assert (Vx : forall z, In z (map pop_view qs) -> match as_best z with Some (_, w) => w | None => v end = v).
    { intros z Hz. apply in_map_iff in Hz. destruct Hz as [q [<- Hz]]. destruct (V q Hz) as [b' [Eb Ev]]. unfold pop_view. cbn [as_best]. now rewrite Eb. }
    rewrite !Vx; [exact Lv| |]; rewrite E; rewrite ?in_app_iff; cbn [In]; rewrite ?in_app_iff; cbn [In]; tauto.
Qed.

(** ** The programs leave the stop checker alone *)
Section Programs.
  Context {W : Type}.
  Notation U := (world W).
  Notation gnc_is g := (fun u : U => w_gnc u = g).
  Lemma keeps_steady {A} (m : comp U A) : (forall g, steady (gnc_is g) m) -> keeps (lget at_gnc) m.
  Proof. intros H u. exact (H _ u eq_refl). Qed.
  Lemma gnc_zoom {A} g (m : comp rng A) : steady (gnc_is g) (zoom at_rng m).
  Proof. intros u Hu. unfold zoom. cbn [lget at_rng]. destruct (m (w_rng u)) as [o r]. exact Hu. Qed.
  Lemma gnc_started {A} g (m : comp (option Z) A) : steady (gnc_is g) (zoom at_started m).
  Proof. intros u Hu. unfold zoom. cbn [lget at_started]. destruct (m (w_started u)) as [o r]. exact Hu. Qed.
  Lemma gnc_rest {A} g (m : comp W A) : steady (gnc_is g) (zoom at_rest m).
  Proof. intros u Hu. unfold zoom. cbn [lget at_rest]. destruct (m (w_rest u)) as [o r]. exact Hu. Qed.
  Variables (write : string -> comp W bool) (now : comp W Z) (fmt : formatter f32).
  Lemma gnc_line g s : steady (gnc_is g) (writeln (print write) s).
  Proof. unfold writeln. steadily. apply gnc_rest. Qed.
  Lemma gnc_verbose k s : keeps (lget at_gnc) (told_by k (verbose write fmt) s).
  Proof.
    apply keeps_steady. intros g. destruct k; cbn [told_by verbose verbose_logger lg_start lg_resume lg_next lg_finish]; unfold silent;
      try apply steady_ret. destruct (as_best s) as [[x v]|]; [apply gnc_line|apply steady_ret].
  Qed.
  Lemma gnc_result k s : keeps (lget at_gnc) (told_by k (result_only write fmt) s).
  Proof.
    apply keeps_steady. intros g. destruct k; cbn [told_by result_only result_only_logger lg_start lg_resume lg_next lg_finish]; unfold silent;
      try apply steady_ret. unfold result_only_finish. apply steady_bind; [|intros ?; apply gnc_line].
    destruct (as_best s) as [[x v]|]; [|apply gnc_line]. cbv zeta. apply steady_bind; [apply gnc_line|intros ?; apply gnc_line].
  Qed.
  Lemma gnc_time k s : keeps (lget at_gnc) (told_by k (time write now fmt) s).
  Proof.
    apply keeps_steady. intros g. destruct k; cbn [told_by time time_logger lg_start lg_resume lg_next lg_finish]; unfold silent; try apply steady_ret.
    - apply steady_bind; [apply gnc_rest|intros ?]. apply gnc_started.
    - apply steady_bind; [apply gnc_started|intros ?]. apply steady_bind; [apply gnc_rest|intros ?]. apply gnc_line.
  Qed.

  Variables (np32 : nan_policy 24 128) (np64 : nan_policy 53 1024).
  Context {LM : Libm f32}.
  Variable dbg : bool.
  Section General.
    Variables (lo hi : f32) (n d : nat) (f : list f32 -> outcome f64) (pairing : population (list f32) -> comp rng (list (list nat))) (prob : f64)
      (stop : stop_checker U (list f32)) (loggers : list (logger U (list f32))).
    Notation program := (@ga_program W np32 np64 LM dbg lo hi n d (fun x => cpure (f x)) pairing prob (Ret stop) loggers).
    Hypothesis Hlh : ltb lo hi = true.
    Hypothesis Hn : 0 < n.
    Hypothesis Hd : 0 < d.
    Hypothesis Hlog : forall l k s, In l loggers -> keeps (lget at_gnc) (told_by k l s).
    Lemma program_keeps cfg : program = Ret cfg -> ga_keeps (lget at_gnc) cfg.
    Proof.
      rewrite (program_is np32 np64 dbg lo hi n d f pairing prob stop loggers Hlh Hn Hd). intros E. injection E as <-. unfold ga_keeps.
      cbn [ga_set_loggers ga_new ga_goal ga_creator ga_stop ga_pairing ga_cross ga_mutation ga_pre_births ga_selections ga_loggers].
      split; [intros x; apply keeps_steady; intros g; apply steady_pure|].
      split; [apply keeps_steady; intros g; apply gnc_zoom|].
      split; [intros q; apply keeps_steady; intros g; apply gnc_zoom|].
      split; [intros xs; apply keeps_steady; intros g; unfold vec_cross_all_genes; steadily; apply gnc_zoom|].
      split.
      { intros x. apply keeps_steady. intros g. unfold vec_mutation. steadily; [apply gnc_zoom|].
        match goal with |- steady _ (if ?b then _ else _) => destruct b end; [apply gnc_zoom|apply steady_ret]. }
      split; [intros h q [<-|[<-|[]]]; apply keeps_steady; intros g; [apply steady_ret|apply steady_pure]|].
      split; [intros h q xs [<-|[]]; apply keeps_steady; intros g; apply steady_pure|]. exact Hlog.
    Qed.
  End General.

  (** ** Returning when only one point is ever asked about *)
  Section Flat.
    Variables (timed : bool) (lo hi : f32) (n d : nat) (f : list f32 -> outcome f64)
      (pairing : population (list f32) -> comp rng (list (list nat))) (prob : f64) (m : nat) (delta : f64) (loggers : list (logger U (list f32))).
    Notation with_stop stop := (@ga_program W np32 np64 LM dbg lo hi n d (fun x => cpure (f x)) pairing prob (Ret stop) loggers).
    Notation K := (2 * (m + 1) + 2).
    Notation alone := (composite_any [@not_change W np64 dbg m delta]).
    Notation limited := (composite_any [@not_change W np64 dbg m delta; max_iterations K]).
    Hypothesis HE : exact_exp2 LM.
    Hypothesis Hlo : is_finite lo = true.
    Hypothesis Hhi : is_finite hi = true.
    Hypothesis Hlh : ltb lo hi = true.
    Hypothesis Hn : 0 < n.
    Hypothesis Hd : 0 < d.
    Hypothesis Hpair : @standard_pairing 24 128 U at_rng (fun p => zoom at_rng (pairing p)).
    Hypothesis Hpair2 : forall q, steady (unlucky prob) (pairing q).
    Hypothesis Hf : forall x, in_box (cube d lo hi) x -> exists v, f x = Ret v /\ is_finite v = true.
    Hypothesis Hdelta : is_finite delta = true.
    Hypothesis Hpos : ltb (b_of_Z 0) delta = true.
    Hypothesis Hlog : logging_fits (fun _ => True) (world_ok timed) loggers.
    Hypothesis Hlog2 : Forall (steady_logger prob) loggers.
    Hypothesis Hlog3 : forall l k s, In l loggers -> keeps (lget at_gnc) (told_by k l s).

    Lemma limited_fits q : always (world_ok timed Running (as_iter q)) (reasons [Quiet m; After K] q) (limited q).
    Proof. apply (any_reasons np64 dbg). constructor; [eexists; reflexivity|]. repeat constructor. Qed.
    Lemma limited_is s u : limited s u = match alone s u with (Ret false, u1) => (Ret (K <=? as_iter s), u1) | x => x end.
    Proof.
      cbn [composite_any]. unfold cbind. destruct (@not_change W np64 dbg m delta s u) as [[[|]| |] u1]; try reflexivity.
      unfold max_iterations, cret. destruct (K <=? as_iter s); reflexivity.
    Qed.
    Lemma limited_later : no_later at_gnc (goal_not_change (T := list f32) np64 dbg m delta) limited.
    Proof.
      apply (any_no_later at_gnc (goal_not_change np64 dbg m delta) [] (@not_change W np64 dbg m delta) [max_iterations K]).
      - apply zoom_no_later. split; intros; try destruct u; reflexivity.
      - intros c [<-|[]] s u. reflexivity.
    Qed.

    Lemma limited_lives q : in_box (cube d lo hi) q -> ordinary q -> exists zs, forall fuel rest w o u' t, unlucky prob rest ->
      ga_main (with_stop limited) fuel (prepend zs rest) w = (o, u', t) -> lived_in (eq q) t /\ forall x v s', o = Ret (Some (x, v), s') -> x = q.
    Proof.
      intros B Hq.
      assert (Hst : forall s, steady (unlucky_world prob) (limited s)).
      { apply steady_any. apply Forall_cons; [intros s; apply steady_not_change|]. apply Forall_cons; [intros s; apply steady_max|]. apply Forall_nil. }
      destruct (@creator32_possible np64 np32 n (cube d lo hi) (RandomCreator n (cube d lo hi)) (repeat q n)
        (the_creator np32 np64 lo hi n d Hlh Hn Hd) (the_cube lo hi d Hlh Hlo Hhi) (repeat_length _ _))
        as [zs Hz]; [apply Forall_forall; intros y Hy; apply repeat_spec in Hy; now subst y|].
      exists zs. intros fuel rest w o u' t Hr.
      pose proof (program_steady np32 np64 dbg lo hi n d f pairing prob limited loggers Hlh Hn Hd Hpair2 Hst Hlog2) as PS.
      pose proof (program_closed np32 np64 dbg HE lo hi n d f pairing prob limited loggers Hlh Hn Hd) as PC.
      rewrite (program_is np32 np64 dbg lo hi n d f pairing prob limited loggers Hlh Hn Hd) in PS, PC |- *. cbn [ga_main]. intros H.
      destruct (while_find _ (unlucky_world prob) (eq q) (PS _ eq_refl) (PC _ q eq_refl Hq) fuel pop_new (World (prepend zs rest) gnc_new None w) o u' t (repeat q n) (World rest gnc_new None w))
        as (L & _ & R); [| | |exact H|].
      - cbn [ga_set_loggers ga_new ga_creator]. unfold zoom. cbn [lget at_rng w_rng]. rewrite Hz. reflexivity.
      - apply Forall_forall. intros y Hy. apply repeat_spec in Hy. now subst y.
      - exact Hr.
      - split; [exact L|]. intros x v s' ->. symmetry. exact (proj2 (R _ _ eq_refl) x v eq_refl).
    Qed.
    Lemma flat_returns q : in_box (cube d lo hi) q -> ordinary q -> can_return (ga_main (with_stop alone)) prob K q.
    Proof.
      intros B Hq.
      destruct (limited_lives q B Hq) as [zs Hz].
      exists zs. intros fuel rest w Hfu Hr.
      destruct (ga_program_fits np32 np64 dbg timed lo hi n d f pairing prob [Quiet m; After K] limited loggers Hlo Hhi Hlh Hn Hd Hpair Hf limited_fits Hlog)
        as [cfg [Ep [Hfit [Hs Hg]]]].
      destruct (ga_main_ends np32 np64 dbg timed lo hi n d f pairing prob [Quiet m; After K] limited loggers Hlo Hhi Hlh Hn Hd Hpair Hf limited_fits Hlog
        K fuel (prepend zs rest) w) as (x & v & p' & u' & t & E & _); [right; left; reflexivity| |exact Hfu|].
      { intros [C|[C|[]]]; [discriminate C|]. injection C as C. lia. }
      destruct (Hz fuel rest w _ u' t Hr E) as [[Hev Hin] Hx]. rewrite (Hx x v p' eq_refl) in E. clear Hx x.
      exists v, p', u', t. split; [|exact Hev].
      destruct (Hf q B) as [vq [Eq Fq]].
      pose proof (program_keeps lo hi n d f pairing prob limited loggers Hlh Hn Hd Hlog3 cfg Ep) as Hk.
      assert (E2 : ga_find_min cfg fuel pop_new (World (prepend zs rest) gnc_new None w) = (Ret (Some (q, v), p'), u', t)) by (rewrite Ep in E; exact E).
      assert (Hl : Forall selection_copies (ga_selections cfg)) by (eapply Forall_impl; [|exact Hs]; intros g; apply (standard_selection_copies np32)).
      pose proof (ok_find cfg Hl fuel pop_new [] (World (prepend zs rest) gnc_new None w) eq_refl) as G. rewrite E2 in G. destruct G as [[G _] _].
      pose proof (proj1 G : observations_valued t) as HO.
      pose proof (ga_find_seen _ _ _ _ _ _ cfg fuel pop_new _ Hfit (world_new timed (prepend zs rest) w)) as Seen. rewrite E2 in Seen. cbn [snd] in Seen.
      assert (Est : ga_stop cfg = limited).
      { rewrite (program_is np32 np64 dbg lo hi n d f pairing prob limited loggers Hlh Hn Hd) in Ep. injection Ep as <-. reflexivity. }
      assert (Lt : iteration p' < K).
      { rewrite ga_find_gfind in E2.
        destruct (gfind_went pop_view (ga_iteration cfg) (ga_loggers cfg) at_gnc (goal_not_change np64 dbg m delta) (ga_stop cfg)
          ltac:(rewrite Est; exact limited_later) (fun s => ga_keep_step _ cfg s Hk) (ga_loggers_keep at_gnc cfg Hk) (ga_step_num cfg)
          _ _ _ _ _ _ _ (ga_keep_init _ cfg pop_new Hk) E2) as (s0 & u0 & t0 & E0 & qs & g' & Es & A & N & Num).
        pose proof (ga_init_zero _ _ _ _ _ _ E0) as Z0. change (as_iter (pop_view s0)) with (iteration s0) in N, Num. rewrite Z0 in N, Num.
        assert (L : List.length qs <= 1 + 2 * (m + 1)).
        { apply (flat_bound np64 dbg m delta vq qs gnc_new g' Fq Hdelta Hpos); [|exact N|reflexivity|exact A].
          intros q1 Hq1 Hi. apply in_split in Hq1. destruct Hq1 as [a [b ->]].
          rewrite map_app in Es. cbn [map] in Es. rewrite <- app_assoc in Es. cbn [app] in Es. apply stops_split in Es. destruct Es as [t1 [t2 [Et _]]].
          rewrite Forall_forall in Seen. pose proof (Seen (EStop q1 false) ltac:(rewrite Et; apply in_elt)) as [_ Sb]. unfold settled_best in Sb.
          destruct (best_individual q1) as [b1|] eqn:Eb; [|lia]. exists b1. split; [reflexivity|].
          destruct (HO t1 (EStop q1 false) t2 q1 Et eq_refl) as [_ [Hb _]]. specialize (Hb b1 Eb).
          assert (Hin1 : evaluated t (chromosomes b1) (fitness b1)) by (rewrite Et; apply in_or_app; left; exact Hb).
          pose proof (goal_value f cfg Hg t _ _ (find_min_genuine cfg fuel _ _ _ _ _ ltac:(rewrite ga_find_gfind; exact E2)) Hin1) as Ef.
          assert (Ec : q = chromosomes b1).
          { apply (Hin (EStop q1 false) q1); [rewrite Et; apply in_elt|reflexivity|]. right. left. exact Eb. }
          rewrite <- Ec, Eq in Ef. congruence. }
        change (as_iter (pop_view p')) with (iteration p') in Num. lia. }
      clear - E Lt Hlh Hn Hd Hf.
      rewrite (program_is np32 np64 dbg lo hi n d f pairing prob limited loggers Hlh Hn Hd) in E.
      rewrite (program_is np32 np64 dbg lo hi n d f pairing prob alone loggers Hlh Hn Hd). cbn [ga_main] in E |- *.
      rewrite ga_find_gfind in E |- *. cbn [ga_set_loggers ga_new ga_stop ga_loggers] in E |- *.
      exact (gfind_couple pop_view _ loggers alone limited K limited_is _ fuel _ _ _ _ _ E Lt).
    Qed.
  End Flat.

  Hypothesis HE : exact_exp2 LM.
  Hypothesis Hwrite : accepts write.
  Hypothesis Hnow : ticks now.
  Lemma rosenbrock_can_return q : in_box (int_cube 3 (-2) 2) q -> ordinary q ->
    can_return (ga_main (@genetic_rosenbrock W write now fmt np32 np64 LM dbg)) (b_of_Z 85) (2 * (3000 + 1) + 2) q.
  Proof.
    unfold genetic_rosenbrock. rewrite any_cons.
    apply (flat_returns true (b_of_Z (-2)) (b_of_Z 2) 600 3 (@rosenbrock f32 (FloatIEEE np32) (ToF64_32 np64))
      (tournament_pairs (set_rounds_count (tournament_new (600 / 2)) 5)) (b_of_Z 85) 3000 f64_1em9 [verbose write fmt; result_only write fmt; time write now fmt]);
      [exact HE|vm_compute; reflexivity|vm_compute; reflexivity|vm_compute; reflexivity|lia|lia|now apply std_tournament|intros ?; apply steady_tournament
      |apply rosenbrock_box|vm_compute; reflexivity|vm_compute; reflexivity|now apply logs_all| |].
    - apply Forall_cons; [apply steady_verbose|]. apply Forall_cons; [apply steady_result|]. apply Forall_cons; [apply steady_time|]. apply Forall_nil.
    - intros l k s [<-|[<-|[<-|[]]]]; [apply gnc_verbose|apply gnc_result|apply gnc_time].
  Qed.
End Programs.
