(** * A run with a limit on the iterations and the run without: proofs *)

From Coq Require Import List Arith ZArith Bool Lia.
From Verif Require Import Base Logic FloatModel GaModel PsoModel StopModel SpecGa SpecPso SpecRun GaFacts GaTheorems PsoFacts PsoRuns LoopFacts StopProofs.
Import ListNotations.
Local Open Scope nat_scope.

(** ** The loops *)
Section Couple.
  Context {U T S X : Type}.
  Notation ev := (event T S X).
  Variable view : S -> alg_state T.
  Variable step : S -> M U ev S.
  Variable ls : list (logger U T).
  Variables (c c2 : alg_state T -> comp U bool) (K : nat).
  Hypothesis Hc : forall s u, c2 s u = match c s u with (Ret false, u1) => (Ret (K <=? as_iter s), u1) | x => x end.
  Notation num s := (as_iter (view s)).

  Lemma gloop_couple fuel : forall s u s' u' t, gloop view step c2 fuel s u = (Ret s', u', t) -> num s' < K ->
    gloop view step c fuel s u = (Ret s', u', t).
  Proof.
    induction fuel as [|fuel IH]; intros s u s' u' t H Hn; cbn [gloop] in H |- *; [discriminate H|].
    unfold call_stop, mbind, call, emit in H |- *. rewrite Hc in H.
    destruct (c (view s) u) as [[[|]| |] u1]; [exact H| |discriminate H|discriminate H].
    destruct (K <=? num s) eqn:E.
    - cbn [mret app] in H. injection H as -> _ _. apply Nat.leb_le in E. lia.
    - cbn [mret app] in H |- *. destruct (step s u1) as [[[s1| |] u2] t2]; [|discriminate H|discriminate H].
      destruct (gloop view step c2 fuel s1 u2) as [[[s3| |] u3] t3] eqn:Eg; [|discriminate H|discriminate H].
      injection H as -> -> Ht. rewrite (IH _ _ _ _ _ Eg Hn). now rewrite Ht.
  Qed.
  Lemma gnext_couple fuel s u r s' u' t : gnext view step ls c2 fuel s u = (Ret (r, s'), u', t) -> num s' < K ->
    gnext view step ls c fuel s u = (Ret (r, s'), u', t).
  Proof.
    unfold gnext. unfold mbind. intros H Hn.
    destruct (call_loggers view LResume ls s u) as [[[[]| |] u1] t1]; [|discriminate H|discriminate H].
    destruct (gloop view step c2 fuel s u1) as [[[s2| |] u2] t2] eqn:E; [|discriminate H|discriminate H].
    destruct (call_loggers view LFinish ls s2 u2) as [[[[]| |] u3] t3] eqn:E3; [|discriminate H|discriminate H].
    assert (s2 = s') by (unfold mret in H; congruence). subst s2.
    rewrite (gloop_couple _ _ _ _ _ _ E Hn), E3. exact H.
  Qed.
  Lemma gfind_couple init fuel u r s' u' t : gfind view step ls init c2 fuel u = (Ret (r, s'), u', t) -> num s' < K ->
    gfind view step ls init c fuel u = (Ret (r, s'), u', t).
  Proof.
    unfold gfind. unfold mbind at 1 2. intros H Hn. unfold mbind at 1 2.
    destruct (init u) as [[[s1| |] u1] t1]; [|discriminate H|discriminate H].
    unfold mbind in H |- *.
    destruct (call_loggers view LStart ls s1 u1) as [[[[]| |] u2] t2]; [|discriminate H|discriminate H].
    destruct (gnext view step ls c2 fuel s1 u2) as [[[[r3 s3]| |] u3] t3] eqn:E; [|discriminate H|discriminate H].
    assert (s3 = s') by congruence. subst s3. rewrite (gnext_couple _ _ _ _ _ _ _ E Hn). exact H.
  Qed.

  (** The other way round: the whole run is short enough. *)
  Hypothesis step_num : forall s u s' u' t, step s u = (Ret s', u', t) -> num s' = num s + 1.
  Lemma gloop_grows st fuel : forall s u s' u' t, gloop view step st fuel s u = (Ret s', u', t) -> num s <= num s'.
  Proof.
    induction fuel as [|fuel IH]; intros s u s' u' t H; cbn [gloop] in H; [discriminate H|]. unfold call_stop, mbind, call, emit in H.
    destruct (st (view s) u) as [[[|]| |] u1]; cbn [mret app] in H; [injection H as -> _ _; lia| |discriminate H|discriminate H].
    destruct (step s u1) as [[[s1| |] u2] t2] eqn:E1; [|discriminate H|discriminate H].
    destruct (gloop view step st fuel s1 u2) as [[[s3| |] u3] t3] eqn:Eg; [|discriminate H|discriminate H].
    injection H as -> _ _. apply step_num in E1. apply IH in Eg. lia.
  Qed.
  Lemma gloop_whole fuel : forall s u s' u' t, gloop view step c fuel s u = (Ret s', u', t) -> num s' <= K ->
    gloop view step c2 fuel s u = (Ret s', u', t).
  Proof.
    induction fuel as [|fuel IH]; intros s u s' u' t H Hn; cbn [gloop] in H |- *; [discriminate H|].
    unfold call_stop, mbind, call, emit in H |- *. rewrite Hc.
    destruct (c (view s) u) as [[[|]| |] u1]; [exact H| |discriminate H|discriminate H]. cbn [mret app] in H.
    destruct (step s u1) as [[[s1| |] u2] t2] eqn:E1; [|discriminate H|discriminate H].
    destruct (gloop view step c fuel s1 u2) as [[[s3| |] u3] t3] eqn:Eg; [|discriminate H|discriminate H].
    injection H as -> -> Ht. pose proof (step_num _ _ _ _ _ E1) as N. pose proof (gloop_grows _ _ _ _ _ _ _ Eg) as N2.
    destruct (K <=? num s) eqn:E; [apply Nat.leb_le in E; lia|]. cbn [mret app]. rewrite E1, (IH _ _ _ _ _ Eg Hn). now rewrite Ht.
  Qed.
  Lemma gloop_by fuel : forall s u s' u' t, gloop view step c2 fuel s u = (Ret s', u', t) -> num s <= K -> num s' <= K.
  Proof.
    induction fuel as [|fuel IH]; intros s u s' u' t H Hn; cbn [gloop] in H; [discriminate H|]. unfold call_stop, mbind, call, emit in H.
    rewrite Hc in H. destruct (c (view s) u) as [[[|]| |] u1]; [cbn [mret app] in H; injection H as -> _ _; exact Hn| |discriminate H|discriminate H].
    destruct (K <=? num s) eqn:E; cbn [mret app] in H; [injection H as -> _ _; exact Hn|]. apply Nat.leb_gt in E.
    destruct (step s u1) as [[[s1| |] u2] t2] eqn:E1; [|discriminate H|discriminate H].
    destruct (gloop view step c2 fuel s1 u2) as [[[s3| |] u3] t3] eqn:Eg; [|discriminate H|discriminate H].
    injection H as -> _ _. apply step_num in E1. apply IH in Eg; lia.
  Qed.
  Lemma gnext_whole fuel s u r s' u' t : gnext view step ls c fuel s u = (Ret (r, s'), u', t) -> num s' <= K ->
    gnext view step ls c2 fuel s u = (Ret (r, s'), u', t).
  Proof.
    unfold gnext. unfold mbind. intros H Hn.
    destruct (call_loggers view LResume ls s u) as [[[[]| |] u1] t1]; [|discriminate H|discriminate H].
    destruct (gloop view step c fuel s u1) as [[[s2| |] u2] t2] eqn:E; [|discriminate H|discriminate H].
    destruct (call_loggers view LFinish ls s2 u2) as [[[[]| |] u3] t3] eqn:E3; [|discriminate H|discriminate H].
    assert (s2 = s') by (unfold mret in H; congruence). subst s2.
    rewrite (gloop_whole _ _ _ _ _ _ E Hn), E3. exact H.
  Qed.
  Lemma gnext_by fuel s u r s' u' t : gnext view step ls c2 fuel s u = (Ret (r, s'), u', t) -> num s <= K -> num s' <= K.
  Proof.
    unfold gnext. unfold mbind. intros H Hn.
    destruct (call_loggers view LResume ls s u) as [[[[]| |] u1] t1]; [|discriminate H|discriminate H].
    destruct (gloop view step c2 fuel s u1) as [[[s2| |] u2] t2] eqn:E; [|discriminate H|discriminate H].
    destruct (call_loggers view LFinish ls s2 u2) as [[[[]| |] u3] t3] eqn:E3; [|discriminate H|discriminate H].
    assert (s2 = s') by (unfold mret in H; congruence). subst s2. exact (gloop_by _ _ _ _ _ _ E Hn).
  Qed.
  Lemma gfind_whole init fuel u r s' u' t : gfind view step ls init c fuel u = (Ret (r, s'), u', t) -> num s' <= K ->
    gfind view step ls init c2 fuel u = (Ret (r, s'), u', t).
  Proof.
    unfold gfind. unfold mbind. intros H Hn.
    destruct (init u) as [[[s1| |] u1] t1]; [|discriminate H|discriminate H].
    destruct (call_loggers view LStart ls s1 u1) as [[[[]| |] u2] t2]; [|discriminate H|discriminate H].
    destruct (gnext view step ls c fuel s1 u2) as [[[[r3 s3]| |] u3] t3] eqn:E; [|discriminate H|discriminate H].
    assert (s3 = s') by congruence. subst s3. rewrite (gnext_whole _ _ _ _ _ _ _ E Hn). exact H.
  Qed.
  Lemma gfind_by init fuel u r s' u' t : gfind view step ls init c2 fuel u = (Ret (r, s'), u', t) ->
    (forall s0 u0 t0, init u = (Ret s0, u0, t0) -> num s0 <= K) -> num s' <= K.
  Proof.
    unfold gfind. unfold mbind. intros H Hn.
    destruct (init u) as [[[s1| |] u1] t1]; [|discriminate H|discriminate H].
    destruct (call_loggers view LStart ls s1 u1) as [[[[]| |] u2] t2]; [|discriminate H|discriminate H].
    destruct (gnext view step ls c2 fuel s1 u2) as [[[[r3 s3]| |] u3] t3] eqn:E; [|discriminate H|discriminate H].
    assert (s3 = s') by congruence. subst s3. exact (gnext_by _ _ _ _ _ _ _ E (Hn _ _ _ eq_refl)).
  Qed.
End Couple.

(** ** CompositeAny with MaxIterations at the end *)
Lemma any_limit {U T} (cs : list (stop_checker U T)) K s u :
  composite_any (cs ++ [max_iterations K]) s u = match composite_any cs s u with (Ret false, u1) => (Ret (K <=? as_iter s), u1) | x => x end.
Proof.
  revert u. induction cs as [|c cs IH]; intros u; cbn [composite_any app].
  - unfold cbind, max_iterations, cret. destruct (K <=? as_iter s); reflexivity.
  - unfold cbind. destruct (c s u) as [[[|]| |] u1]; try reflexivity. apply IH.
Qed.

Section Optimizers.
  Context {U : Type}.
  Section Ga.
    Context {T : Type}.
    Variables (cfg : ga_config U T) (cs : list (stop_checker U T)) (K : nat).
    Notation whole := (ga_set_stop_checker cfg (composite_any cs)).
    Notation limited := (ga_set_stop_checker cfg (composite_any (cs ++ [max_iterations K]))).
    Lemma ga_iteration_limit p u : ga_iteration limited p u = ga_iteration whole p u.
    Proof. reflexivity. Qed.
    Lemma ga_next_limit fuel p u r p' u' t :
      (ga_next_iterations limited fuel p u = (Ret (r, p'), u', t) -> iteration p <= K -> iteration p' <= K) /\
      (ga_next_iterations limited fuel p u = (Ret (r, p'), u', t) -> iteration p' < K -> ga_next_iterations whole fuel p u = (Ret (r, p'), u', t)) /\
      (ga_next_iterations whole fuel p u = (Ret (r, p'), u', t) -> iteration p' <= K -> ga_next_iterations limited fuel p u = (Ret (r, p'), u', t)).
    Proof.
      rewrite !ga_next_gnext. cbn [ga_set_stop_checker ga_stop ga_loggers].
      split; [|split].
      - exact (gnext_by pop_view _ _ (composite_any cs) _ K (any_limit cs K) (ga_step_num _) fuel p u r p' u' t).
      - exact (gnext_couple pop_view _ _ (composite_any cs) _ K (any_limit cs K) fuel p u r p' u' t).
      - exact (gnext_whole pop_view _ _ (composite_any cs) _ K (any_limit cs K) (ga_step_num _) fuel p u r p' u' t).
    Qed.
    Lemma ga_find_limit fuel p u r p' u' t :
      (ga_find_min limited fuel p u = (Ret (r, p'), u', t) -> iteration p' <= K) /\
      (ga_find_min limited fuel p u = (Ret (r, p'), u', t) -> iteration p' < K -> ga_find_min whole fuel p u = (Ret (r, p'), u', t)) /\
      (ga_find_min whole fuel p u = (Ret (r, p'), u', t) -> iteration p' <= K -> ga_find_min limited fuel p u = (Ret (r, p'), u', t)).
    Proof.
      rewrite !ga_find_gfind. cbn [ga_set_stop_checker ga_stop ga_loggers].
      split; [|split].
      - intros H. apply (gfind_by pop_view _ _ (composite_any cs) _ K (any_limit cs K) (ga_step_num _) _ fuel u r p' u' t H).
        intros s0 u0 t0 E. apply ga_init_zero in E. change (iteration s0 <= K). lia.
      - exact (gfind_couple pop_view _ _ (composite_any cs) _ K (any_limit cs K) _ fuel u r p' u' t).
      - exact (gfind_whole pop_view _ _ (composite_any cs) _ K (any_limit cs K) (ga_step_num _) _ fuel u r p' u' t).
    Qed.
  End Ga.
  Section Pso.
    Context {T : Type} {FT : FloatTrait T}.
    Variables (cfg : pso_config U T) (cs : list (stop_checker U (list T))) (K : nat).
    Notation whole := (pso_set_stop_checker cfg (composite_any cs)).
    Notation limited := (pso_set_stop_checker cfg (composite_any (cs ++ [max_iterations K]))).
    Lemma pso_next_limit fuel s u r s' u' t :
      (pso_next_iterations limited fuel s u = (Ret (r, s'), u', t) -> sw_iteration s <= K -> sw_iteration s' <= K) /\
      (pso_next_iterations limited fuel s u = (Ret (r, s'), u', t) -> sw_iteration s' < K -> pso_next_iterations whole fuel s u = (Ret (r, s'), u', t)) /\
      (pso_next_iterations whole fuel s u = (Ret (r, s'), u', t) -> sw_iteration s' <= K -> pso_next_iterations limited fuel s u = (Ret (r, s'), u', t)).
    Proof.
      rewrite !pso_next_gnext. cbn [pso_set_stop_checker pso_stop pso_loggers].
      split; [|split].
      - exact (gnext_by swarm_view _ _ (composite_any cs) _ K (any_limit cs K) (pso_step_num _) fuel s u r s' u' t).
      - exact (gnext_couple swarm_view _ _ (composite_any cs) _ K (any_limit cs K) fuel s u r s' u' t).
      - exact (gnext_whole swarm_view _ _ (composite_any cs) _ K (any_limit cs K) (pso_step_num _) fuel s u r s' u' t).
    Qed.
    Lemma pso_find_limit fuel s u r s' u' t :
      (pso_find_min limited fuel s u = (Ret (r, s'), u', t) -> sw_iteration s' <= K) /\
      (pso_find_min limited fuel s u = (Ret (r, s'), u', t) -> sw_iteration s' < K -> pso_find_min whole fuel s u = (Ret (r, s'), u', t)) /\
      (pso_find_min whole fuel s u = (Ret (r, s'), u', t) -> sw_iteration s' <= K -> pso_find_min limited fuel s u = (Ret (r, s'), u', t)).
    Proof.
      rewrite !pso_find_gfind. cbn [pso_set_stop_checker pso_stop pso_loggers].
      split; [|split].
      - intros H. apply (gfind_by swarm_view _ _ (composite_any cs) _ K (any_limit cs K) (pso_step_num _) _ fuel u r s' u' t H).
        intros s0 u0 t0 E. apply pso_init_zero in E. change (sw_iteration s0 <= K). lia.
      - exact (gfind_couple swarm_view _ _ (composite_any cs) _ K (any_limit cs K) _ fuel u r s' u' t).
      - exact (gfind_whole swarm_view _ _ (composite_any cs) _ K (any_limit cs K) (pso_step_num _) _ fuel u r s' u' t).
    Qed.
  End Pso.
End Optimizers.

