(** * The genetic optimizer: the property theorems in the form they are published *)

From Coq Require Import List Arith ZArith Bool Lia.
From Verif Require Import Base Logic FloatModel GaModel SpecGa FloatFacts GaBest GaFacts GaSafety
  GaTheorems GaMore.
Import ListNotations.

Section Proofs.
  Context {U T : Type}.
  Notation ev := (ga_event T).
  Variable ok : ga_config U T -> Prop.
  Hypothesis ok_legal : forall cfg, ok cfg -> Forall selection_copies (ga_selections cfg).

  Lemma result_evaluated p h cfg fuel u x v p' u' t :
    ga_reach ok p h -> ok cfg ->
    (ga_find_min cfg fuel p u = (Ret (Some (x, v), p'), u', t) -> evaluated t x v) /\
    (ga_next_iterations cfg fuel p u = (Ret (Some (x, v), p'), u', t) -> evaluated (h ++ t) x v).
  Proof.
    intros Hr Hc. split; intros H.
    - destruct (find_min_rest _ _ _ _ _ _ _ _ (ok_legal _ Hc) H) as [_ [H2 [_ H4]]].
      eapply solution_valued; eauto.
    - destruct (reach_ok ok p h ok_legal Hr) as [I1 [I2 [I3 _]]].
      destruct (next_rest _ _ _ _ _ _ _ _ _ (ok_legal _ Hc) I1 I2 I3 H) as [_ [H2 [_ H4]]].
      eapply solution_valued; eauto.
  Qed.

  Lemma reach_genuine p h : ga_reach ok p h ->
    Forall (fun e => exists cfg, ok cfg /\ genuine cfg e) h.
  Proof.
    induction 1 as [|cfg fuel u p h r p' u' t Hc Hr IH H|cfg fuel u p h r p' u' t Hc Hr IH H].
    - constructor.
    - apply find_min_genuine in H. eapply Forall_impl; [|exact H]. eauto.
    - apply Forall_app. split; auto.
      apply next_genuine in H. eapply Forall_impl; [|exact H]. eauto.
  Qed.

  Lemma evaluated_real (f : T -> f64) (h : list ev) x v :
    (forall cfg, ok cfg -> ga_goal cfg = goal_from_function f) ->
    Forall (fun e => exists cfg, ok cfg /\ genuine cfg e) h -> evaluated h x v -> v = f x.
  Proof.
    intros Hf Hg Hx. rewrite Forall_forall in Hg. destruct (Hg _ Hx) as [cfg [Hc [u [u' E]]]].
    rewrite (Hf _ Hc) in E. unfold goal_from_function, cret in E. congruence.
  Qed.

  Lemma result_is_f (f : T -> f64) p h cfg fuel u x v p' u' t :
    (forall cfg, ok cfg -> ga_goal cfg = goal_from_function f) ->
    ga_reach ok p h -> ok cfg ->
    ga_find_min cfg fuel p u = (Ret (Some (x, v), p'), u', t) \/
    ga_next_iterations cfg fuel p u = (Ret (Some (x, v), p'), u', t) -> v = f x.
  Proof.
    intros Hf Hr Hc H.
    destruct (result_evaluated p h cfg fuel u x v p' u' t Hr Hc) as [H1 H2].
    destruct H as [H|H].
    - apply (evaluated_real f t x v Hf); auto.
      apply find_min_genuine in H. eapply Forall_impl; [|exact H]. eauto.
    - apply (evaluated_real f (h ++ t) x v Hf); auto. apply Forall_app. split.
      + now apply reach_genuine with (p := p).
      + apply next_genuine in H. eapply Forall_impl; [|exact H]. eauto.
  Qed.

  Lemma reports_settled p h cfg fuel u o u' t q :
    ga_reach ok p h -> ok cfg ->
    ga_find_min cfg fuel p u = (o, u', t) \/ ga_next_iterations cfg fuel p u = (o, u', t) ->
    reported t q -> iteration q > 0 -> settled q.
  Proof.
    intros Hr Hc H Hq Hit.
    destruct (reach_ok ok p h ok_legal Hr) as [I1 [I2 [I3 _]]].
    destruct H as [H|H].
    - pose proof (ok_find cfg (ok_legal _ Hc) fuel p [] u eq_refl) as G. rewrite H in G. simpl in G.
      assert (Hs : seen_ok t) by (destruct o; [destruct G as [[G _] _]| |]; exact G).
      destruct Hs as [_ [Hs _]]. auto.
    - pose proof (ok_next cfg (ok_legal _ Hc) fuel p h u) as G. rewrite H in G.
      assert (Hs : seen_ok (h ++ t)).
      { destruct o; [destruct G as [[G _] _]| |];
          try (apply G; split; [exact I1|split; [exact I2|exact I3]]); try exact G.
        split; [exact I1|split; [exact I2|exact I3]]. }
      destruct Hs as [_ [Hs _]]. apply Hs; auto.
      destruct Hq as [[b Hq]|[k [i Hq]]]; [left|right]; repeat eexists; apply in_or_app; eauto.
  Qed.

  Lemma observed_valued p h cfg fuel u o u' t :
    ga_reach ok p h -> ok cfg ->
    (ga_find_min cfg fuel p u = (o, u', t) -> observations_valued t) /\
    (ga_next_iterations cfg fuel p u = (o, u', t) -> observations_valued (h ++ t)).
  Proof.
    intros Hr Hc. destruct (reach_ok ok p h ok_legal Hr) as [I1 [I2 [I3 _]]].
    split; intros H.
    - pose proof (ok_find cfg (ok_legal _ Hc) fuel p [] u eq_refl) as G. rewrite H in G. simpl in G.
      destruct o; [destruct G as [[G _] _]| |]; apply G.
    - pose proof (ok_next cfg (ok_legal _ Hc) fuel p h u) as G. rewrite H in G.
      assert (R : ok_rest p h u) by (split; [exact I1|split; [exact I2|exact I3]]).
      specialize (G R). destruct o; [destruct G as [[G _] _]| |]; apply G.
  Qed.

  Lemma run_inside (S : T -> Prop) p h cfg fuel u o u' t :
    (forall cfg, ok cfg -> stays_in S cfg) ->
    ga_reach ok p h -> ok cfg ->
    ga_find_min cfg fuel p u = (o, u', t) \/ ga_next_iterations cfg fuel p u = (o, u', t) ->
    Forall S (evals t) /\
    (forall e q, In e t -> shows e = Some q -> inside S q) /\
    (forall x v p', o = Ret (Some (x, v), p') -> S x /\ inside S p').
  Proof.
    intros Hbox Hr Hc H.
    destruct (reach_ok ok p h ok_legal Hr) as [I1 [I2 [I3 _]]].
    pose proof (reach_boxed S ok p h Hbox Hr) as Hb.
    destruct H as [H|H].
    - pose proof (hoare_any _ _ (boxed S) [] u _ u' t (boxed_find S cfg fuel p (Hbox _ Hc))
                    (Forall_nil _) H) as HS. unfold boxed in HS. simpl in HS.
      pose proof (ok_find cfg (ok_legal _ Hc) fuel p [] u eq_refl) as G. rewrite H in G. simpl in G.
      assert (Hs : seen_ok t) by (destruct o; [destruct G as [[G _] _]| |]; exact G).
      split; [exact HS|]. split; [intros e q He Hq; eapply seen_inside; eauto|].
      intros x v p' ->. destruct G as [[_ [G _]] Gs]. simpl in *.
      assert (Hin : inside S p') by (eapply valued_inside; eauto; apply Hs).
      split; auto. unfold solution in Gs. destruct (best_individual p') as [b|] eqn:Eb; [|discriminate].
      inversion Gs; subst. apply Hin. auto.
    - pose proof (hoare_any _ _ (boxed S) h u _ u' t (boxed_next S cfg fuel p (Hbox _ Hc)) Hb H) as HS.
      unfold boxed in HS.
      pose proof (ok_next cfg (ok_legal _ Hc) fuel p h u) as G. rewrite H in G.
      assert (R : ok_rest p h u) by (split; [exact I1|split; [exact I2|exact I3]]). specialize (G R).
      assert (Hs : seen_ok (h ++ t)) by (destruct o; [destruct G as [[G _] _]| |]; exact G).
      split; [rewrite evals_app in HS; apply Forall_app in HS; apply HS|].
      split; [intros e q He Hq; eapply (seen_inside S (h ++ t)); eauto; apply in_or_app; auto|].
      intros x v p' ->. destruct G as [[_ [G _]] Gs]. simpl in *.
      assert (Hin : inside S p') by (eapply valued_inside; eauto; apply Hs).
      split; auto. unfold solution in Gs. destruct (best_individual p') as [b|] eqn:Eb; [|discriminate].
      inversion Gs; subst. apply Hin. auto.
  Qed.

  Lemma reach_invariants p h : ga_reach ok p h ->
    population_valued h p /\
    (iteration p > 0 -> settled p) /\
    (iteration p = 0 -> best_individual p = None /\ worst_individual p = None) /\
    iteration p = iterations_of h.
  Proof.
    intros Hr. destruct (reach_ok ok p h ok_legal Hr) as [I1 [I2 [I3 I4]]].
    split; [exact I2|]. split; [exact I3|]. split; [eapply reach_zero; eauto|exact I4].
  Qed.
End Proofs.

Section Plain.
  Context {U T : Type}.
  Implicit Types (cfg : ga_config U T) (p : population T).

  Lemma find_min_none cfg fuel p u r p' u' t :
    ga_find_min cfg fuel p u = (Ret (r, p'), u', t) ->
    (r = None <-> forall q b, In (EStop q b) t -> iteration q > 0 -> individuals q = []).
  Proof.
    intros H. apply ga_find_min_ret in H.
    destruct H as [-> [xs [vs [gens [t1 [Hl [Hg ->]]]]]]].
    pose proof (generations_none _ _ _ _ _ _ _ Hg) as Hn. simpl in Hn.
    assert (Hsol : solution p' = None <-> best_individual p' = None).
    { unfold solution. destruct (best_individual p'); split; congruence. }
    rewrite Hsol, Hn. split.
    - intros [_ Hall] q b Hin Hq.
      destruct Hin as [Hin|Hin]; [discriminate|].
      repeat (apply in_app_or in Hin; destruct Hin as [Hin|Hin]).
      + exfalso. eapply eval_events_no_stop; eauto.
      + exfalso. eapply log_events_no_stop; eauto.
      + exfalso. eapply log_events_no_stop; eauto.
      + eapply Hall; eauto.
      + exfalso. eapply log_events_no_stop; eauto.
    - intros Hall. split; auto. intros q b Hin Hq. apply (Hall q b); auto.
      right. do 3 (apply in_or_app; right). apply in_or_app. auto.
  Qed.

  Lemma find_min_evals cfg fuel p u r p' u' t :
    ga_find_min cfg fuel p u = (Ret (r, p'), u', t) -> evals t = births [] t.
  Proof.
    intros H. apply ga_find_min_ret in H.
    destruct H as [-> [xs [vs [gens [t1 [Hl [Hg ->]]]]]]].
    cbn [births evals]. rewrite births_app_eval, !births_app_log.
    rewrite (generations_births _ _ _ _ _ _ _ _ _ Hg). simpl.
    rewrite <- (app_nil_r (log_events LFinish _ _)), births_app_log. simpl.
    rewrite !evals_app.
    destruct (@eval_events_reading T _ (ga_call T) (fun p : population T => iteration p) 0 xs vs Hl)
      as [_ [_ ->]].
    repeat match goal with |- context [evals (log_events ?k ?n ?s)] =>
      rewrite (proj2 (proj2 (@log_events_reading T _ (ga_call T)
                               (fun p : population T => iteration p) 0 k n s))) end.
    simpl. rewrite ?app_nil_r. reflexivity.
  Qed.

  Lemma next_evals cfg fuel p u r p' u' t :
    ga_next_iterations cfg fuel p u = (Ret (r, p'), u', t) -> evals t = births [] t.
  Proof.
    intros H. apply ga_next_ret in H. destruct H as [-> [gens [t1 [Hg ->]]]].
    rewrite births_app_log, (generations_births _ _ _ _ _ _ _ _ _ Hg). simpl.
    rewrite <- (app_nil_r (log_events LFinish _ _)), births_app_log. simpl.
    rewrite !evals_app.
    repeat match goal with |- context [evals (log_events ?k ?n ?s)] =>
      rewrite (proj2 (proj2 (@log_events_reading T _ (ga_call T)
                               (fun p : population T => iteration p) 0 k n s))) end.
    simpl. rewrite ?app_nil_r. reflexivity.
  Qed.

  Lemma log_protocol k n i (s : population T) : i < n ->
    protocol (fun p : population T => iteration p) i (@log_events T _ (ga_call T) k n s)
    = [PLog k (iteration s)].
  Proof.
    intros Hi.
    rewrite (proj1 (@log_events_reading T _ (ga_call T) (fun p : population T => iteration p) i k n s)).
    destruct (Nat.ltb_spec i n); [reflexivity|lia].
  Qed.

  Lemma find_min_protocol cfg fuel p u r p' u' t i :
    ga_find_min cfg fuel p u = (Ret (r, p'), u', t) -> i < length (ga_loggers cfg) ->
    protocol (fun p : population T => iteration p) i t =
      PLog LStart 0 :: PLog LResume 0 :: rounds 0 (iteration p') ++ [PLog LFinish (iteration p')].
  Proof.
    intros H Hi. apply ga_find_min_ret in H.
    destruct H as [-> [xs [vs [gens [t1 [Hl [Hg ->]]]]]]].
    destruct (generations_protocol _ _ _ _ _ _ _ i Hi Hg) as [P1 [I1 _]]. simpl in P1, I1.
    cbn [protocol]. rewrite !protocol_app, P1, !log_protocol by auto.
    destruct (@eval_events_reading T _ (ga_call T) (fun p : population T => iteration p) i xs vs Hl)
      as [-> _].
    simpl. rewrite I1. reflexivity.
  Qed.

  Lemma next_protocol cfg fuel p u r p' u' t i :
    ga_next_iterations cfg fuel p u = (Ret (r, p'), u', t) -> i < length (ga_loggers cfg) ->
    exists k, iteration p' = iteration p + k /\
    protocol (fun p : population T => iteration p) i t =
      PLog LResume (iteration p) :: rounds (iteration p) k ++ [PLog LFinish (iteration p')].
  Proof.
    intros H Hi. apply ga_next_ret in H. destruct H as [-> [gens [t1 [Hg ->]]]].
    destruct (generations_protocol _ _ _ _ _ _ _ i Hi Hg) as [P1 [I1 _]].
    exists (length gens). split; auto.
    rewrite !protocol_app, P1, !log_protocol by auto. reflexivity.
  Qed.

  Lemma finish_state cfg fuel p u r p' u' t :
    ga_find_min cfg fuel p u = (Ret (r, p'), u', t) \/
    ga_next_iterations cfg fuel p u = (Ret (r, p'), u', t) ->
    (exists t0, t = t0 ++ EStop p' true :: log_events LFinish (length (ga_loggers cfg)) p') /\
    r = option_map (fun i => (chromosomes i, fitness i)) (best_individual p').
  Proof.
    assert (G : forall a b c (p : population T) t p' gens, generations a b c p t p' gens ->
                  exists t0, t = t0 ++ [EStop p' true]).
    { clear. induction 1 as [p|p g p1 t p2 born vals after gens Hg H [t0 ->]].
      - exists []. reflexivity.
      - exists (EStop p false :: g ++ t0). simpl. now rewrite app_assoc. }
    intros [H|H].
    - apply ga_find_min_ret in H. destruct H as [-> [xs [vs [gens [t1 [Hl [Hg ->]]]]]]].
      destruct (G _ _ _ _ _ _ _ Hg) as [t0 ->]. split; [|reflexivity].
      match goal with |- exists t0, ECall ?c :: ?a ++ ?b ++ ?d ++ _ = _ =>
        exists (ECall c :: a ++ b ++ d ++ t0) end.
      simpl. rewrite <- !app_assoc. reflexivity.
    - apply ga_next_ret in H. destruct H as [-> [gens [t1 [Hg ->]]]].
      destruct (G _ _ _ _ _ _ _ Hg) as [t0 ->]. split; [|reflexivity].
      exists (log_events LResume (length (ga_loggers cfg)) p ++ t0).
      rewrite <- !app_assoc. reflexivity.
  Qed.

  Lemma iteration_survivors cfg p u p' u' g :
    Forall selection_kills (ga_selections cfg) ->
    ga_iteration cfg p u = (Ret p', u', g) ->
    exists born vals after,
      generation (length (ga_pre_births cfg)) (length (ga_selections cfg))
                 (length (ga_loggers cfg)) p g p' born vals after /\
      Forall2 killed_from (individuals p ++ newborns born vals) after /\
      individuals p' =
        map fst (filter (fun ij => alive (snd ij))
                        (combine (individuals p ++ newborns born vals) after)).
  Proof.
    intros Hk H. pose proof (genuine_iteration_trace _ _ _ _ _ _ H) as Hg.
    apply ga_iteration_ret in H. destruct H as [born [vals [after H]]].
    exists born, vals, after. split; auto.
    assert (Hf : Forall2 killed_from (individuals p ++ newborns born vals) after).
    { destruct H. eapply selections_killed; eauto. subst g.
      repeat (apply Forall_app in Hg; destruct Hg as [? Hg]). auto. }
    split; auto. rewrite <- survivors_mask by auto. now destruct H.
  Qed.

  (** The main loop repeats such generations. *)
  Lemma run_generations cfg fuel p u r p' u' t :
    ga_next_iterations cfg fuel p u = (Ret (r, p'), u', t) ->
    exists gens t1,
      generations (length (ga_pre_births cfg)) (length (ga_selections cfg))
                  (length (ga_loggers cfg)) p t1 p' gens /\
      t = log_events LResume (length (ga_loggers cfg)) p ++ t1
          ++ log_events LFinish (length (ga_loggers cfg)) p'.
  Proof. intros H. apply ga_next_ret in H. apply H. Qed.
End Plain.
