(** * Facts about runs put together from facts about single calls *)

From Coq Require Import List Arith ZArith Bool Lia.
From Verif Require Import Base Logic FloatModel GaModel PsoModel SpecGa SpecPso SpecRun SpecLog
  GaFacts PsoFacts LoopFacts.
Import ListNotations.

(** ** Programs all of whose calls satisfy a relation between events and environments *)
Section Rel.
  Context {U T S X : Type}.
  Notation ev := (event T S X).
  Variable Rel : list ev -> U -> U -> Prop.
  Hypothesis Rel_nil : forall u, Rel [] u u.
  Hypothesis Rel_app : forall t1 t2 u u1 u2, Rel t1 u u1 -> Rel t2 u1 u2 -> Rel (t1 ++ t2) u u2.

  Definition mrel {A} (m : M U ev A) : Prop :=
    forall u a u' t, m u = (Ret a, u', t) -> Rel t u u'.

  Lemma mrel_ret {A} (a : A) : mrel (mret a).
  Proof. intros u b u' t H. minv H. apply Rel_nil. Qed.
  Lemma mrel_pure {A} (o : outcome A) : mrel (pure o).
  Proof. intros u b u' t H. minv H. apply Rel_nil. Qed.
  Lemma mrel_emit e : (forall u, Rel [e] u u) -> mrel (emit e).
  Proof. intros He u b u' t H. minv H. apply He. Qed.
  Lemma mrel_bind {A B} (m : M U ev A) (k : A -> M U ev B) :
    mrel m -> (forall a, mrel (k a)) -> mrel (mbind m k).
  Proof.
    intros Hm Hk u b u' t H. apply Logic.mbind_ret in H. destruct H as [a [u1 [t1 [t2 [E1 [E2 ->]]]]]].
    eapply Rel_app; [eapply Hm|eapply Hk]; eauto.
  Qed.
  Lemma mrel_fold {A S'} (f : S' -> A -> M U ev S') l s :
    (forall s x, In x l -> mrel (f s x)) -> mrel (mfold f l s).
  Proof.
    revert s. induction l as [|x l IH]; intros s H; simpl; [apply mrel_ret|].
    apply mrel_bind; [apply H; now left|]. intros s'. apply IH. intros. apply H. now right.
  Qed.
  Lemma mrel_mapM {A B} (f : A -> M U ev B) l :
    (forall x, In x l -> mrel (f x)) -> mrel (mmapM f l).
  Proof.
    induction l as [|x l IH]; intros H; simpl; [apply mrel_ret|].
    apply mrel_bind; [apply H; now left|]. intros y. apply mrel_bind; [|intros; apply mrel_ret].
    apply IH. intros. apply H. now right.
  Qed.
  Lemma mrel_comp {A} (rec : A -> X) (c : comp U A) :
    (forall u a u', c u = (Ret a, u') -> Rel [ECall (rec a)] u u') -> mrel (call_comp rec c).
  Proof.
    intros H u a u' t E. unfold call_comp in E. minv E. simpl. now apply H.
  Qed.
  Lemma mrel_goal goal x :
    (forall u v u', goal x u = (Ret v, u') -> Rel [EEval x; EValue x v] u u') -> mrel (call_goal goal x).
  Proof.
    intros H u a u' t E. unfold call_goal in E. minv E. simpl. now apply H.
  Qed.
  Lemma mrel_stop view stop s :
    (forall u b u', stop (view s) u = (Ret b, u') -> Rel [EStop s b] u u') -> mrel (call_stop view stop s).
  Proof.
    intros H u a u' t E. unfold call_stop in E. minv E. simpl. now apply H.
  Qed.
  Lemma mrel_loggers view k ls s :
    (forall i l u u', nth_error ls i = Some l -> lg_method k l (view s) u = (Ret tt, u') -> Rel [ELog k i s] u u') ->
    mrel (call_loggers view k ls s).
  Proof.
    unfold call_loggers, enumerate.
    assert (G : forall n, (forall i l u u', nth_error ls i = Some l -> lg_method k l (view s) u = (Ret tt, u') ->
        Rel [ELog k (n + i) s] u u') ->
      mrel (mfor (fun il => emit (ELog k (fst il) s) ;;; call (lg_method k (snd il) (view s)))
        (combine (seq n (length ls)) ls))).
    { induction ls as [|l ls IH]; intros n H; simpl; [apply mrel_ret|].
      apply mrel_bind.
      - intros v [] v' t E. minv E. simpl in *.
        match goal with h : lg_method _ _ _ ?a = (_, ?b) |- _ => specialize (H 0 l a b eq_refl h) end.
        rewrite Nat.add_0_r in H. auto.
      - intros _. apply IH. intros i l' u u' Hi. specialize (H (Datatypes.S i) l' u u' Hi).
        now replace (Datatypes.S n + i) with (n + Datatypes.S i) by lia. }
    intros H. apply G. exact H.
  Qed.

  Lemma mrel_gloop view step stop fuel s :
    (forall s, mrel (step s)) ->
    (forall s u b u', stop (view s) u = (Ret b, u') -> Rel [EStop s b] u u') ->
    mrel (@gloop U T S X view step stop fuel s).
  Proof.
    intros Hs Hc. revert s. induction fuel as [|fuel IH]; intros s; simpl; [intros u a u' t H; discriminate|].
    apply mrel_bind; [apply mrel_stop; auto|]. intros [|]; [apply mrel_ret|].
    apply mrel_bind; auto.
  Qed.
End Rel.

(** ** The genetic optimizer *)
Section Ga.
  Context {U T : Type}.
  Implicit Types (cfg : ga_config U T) (p : population T).
  Notation ev := (ga_event T).

  (** The body of an iteration up to the loggers. *)
  Definition ga_body cfg p : M U ev (population T) :=
    cs <- run_pairing cfg p ;;
    ms <- mmapM (fun c => call_comp (CMutate c) (ga_mutation cfg c)) cs ;;
    born <- mfold (fun cs f => emit (ESee p) ;;; call_comp (CPreBirth p cs) (f p cs)) (ga_pre_births cfg) ms ;;
    p1 <- pop_append cfg p born ;;
    p2 <- mfold (fun q f => emit (ESee q) ;;; l <- call_comp (CSelect q) (f q) ;; mret (set_individuals q l))
                (ga_selections cfg) p1 ;;
    p3 <- pure (update_best_worst (remove_dead p2)) ;;
    mret (pop_next_iteration p3).
  Lemma ga_iteration_body cfg p u :
    ga_iteration cfg p u =
    (p' <- ga_body cfg p ;; (call_loggers pop_view LNext (ga_loggers cfg) p' ;;; mret p')) u.
  Proof.
    unfold ga_iteration, ga_body.
    do 6 (rewrite mbind_assoc; apply mbind_ext; [reflexivity|]; intros ? ?).
    now rewrite LoopFacts.mbind_ret.
  Qed.

  Variable Rel : list ev -> U -> U -> Prop.
  Definition ga_rel cfg : Prop :=
    (forall x u v u', ga_goal cfg x u = (Ret v, u') -> Rel [EEval x; EValue x v] u u') /\
    (forall p u b u', ga_stop cfg (pop_view p) u = (Ret b, u') -> Rel [EStop p b] u u') /\
    (forall u xs u', ga_creator cfg u = (Ret xs, u') -> Rel [ECall (CCreate xs)] u u') /\
    (forall p u l u', ga_pairing cfg p u = (Ret l, u') -> Rel [ECall (CPairs p l)] u u') /\
    (forall xs u ys u', ga_cross cfg xs u = (Ret ys, u') -> Rel [ECall (CCross xs ys)] u u') /\
    (forall x u y u', ga_mutation cfg x u = (Ret y, u') -> Rel [ECall (CMutate x y)] u u') /\
    (forall f p u l u', In f (ga_selections cfg) -> f p u = (Ret l, u') -> Rel [ECall (CSelect p l)] u u') /\
    (forall f p xs u ys u', In f (ga_pre_births cfg) -> f p xs u = (Ret ys, u') -> Rel [ECall (CPreBirth p xs ys)] u u') /\
    (forall p u, Rel [ESee p] u u).
  Definition ga_logs cfg : Prop :=
    forall k i l p u u', nth_error (ga_loggers cfg) i = Some l -> lg_method k l (pop_view p) u = (Ret tt, u') ->
      Rel [ELog k i p] u u'.
  Hypothesis Rel_nil : forall u, Rel [] u u.
  Hypothesis Rel_app : forall t1 t2 u u1 u2, Rel t1 u u1 -> Rel t2 u1 u2 -> Rel (t1 ++ t2) u u2.

  Lemma mrel_eq {A} (m1 m2 : M U ev A) : (forall u, m1 u = m2 u) -> mrel Rel m2 -> mrel Rel m1.
  Proof. intros E H u a u' t. rewrite E. apply H. Qed.

  Lemma mrel_append cfg p xs : ga_rel cfg -> mrel Rel (pop_append cfg p xs).
  Proof.
    intros [H _]. apply mrel_fold; auto. intros q x _. apply mrel_bind; auto; [apply mrel_goal; auto|].
    intros v. now apply mrel_ret.
  Qed.
  Lemma mrel_ga_init cfg p : ga_rel cfg -> mrel Rel (ga_init cfg p).
  Proof.
    intros H. apply mrel_bind; auto; [apply mrel_comp, H|]. intros. now apply mrel_append.
  Qed.
  Lemma mrel_ga_body cfg p : ga_rel cfg -> mrel Rel (ga_body cfg p).
  Proof.
    intros H. pose proof H as [Hg [Hst [Hc [Hp [Hx [Hm [Hs [Hb Hsee]]]]]]]]. unfold ga_body.
    apply mrel_bind; auto.
    { unfold run_pairing. apply mrel_bind; auto; [now apply mrel_emit|]. intros _.
      apply mrel_bind; auto; [apply mrel_comp; auto|]. intros pairs. apply mrel_fold; auto. intros acc pair _.
      apply mrel_bind; auto; [now apply mrel_pure|]. intros fam.
      apply mrel_bind; auto; [apply mrel_comp; auto|]. intros cs. now apply mrel_ret. }
    intros cs. apply mrel_bind; auto; [apply mrel_mapM; auto; intros c _; apply mrel_comp; auto|]. intros ms.
    apply mrel_bind; auto.
    { apply mrel_fold; auto. intros xs f Hf. apply mrel_bind; auto; [now apply mrel_emit|]. intros _.
      apply mrel_comp. eauto. }
    intros born. apply mrel_bind; auto; [now apply mrel_append|]. intros p1.
    apply mrel_bind; auto.
    { apply mrel_fold; auto. intros q f Hf. apply mrel_bind; auto; [now apply mrel_emit|]. intros _.
      apply mrel_bind; auto; [apply mrel_comp; eauto|]. intros l. now apply mrel_ret. }
    intros p2. apply mrel_bind; auto; [now apply mrel_pure|]. intros p3. now apply mrel_ret.
  Qed.
  Lemma mrel_ga_step cfg p : ga_rel cfg -> ga_logs cfg -> mrel Rel (ga_iteration cfg p).
  Proof.
    intros H Hl. eapply mrel_eq; [apply ga_iteration_body|].
    apply mrel_bind; auto; [now apply mrel_ga_body|]. intros q.
    apply mrel_bind; auto; [apply mrel_loggers; auto; intros; eapply Hl; eauto|]. intros _. now apply mrel_ret.
  Qed.
  Lemma mrel_ga_next cfg fuel p : ga_rel cfg -> ga_logs cfg -> mrel Rel (ga_next_iterations cfg fuel p).
  Proof.
    intros H Hl. eapply mrel_eq; [apply ga_next_gnext|].
    apply mrel_bind; auto; [apply mrel_loggers; auto; intros; eapply Hl; eauto|]. intros _.
    apply mrel_bind; auto; [apply mrel_gloop; auto; [intros; now apply mrel_ga_step|apply H]|]. intros q.
    apply mrel_bind; auto; [apply mrel_loggers; auto; intros; eapply Hl; eauto|]. intros _. now apply mrel_ret.
  Qed.
  Lemma mrel_ga_find cfg fuel p : ga_rel cfg -> ga_logs cfg -> mrel Rel (ga_find_min cfg fuel p).
  Proof.
    intros H Hl. eapply mrel_eq; [apply ga_find_gfind|].
    apply mrel_bind; auto; [now apply mrel_ga_init|]. intros q.
    apply mrel_bind; auto; [apply mrel_loggers; auto; intros; eapply Hl; eauto|]. intros _.
    eapply mrel_eq; [intros u; symmetry; apply ga_next_gnext|]. now apply mrel_ga_next.
  Qed.
End Ga.

(** ** The particle swarm *)
Section Pso.
  Context {U T : Type} {FT : FloatTrait T}.
  Implicit Types (cfg : pso_config U T) (s : swarm T).
  Notation ev := (pso_event T).

  Definition pso_body cfg s : M U ev (swarm T) :=
    s1 <- mfold (pso_particle cfg) (seq 0 (length (particles s))) s ;;
    s2 <- pure (update_best_particle s1) ;;
    s3 <- pure (update_worst_particle s2) ;;
    mret (swarm_next_iteration s3).
  Lemma pso_iteration_body cfg s u :
    pso_iteration cfg s u =
    (s' <- pso_body cfg s ;; (call_loggers swarm_view LNext (pso_loggers cfg) s' ;;; mret s')) u.
  Proof.
    unfold pso_iteration, pso_body.
    do 3 (rewrite mbind_assoc; apply mbind_ext; [reflexivity|]; intros ? ?).
    now rewrite LoopFacts.mbind_ret.
  Qed.

  Variable Rel : list ev -> U -> U -> Prop.
  Definition pso_rel cfg : Prop :=
    (forall x u v u', pso_goal cfg x u = (Ret v, u') -> Rel [EEval x; EValue x v] u u') /\
    (forall s u b u', pso_stop cfg (swarm_view s) u = (Ret b, u') -> Rel [EStop s b] u u') /\
    (forall u xs u', pso_coordinates cfg u = (Ret xs, u') -> Rel [ECall (PCoordinates xs)] u u') /\
    (forall u vs u', pso_velocities cfg u = (Ret vs, u') -> Rel [ECall (PVelocities vs)] u u') /\
    (forall s p u v u', pso_calc cfg s p u = (Ret v, u') -> Rel [ECall (PCalc s p v)] u u') /\
    (forall f v u w u', In f (pso_post_velocity cfg) -> f v u = (Ret w, u') -> Rel [ECall (PPostVelocity v w)] u u') /\
    (forall f x u y u', In f (pso_post_move cfg) -> f x u = (Ret y, u') -> Rel [ECall (PPostMove x y)] u u') /\
    (forall s u, Rel [ESee s] u u).
  Definition pso_logs cfg : Prop :=
    forall k i l s u u', nth_error (pso_loggers cfg) i = Some l -> lg_method k l (swarm_view s) u = (Ret tt, u') ->
      Rel [ELog k i s] u u'.
  Hypothesis Rel_nil : forall u, Rel [] u u.
  Hypothesis Rel_app : forall t1 t2 u u1 u2, Rel t1 u u1 -> Rel t2 u1 u2 -> Rel (t1 ++ t2) u u2.

  Lemma mrel_eq_pso {A} (m1 m2 : M U ev A) : (forall u, m1 u = m2 u) -> mrel Rel m2 -> mrel Rel m1.
  Proof. intros E H u a u' t. rewrite E. apply H. Qed.
  Lemma mrel_move cfg x : pso_rel cfg -> mrel Rel (run_post_move cfg x).
  Proof.
    intros [_ [_ [_ [_ [_ [_ [H _]]]]]]]. unfold run_post_move. apply mrel_fold; auto.
    intros y f Hf. apply mrel_comp. eauto.
  Qed.
  Lemma mrel_pso_init cfg s : pso_rel cfg -> mrel Rel (renew_swarm cfg s).
  Proof.
    intros H. pose proof H as [Hg [Hst [Hc [Hv _]]]]. unfold renew_swarm.
    apply mrel_bind; auto; [apply mrel_comp; auto|]. intros coords.
    apply mrel_bind; auto; [apply mrel_comp; auto|]. intros vels.
    apply mrel_bind; auto; [now apply mrel_pure|]. intros _.
    apply mrel_bind; auto; [apply mrel_mapM; auto; intros; now apply mrel_move|]. intros coords'.
    apply mrel_bind; auto; [|intros; now apply mrel_pure]. apply mrel_mapM; auto.
    intros cs _. apply mrel_bind; auto; [apply mrel_goal; auto|]. intros y. now apply mrel_ret.
  Qed.
  Lemma mrel_pso_body cfg s : pso_rel cfg -> mrel Rel (pso_body cfg s).
  Proof.
    intros H. pose proof H as [Hg [Hst [Hc [Hv [Hk [Hpv [Hpm Hsee]]]]]]]. unfold pso_body.
    apply mrel_bind; auto.
    { apply mrel_fold; auto. intros q n _. unfold pso_particle. apply mrel_bind; auto; [now apply mrel_pure|]. intros p.
      apply mrel_bind; auto; [now apply mrel_emit|]. intros _.
      apply mrel_bind; auto; [apply mrel_comp; auto|]. intros v0.
      apply mrel_bind; auto; [apply mrel_fold; auto; intros v f Hf; apply mrel_comp; eauto|]. intros v. cbn zeta.
      apply mrel_bind; auto; [now apply mrel_move|]. intros x.
      apply mrel_bind; auto; [apply mrel_goal; auto|]. intros y.
      apply mrel_bind; auto; [now apply mrel_pure|]. intros ps. now apply mrel_ret. }
    intros s1. apply mrel_bind; auto; [now apply mrel_pure|]. intros s2.
    apply mrel_bind; auto; [now apply mrel_pure|]. intros s3. now apply mrel_ret.
  Qed.
  Lemma mrel_pso_step cfg s : pso_rel cfg -> pso_logs cfg -> mrel Rel (pso_iteration cfg s).
  Proof.
    intros H Hl. eapply mrel_eq_pso; [apply pso_iteration_body|].
    apply mrel_bind; auto; [now apply mrel_pso_body|]. intros q.
    apply mrel_bind; auto; [apply mrel_loggers; auto; intros; eapply Hl; eauto|]. intros _. now apply mrel_ret.
  Qed.
  Lemma mrel_pso_next cfg fuel s : pso_rel cfg -> pso_logs cfg -> mrel Rel (pso_next_iterations cfg fuel s).
  Proof.
    intros H Hl. eapply mrel_eq_pso; [apply pso_next_gnext|].
    apply mrel_bind; auto; [apply mrel_loggers; auto; intros; eapply Hl; eauto|]. intros _.
    apply mrel_bind; auto; [apply mrel_gloop; auto; [intros; now apply mrel_pso_step|apply H]|]. intros q.
    apply mrel_bind; auto; [apply mrel_loggers; auto; intros; eapply Hl; eauto|]. intros _. now apply mrel_ret.
  Qed.
  Lemma mrel_pso_find cfg fuel s : pso_rel cfg -> pso_logs cfg -> mrel Rel (pso_find_min cfg fuel s).
  Proof.
    intros H Hl. eapply mrel_eq_pso; [apply pso_find_gfind|].
    apply mrel_bind; auto; [now apply mrel_pso_init|]. intros q.
    apply mrel_bind; auto; [apply mrel_loggers; auto; intros; eapply Hl; eauto|]. intros _.
    eapply mrel_eq_pso; [intros u; symmetry; apply pso_next_gnext|]. now apply mrel_pso_next.
  Qed.
End Pso.
