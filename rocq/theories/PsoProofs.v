(** * The particle swarm optimizer: the property theorems in the form they are published *)

From Coq Require Import List Arith ZArith Bool Lia.
From Verif Require Import Base Logic FloatModel GaModel PsoModel SpecGa SpecPso FloatFacts GaBest
  GaFacts GaSafety GaTheorems GaMore PsoFacts PsoRuns PsoSafety.
Import ListNotations.

(** ** Which events a run records *)
Section Every.
  Context {U T : Type} {FT : FloatTrait T}.
  Variable cfg : pso_config U T.
  Notation ev := (pso_event T).
  Implicit Types (h t : list ev) (s : swarm T) (u : U).
  (** [S0]: starting points and sums before the post-moves; [S]: points the goal
      is called on; [V]: velocities. *)
  Variables S0 S V : list T -> Prop.
  Hypothesis K1 : forall u xs u', pso_coordinates cfg u = (Ret xs, u') -> Forall S0 xs.
  Hypothesis K2 : forall x, S0 x ->
    hoare (fun _ _ => True) (run_post_move cfg x) (fun y _ _ => S y) (fun _ _ => True).
  Hypothesis K3 : forall s p u v u', S (coordinates p) -> pso_calc cfg s p u = (Ret v, u') -> V v.
  Hypothesis K4 : forall f v u w u',
    In f (pso_post_velocity cfg) -> V v -> f v u = (Ret w, u') -> V w.
  Hypothesis K5 : forall x v, S x -> V v -> S0 (pointwise_sum x v).

  Definition fine (e : ev) : Prop :=
    pso_genuine cfg e /\ match e with EEval x => S x | EValue x _ => S x | _ => True end.
  Definition every h (u : U) : Prop := Forall fine h.
  Definition every_at s h (u : U) : Prop := every h u /\ Forall (fun p => S (coordinates p)) (particles s).

  Lemma every_emit e : fine e -> hoare every (emit e) (fun _ => every) every.
  Proof. intros He h u H. simpl. apply Forall_app. auto. Qed.

  Lemma every_call {A} (rec : A -> pso_call T) (c : comp U A) (R : A -> Prop) :
    (forall a u u', c u = (Ret a, u') -> pso_genuine cfg (ECall (rec a))) ->
    (forall a u u', c u = (Ret a, u') -> R a) ->
    hoare every (call_comp rec c) (fun a h u => every h u /\ R a) every.
  Proof.
    intros Hg HR. unfold call_comp.
    eapply hoare_mbind with (R := fun a h u => every h u /\ pso_genuine cfg (ECall (rec a)) /\ R a).
    - apply hoare_call; auto. intros h u a u' H Hc. split; eauto.
    - intros a. eapply hoare_mbind with (R := fun _ h u => every h u /\ R a).
      + intros h u [H1 [H2 H3]]. simpl. split; auto. apply Forall_app. repeat constructor; auto.
      + intros ?x. apply (hoare_mret a (fun a h u => every h u /\ R a)).
  Qed.

  Lemma every_goal x : S x -> hoare every (call_goal (pso_goal cfg) x) (fun _ => every) every.
  Proof.
    intros Hx. unfold call_goal. eapply hoare_mbind; [apply every_emit; split; [exact I|auto]|].
    intros ?x. eapply hoare_mbind with (R := fun v h u => every h u /\
                                 exists u u', pso_goal cfg x u = (Ret v, u')).
    - apply hoare_call; eauto.
    - intros v. eapply hoare_mbind with (R := fun _ => every).
      + intros h u [H1 H2]. simpl. apply Forall_app. repeat constructor; auto.
      + intros ?x. apply (hoare_mret v (fun _ => every)).
  Qed.

  Lemma every_post_move x : S0 x ->
    hoare every (run_post_move cfg x) (fun y h u => every h u /\ S y) every.
  Proof.
    intros Hx.
    assert (G : hoare every (run_post_move cfg x) (fun _ => every) every).
    { unfold run_post_move. apply hoare_mfold with (I := fun _ => every). intros y f Hf.
      eapply hoare_conseq; [apply (every_call (PPostMove y) (f y) (fun _ => True))|..]; auto.
      - intros a u u' E. exists f, u, u'. auto.
      - intros a h u [H _]. exact H. }
    intros h u H. specialize (G h u H). specialize (K2 x Hx h u I).
    destruct (run_post_move cfg x u) as [[[y| |] u'] t]; auto.
  Qed.

  Lemma every_loggers k s :
    hoare every (call_loggers swarm_view k (pso_loggers cfg) s) (fun _ => every) every.
  Proof.
    unfold call_loggers. apply hoare_mfor. intros [i l] _. eapply hoare_mbind.
    - apply every_emit. split; exact I.
    - intros ?x. apply hoare_call; auto.
  Qed.

  Lemma every_velocity v0 :
    V v0 -> hoare every
      (mfold (fun v post_velocity => call_comp (PPostVelocity v) (post_velocity v)) (pso_post_velocity cfg) v0)
      (fun v h u => every h u /\ V v) every.
  Proof.
    intros Hv. eapply hoare_pre.
    - apply hoare_mfold with (I := fun v h u => every h u /\ V v). intros v f Hf.
      intros h u [H Hv']. 
      refine (every_call (PPostVelocity v) (f v) V _ _ h u H); eauto.
      intros a u1 u1' E. exists f, u1, u1'. auto.
    - intros h u H. split; auto.
  Qed.

  Lemma every_particle s n : hoare (every_at s) (pso_particle cfg s n) (fun s' => every_at s') every.
  Proof.
    intros h0 u0 [H0 Hp].
    assert (G : hoare every (pso_particle cfg s n) (fun s' => every_at s') every).
    2:{ exact (G h0 u0 H0). }
    clear h0 u0 H0. unfold pso_particle.
    eapply hoare_mbind with (R := fun p h u => every h u /\ nth_error (particles s) n = Some p).
    { apply hoare_pure; auto. intros h u p H E. split; auto. now apply index_ret in E. }
    intros p h0 u0 [H0 Ep]. revert h0 u0 H0.
    match goal with |- forall h u, every h u -> match ?m u with _ => _ end =>
      change (hoare every m (fun s' => every_at s') every) end.
    assert (Hc : S (coordinates p)) by (rewrite Forall_forall in Hp; apply Hp; eapply nth_error_In; eauto).
    eapply hoare_mbind; [apply every_emit; split; exact I|]. intros ?x.
    eapply hoare_mbind; [apply (every_call _ _ V); [simpl; eauto|eauto]|]. intros v0. cbn beta.
    eapply hoare_mbind with (R := fun v h u => every h u /\ V v).
    { intros h u [H Hv]. now apply every_velocity. }
    intros v. cbn beta zeta.
    eapply hoare_mbind with (R := fun y h u => every h u /\ S y).
    { intros h u [H Hv]. apply every_post_move; auto. simpl. now apply K5. }
    intros y. eapply hoare_mbind with (R := fun _ h u => every h u /\ S y).
    { intros h u [H Hy]. pose proof (every_goal y Hy h u H) as G.
      destruct (call_goal (pso_goal cfg) y u) as [[[z| |] u'] t]; auto. }
    intros z. eapply hoare_mbind with (R := fun ps h u => every h u /\ S y /\
        update (particles s) n (move_to (set_velocity p v) y z) = Ret ps).
    { apply hoare_pure; [intros h u a [H1 H2]; auto|intros h u [H _]; auto]. }
    intros ps. eapply hoare_pre; [apply (hoare_mret _ (fun s' => every_at s'))|].
    intros h u [H [Hy E]]. split; auto. simpl. apply update_firstn_skipn in E. rewrite E.
    apply Forall_app. split; [|constructor; [exact Hy|]].
    - rewrite <- (firstn_skipn n) in Hp. apply Forall_app in Hp. apply Hp.
    - rewrite <- (firstn_skipn (Datatypes.S n)) in Hp. apply Forall_app in Hp. apply Hp.
  Qed.

  Lemma every_iteration s : hoare (every_at s) (pso_iteration cfg s) (fun s' => every_at s') every.
  Proof.
    unfold pso_iteration. eapply hoare_mbind with (R := fun s1 => every_at s1).
    { apply hoare_mfold with (I := fun s' => every_at s'). intros. apply every_particle. }
    intros s1. eapply hoare_mbind with (R := fun s2 => every_at s2).
    { apply hoare_pure; [|intros h u [H _]; auto]. intros h u s2 [H1 H2] E.
      destruct (update_best_spec s1) as [x [X1 [P1 _]]]. rewrite E in X1. inversion X1; subst x.
      split; auto. now rewrite P1. }
    intros s2. eapply hoare_mbind with (R := fun s3 => every_at s3).
    { apply hoare_pure; [|intros h u [H _]; auto]. intros h u s3 [H1 H2] E.
      destruct (update_worst_spec s2) as [x [X1 [P1 _]]]. rewrite E in X1. inversion X1; subst x.
      split; auto. now rewrite P1. }
    intros s3. cbn zeta. eapply hoare_mbind with (R := fun _ => every_at (swarm_next_iteration s3)).
    { intros h u [H1 H2]. pose proof (every_loggers LNext (swarm_next_iteration s3) h u H1) as G.
      destruct (call_loggers _ _ _ _ u) as [[[z| |] u'] t]; auto. split; auto. }
    intros ?x. apply (hoare_mret _ (fun s' => every_at s')).
  Qed.

  Lemma every_next fuel s : hoare (every_at s) (pso_next_iterations cfg fuel s)
    (fun r => every_at (snd r)) every.
  Proof.
    assert (HL : forall k q, hoare (every_at q) (call_loggers swarm_view k (pso_loggers cfg) q)
                   (fun _ => every_at q) every).
    { intros k q h u [H1 H2]. pose proof (every_loggers k q h u H1) as G.
      destruct (call_loggers _ _ _ _ u) as [[[z| |] u'] t]; auto. split; auto. }
    unfold pso_next_iterations. eapply hoare_mbind; [apply HL|]. intros ?x.
    eapply hoare_mbind with (R := fun s' => every_at s').
    - revert s. induction fuel as [|fuel IH]; intros s; simpl.
      + eapply hoare_pre; [apply hoare_nofuel|]. intros h u [H _]. exact H.
      + eapply hoare_mbind with (R := fun _ => every_at s).
        * unfold call_stop. eapply hoare_mbind with (R := fun b h u => every_at s h u /\
             pso_genuine cfg (EStop s b)).
          -- apply hoare_call; [|intros h u u' [H _]; auto]. intros h u a u' H E. split; auto.
             exists u, u'. exact E.
          -- intros b. eapply hoare_mbind with (R := fun _ => every_at s).
             ++ intros h u [[H1 H2] H3]. simpl. split; auto. apply Forall_app. repeat constructor; auto.
             ++ intros ?x. apply (hoare_mret _ (fun _ => every_at s)).
        * intros [|]; [apply (hoare_mret _ (fun s' => every_at s'))|].
          eapply hoare_mbind; [apply every_iteration|]. intros s'. apply IH.
    - intros s'. eapply hoare_mbind; [apply HL|]. intros ?x.
      apply (hoare_mret (_, s') (fun r => every_at (snd r))).
  Qed.

  Lemma every_find fuel s : hoare every (pso_find_min cfg fuel s) (fun r => every_at (snd r)) every.
  Proof.
    unfold pso_find_min. eapply hoare_mbind with (R := fun s1 => every_at s1).
    - unfold renew_swarm. eapply hoare_mbind; [apply (every_call _ _ (Forall S0)); [simpl; eauto|eauto]|].
      intros coords. eapply hoare_mbind with (R := fun _ h u => every h u /\ Forall S0 coords).
      { intros h u [H Hc].
        pose proof (every_call PVelocities (pso_velocities cfg) (fun _ => True)) as G.
        specialize (G (fun a u u' E => ex_intro _ u (ex_intro _ u' E)) (fun _ _ _ _ => I) h u H).
        destruct (call_comp _ _ u) as [[[z| |] u'] t]; auto. destruct G. auto. }
      intros vels. eapply hoare_mbind with (R := fun _ h u => every h u /\ Forall S0 coords).
      { apply hoare_pure; auto. intros h u [H _]. exact H. }
      intros ?x. eapply hoare_mbind with (R := fun coords' h u => every h u /\ Forall S coords').
      { intros h u [H Hc]. rewrite Forall_forall in Hc.
        pose proof (hoare_mmapM (run_post_move cfg) coords every (fun _ y => S y) every) as G.
        assert (G' := G (fun x Hx => every_post_move x (Hc x Hx)) h u H). clear G.
        destruct (mmapM _ _ u) as [[[z| |] u'] t]; auto. destruct G' as [G1 G2]. split; auto.
        clear - G2. induction G2; constructor; auto. }
      intros coords'.
      eapply hoare_mbind with (R := fun ps h u => every h u /\ Forall (fun p => S (coordinates p)) ps).
      { intros h u [H Hc].
        pose proof (hoare_mmapM (fun cs => y <- call_goal (pso_goal cfg) (fst cs) ;;
                   mret (particle_new (fst cs) (snd cs) y)) (combine coords' vels) every
                   (fun _ p => S (coordinates p)) every) as G.
        assert (G' : hoare every (mmapM (fun cs => y <- call_goal (pso_goal cfg) (fst cs) ;;
                   mret (particle_new (fst cs) (snd cs) y)) (combine coords' vels))
                   (fun ys h u => every h u /\ Forall2 (fun _ p => S (coordinates p)) (combine coords' vels) ys) every).
        { apply G. intros [x1 v1] Hx. apply in_combine_l in Hx. rewrite Forall_forall in Hc.
          eapply hoare_mbind; [apply every_goal; auto|]. intros y.
          intros h1 u1 H1. simpl. rewrite app_nil_r. split; auto. }
        specialize (G' h u H). destruct (mmapM _ _ u) as [[[z| |] u'] t]; auto. destruct G' as [G1 G2].
        split; auto. clear - G2. induction G2; constructor; auto. }
      intros ps. apply hoare_pure; [|intros h u [H _]; auto].
      intros h u s' [H1 H2] E. destruct (replace_particles_spec (swarm_reset s) ps) as [z [X1 [P1 _]]].
      rewrite E in X1. inversion X1; subst z. split; auto. now rewrite P1.
    - intros s1. eapply hoare_mbind with (R := fun _ => every_at s1).
      { intros h u [H1 H2]. pose proof (every_loggers LStart s1 h u H1) as G.
        destruct (call_loggers _ _ _ _ u) as [[[z| |] u'] t]; auto. split; auto. }
      intros ?x. apply every_next.
  Qed.
End Every.

Section Proofs.
  Context {U T : Type} {FT : FloatTrait T}.
  Notation ev := (pso_event T).
  Variable ok : pso_config U T -> Prop.
  Implicit Types (cfg : pso_config U T) (s : swarm T) (h t : list ev).

  Lemma reach_rest s h (u : U) : pso_reach ok s h -> rest s h u.
  Proof.
    intros H. revert u.
    induction H as [|cfg fuel u p h r p' u' t Hc Hr IH H|cfg fuel u p h r p' u' t Hc Hr IH H]; intros u0.
    - split; [split; [apply trace_ok_nil|split]|split; auto].
      + intros p [[]|[E|E]]; discriminate.
      + intros e q [].
    - pose proof (ok_find cfg fuel p [] u eq_refl) as G. rewrite H in G. apply G.
    - pose proof (ok_next cfg fuel p h u (IH u)) as G. rewrite H in G. apply G.
  Qed.

  Lemma pso_run_find cfg fuel s u o u' t :
    pso_find_min cfg fuel s u = (o, u', t) ->
    trace_ok t /\
    forall r s', o = Ret (r, s') -> rest s' t u' /\ r = option_map place (best_particle s').
  Proof.
    intros H. pose proof (ok_find cfg fuel s [] u eq_refl) as G. rewrite H in G. simpl in G.
    destruct o as [[r1 s1]| |].
    - destruct G as [G1 G2]. split; [apply G1|]. intros r s' E. inversion E; subst. auto.
    - split; [exact G|discriminate].
    - split; [exact G|discriminate].
  Qed.

  Lemma pso_run_next cfg fuel s h u o u' t :
    pso_reach ok s h -> pso_next_iterations cfg fuel s u = (o, u', t) ->
    trace_ok (h ++ t) /\
    forall r s', o = Ret (r, s') -> rest s' (h ++ t) u' /\ r = option_map place (best_particle s').
  Proof.
    intros Hr H. pose proof (ok_next cfg fuel s h u (reach_rest s h u Hr)) as G. rewrite H in G. simpl in G.
    destruct o as [[r1 s1]| |].
    - destruct G as [G1 G2]. split; [apply G1|]. intros r s' E. inversion E; subst. auto.
    - split; [exact G|discriminate].
    - split; [exact G|discriminate].
  Qed.

  (** C30 and C29. *)
  Lemma extremes_result h s x v : extremes_of h s ->
    Some (x, v) = option_map place (best_particle s) -> first_least snd (answers h) (x, v).
  Proof.
    unfold extremes_of. destruct (best_particle s) as [b|]; intros H E; [|discriminate].
    inversion E as [E']. destruct (answers h) as [|a l].
    - destruct H. discriminate.
    - destruct H as [[b' [Eb Hb]] _]. inversion Eb; subst. exact Hb.
  Qed.

  Lemma pso_first_least s h cfg fuel u x v s' u' t :
    pso_reach ok s h ->
    (pso_find_min cfg fuel s u = (Ret (Some (x, v), s'), u', t) -> first_least snd (answers t) (x, v)) /\
    (pso_next_iterations cfg fuel s u = (Ret (Some (x, v), s'), u', t) ->
       first_least snd (answers (h ++ t)) (x, v)).
  Proof.
    intros Hr. split; intros H.
    - apply pso_run_find in H. destruct H as [_ H]. destruct (H _ _ eq_refl) as [[_ G1] G2].
      eapply extremes_result; eauto.
    - apply (pso_run_next _ _ _ _ _ _ _ _ Hr) in H. destruct H as [_ H].
      destruct (H _ _ eq_refl) as [[_ G1] G2]. eapply extremes_result; eauto.
  Qed.

  Lemma pso_result_evaluated s h cfg fuel u x v s' u' t :
    pso_reach ok s h ->
    (pso_find_min cfg fuel s u = (Ret (Some (x, v), s'), u', t) -> evaluated t x v) /\
    (pso_next_iterations cfg fuel s u = (Ret (Some (x, v), s'), u', t) -> evaluated (h ++ t) x v).
  Proof.
    intros Hr. destruct (pso_first_least s h cfg fuel u x v s' u' t Hr) as [A B].
    split; intros H; apply answers_evaluated; eapply first_least_in; eauto.
  Qed.

  Lemma pso_least_value s h cfg fuel u x v s' u' t :
    pso_reach ok s h ->
    (pso_find_min cfg fuel s u = (Ret (Some (x, v), s'), u', t) ->
       forall y w, evaluated t y w ->
         (is_finite w = true -> is_finite v = true /\ leb v w = true)) /\
    (pso_next_iterations cfg fuel s u = (Ret (Some (x, v), s'), u', t) ->
       forall y w, evaluated (h ++ t) y w ->
         (is_finite w = true -> is_finite v = true /\ leb v w = true)).
  Proof.
    intros Hr. destruct (pso_first_least s h cfg fuel u x v s' u' t Hr) as [A B].
    split; intros H y w Hy Hw.
    - destruct (A H) as [k [_ [L _]]]. apply answers_evaluated in Hy. destruct (L _ Hy) as [K|K]; simpl in K.
      + congruence.
      + exact K.
    - destruct (B H) as [k [_ [L _]]]. apply answers_evaluated in Hy. destruct (L _ Hy) as [K|K]; simpl in K.
      + congruence.
      + exact K.
  Qed.

  (** C31 and what the observers see. *)
  Lemma pso_observations s h cfg fuel u o u' t :
    pso_reach ok s h ->
    (pso_find_min cfg fuel s u = (o, u', t) ->
       swarms_valued t /\ reports_extremes t /\ never_worse t) /\
    (pso_next_iterations cfg fuel s u = (o, u', t) ->
       swarms_valued (h ++ t) /\ reports_extremes (h ++ t) /\ never_worse (h ++ t)).
  Proof.
    intros Hr. split; intros H.
    - apply pso_run_find in H. apply H.
    - apply (pso_run_next _ _ _ _ _ _ _ _ Hr) in H. apply H.
  Qed.
  Lemma pso_never_worse s h cfg fuel u o u' t :
    pso_reach ok s h ->
    (pso_find_min cfg fuel s u = (o, u', t) -> never_worse t) /\
    (pso_next_iterations cfg fuel s u = (o, u', t) -> never_worse (h ++ t)).
  Proof.
    intros Hr. destruct (pso_observations s h cfg fuel u o u' t Hr) as [A B].
    split; intros H; [apply A|apply B]; exact H.
  Qed.

  (** Recorded events are genuine, whatever the outcome. *)
  Lemma post_move_any cfg x :
    hoare (fun _ _ => True) (run_post_move cfg x) (fun y _ _ => True) (fun _ _ => True).
  Proof. intros h u _. now destruct (run_post_move cfg x u) as [[[y| |] u'] t]. Qed.
  Lemma fine_genuine cfg S t : Forall (fine cfg S) t -> Forall (pso_genuine cfg) t.
  Proof. apply Forall_impl. intros e H. apply H. Qed.

  Lemma pso_find_genuine cfg fuel s u o u' t :
    pso_find_min cfg fuel s u = (o, u', t) -> Forall (pso_genuine cfg) t.
  Proof.
    intros H.
    pose proof (every_find cfg (fun _ => True) (fun _ => True) (fun _ => True)
      (fun _ _ _ _ => proj2 (Forall_forall _ _) (fun _ _ => I)) (fun x _ => post_move_any cfg x)
      (fun _ _ _ _ _ _ _ => I) (fun _ _ _ _ _ _ _ _ => I) (fun _ _ _ _ => I) fuel s [] u (Forall_nil _)) as G.
    rewrite H in G. apply (fine_genuine cfg (fun _ => True)). destruct o; [apply G|exact G|exact G].
  Qed.

  Lemma pso_next_genuine cfg fuel s u o u' t :
    pso_next_iterations cfg fuel s u = (o, u', t) -> Forall (pso_genuine cfg) t.
  Proof.
    intros H.
    pose proof (every_next cfg (fun _ => True) (fun _ => True) (fun _ => True)
      (fun x _ => post_move_any cfg x)
      (fun _ _ _ _ _ _ _ => I) (fun _ _ _ _ _ _ _ _ => I) (fun _ _ _ _ => I) fuel s [] u
      (conj (Forall_nil _) (proj2 (Forall_forall _ _) (fun _ _ => I)))) as G.
    rewrite H in G. apply (fine_genuine cfg (fun _ => True)). destruct o; [apply G|exact G|exact G].
  Qed.

  Lemma pso_reach_genuine s h : pso_reach ok s h ->
    Forall (fun e => exists cfg, ok cfg /\ pso_genuine cfg e) h.
  Proof.
    induction 1 as [|cfg fuel u p h r p' u' t Hc Hr IH H|cfg fuel u p h r p' u' t Hc Hr IH H].
    - constructor.
    - apply pso_find_genuine in H. eapply Forall_impl; [|exact H]. eauto.
    - apply Forall_app. split; auto.
      apply pso_next_genuine in H. eapply Forall_impl; [|exact H]. eauto.
  Qed.

  Lemma pso_result_is_f (f : list T -> f64) s h cfg fuel u x v s' u' t :
    (forall cfg, ok cfg -> pso_goal cfg = goal_from_function f) ->
    pso_reach ok s h -> ok cfg ->
    pso_find_min cfg fuel s u = (Ret (Some (x, v), s'), u', t) \/
    pso_next_iterations cfg fuel s u = (Ret (Some (x, v), s'), u', t) -> v = f x.
  Proof.
    intros Hf Hr Hc H.
    assert (G : forall g : list ev, Forall (fun e => exists cfg, ok cfg /\ pso_genuine cfg e) g ->
              evaluated g x v -> v = f x).
    { intros g Hg Hx. rewrite Forall_forall in Hg. destruct (Hg _ Hx) as [c [Hk [w [w' E]]]].
      rewrite (Hf _ Hk) in E. unfold goal_from_function, cret in E. congruence. }
    destruct (pso_result_evaluated s h cfg fuel u x v s' u' t Hr) as [H1 H2].
    destruct H as [H|H].
    - apply (G t); auto. apply pso_find_genuine in H. eapply Forall_impl; [|exact H]. eauto.
    - apply (G (h ++ t)); auto. apply Forall_app. split.
      + now apply pso_reach_genuine with (s := s).
      + apply pso_next_genuine in H. eapply Forall_impl; [|exact H]. eauto.
  Qed.

  (** ** Points stay in a set: C36 and C47 *)
  Lemma stays_post_move (S : list T -> Prop) cfg x : pso_stays_in S cfg ->
    hoare (fun _ _ => True) (run_post_move cfg x) (fun y _ _ => S y) (fun _ _ => True).
  Proof.
    intros [earlier [last [E Hl]]]. unfold run_post_move. rewrite E.
    apply hoare_mfold_snoc with (I := fun _ _ => True).
    - intros y f _ h u _. now destruct (call_comp _ _ u) as [[[z| |] u'] t].
    - intros y h u _. unfold call_comp, mbind, call. simpl.
      destruct (last y u) as [[z| |] u'] eqn:El; simpl; eauto.
  Qed.

  Definition values_in (S : list T -> Prop) (t : list ev) : Prop :=
    Forall (fun e => match e with EEval x => S x | EValue x _ => S x | _ => True end) t.
  Lemma fine_values cfg S t : Forall (fine cfg S) t -> values_in S t.
  Proof. apply Forall_impl. intros e H. apply H. Qed.
  Lemma values_evals S t : values_in S t -> Forall S (evals t).
  Proof. induction 1 as [|e t H]; simpl; auto. destruct e; auto. Qed.
  Lemma values_inside S t s : values_in S t -> swarm_valued t s -> swarm_inside S s.
  Proof.
    intros H Hv p Hp. destruct (Hv p Hp) as [A [B C]]. unfold values_in in H. rewrite Forall_forall in H.
    split; [apply (H _ A)|split; [apply (H _ B)|apply (H _ C)]].
  Qed.

  Lemma run_inside_pso (S : list T -> Prop) (good : pso_config U T -> Prop) s h cfg fuel u o u' t :
    (forall cfg fuel s u o u' t, good cfg -> pso_find_min cfg fuel s u = (o, u', t) -> values_in S t) ->
    (forall cfg fuel s u o u' t, good cfg -> Forall (fun p => S (coordinates p)) (particles s) ->
       pso_next_iterations cfg fuel s u = (o, u', t) -> values_in S t) ->
    (forall cfg, ok cfg -> good cfg) ->
    pso_reach ok s h -> ok cfg ->
    pso_find_min cfg fuel s u = (o, u', t) \/ pso_next_iterations cfg fuel s u = (o, u', t) ->
    Forall S (evals t) /\
    (forall e q, In e t -> shows e = Some q -> swarm_inside S q) /\
    (forall r s', o = Ret (r, s') -> swarm_inside S s' /\ forall x v, r = Some (x, v) -> S x).
  Proof.
    intros Hfind Hnext Hok Hr Hc H.
    assert (Hh : values_in S h).
    { clear H t u' o u fuel cfg Hc. induction Hr as [|c fuel u p h r p' u' t Hc Hr IH H|c fuel u p h r p' u' t Hc Hr IH H].
      - constructor.
      - eapply Hfind; eauto.
      - apply Forall_app. split; auto. eapply Hnext; [eauto| |exact H].
        pose proof (reach_rest p h u Hr) as [[_ [G _]] _]. apply Forall_forall. intros q Hq.
        apply (values_inside _ _ _ IH G). now left. }
    assert (Hend : forall (g : list ev) r s', values_in S g -> swarm_valued g s' ->
              r = option_map place (best_particle s') ->
              swarm_inside S s' /\ forall x v, r = Some (x, v) -> S x).
    { intros g r s' H1 H2 ->. pose proof (values_inside _ _ _ H1 H2) as G. split; auto.
      intros x v E. destruct (best_particle s') as [b|] eqn:Eb; [|discriminate].
      inversion E; subst. apply G. right. now left. }
    destruct H as [H|H].
    - assert (Ht : values_in S t) by (eapply Hfind; eauto).
      pose proof (pso_run_find _ _ _ _ _ _ _ H) as [[V _] R].
      split; [now apply values_evals|]. split.
      + intros e q He Hq. apply in_split in He. destruct He as [t1 [t2 ->]].
        eapply values_inside; [|eapply V; eauto]. apply Forall_app in Ht. apply Ht.
      + intros r s' E. destruct (R r s' E) as [[[_ [R1 _]] _] R2]. eapply Hend; eauto.
    - assert (Ht : values_in S t).
      { eapply Hnext; [eauto| |exact H].
        pose proof (reach_rest s h u Hr) as [[_ [G _]] _]. apply Forall_forall. intros q Hq.
        apply (values_inside _ _ _ Hh G). now left. }
      pose proof (pso_run_next _ _ _ _ _ _ _ _ Hr H) as [[V _] R].
      assert (Hht : values_in S (h ++ t)) by (apply Forall_app; auto).
      split; [now apply values_evals|]. split.
      + intros e q He Hq. apply in_split in He. destruct He as [t1 [t2 ->]].
        eapply values_inside; [|eapply (V (h ++ t1)); [rewrite <- app_assoc; reflexivity|eauto]].
        rewrite app_assoc in Hht. apply Forall_app in Hht. apply Hht.
      + intros r s' E. destruct (R r s' E) as [[[_ [R1 _]] _] R2]. eapply Hend; eauto.
  Qed.

  Lemma pso_run_inside (S : list T -> Prop) s h cfg fuel u o u' t :
    (forall cfg, ok cfg -> pso_stays_in S cfg) ->
    pso_reach ok s h -> ok cfg ->
    pso_find_min cfg fuel s u = (o, u', t) \/ pso_next_iterations cfg fuel s u = (o, u', t) ->
    Forall S (evals t) /\
    (forall e q, In e t -> shows e = Some q -> swarm_inside S q) /\
    (forall r s', o = Ret (r, s') -> swarm_inside S s' /\ forall x v, r = Some (x, v) -> S x).
  Proof.
    apply run_inside_pso.
    - intros c f q w o' w' t' Hg H.
      pose proof (every_find c (fun _ => True) S (fun _ => True)
        (fun _ _ _ _ => proj2 (Forall_forall _ _) (fun _ _ => I)) (fun x _ => stays_post_move S c x Hg)
        (fun _ _ _ _ _ _ _ => I) (fun _ _ _ _ _ _ _ _ => I) (fun _ _ _ _ => I) f q [] w (Forall_nil _)) as G.
      rewrite H in G. apply (fine_values c). destruct o'; [apply G|exact G|exact G].
    - intros c f q w o' w' t' Hg Hq H.
      pose proof (every_next c (fun _ => True) S (fun _ => True) (fun x _ => stays_post_move S c x Hg)
        (fun _ _ _ _ _ _ _ => I) (fun _ _ _ _ _ _ _ _ => I) (fun _ _ _ _ => I) f q [] w
        (conj (Forall_nil _) Hq)) as G.
      rewrite H in G. apply (fine_values c). destruct o'; [apply G|exact G|exact G].
  Qed.

  Lemma dimension_post_move d cfg x : keeps_dimension d cfg -> length x = d ->
    hoare (fun _ _ => True) (run_post_move cfg x) (fun y _ _ => length y = d) (fun _ _ => True).
  Proof.
    intros [_ [_ [_ Hp]]] Hx. unfold run_post_move.
    eapply hoare_pre; [apply hoare_mfold with (I := fun y _ _ => length y = d)|].
    - intros y f Hf h u Hy. unfold call_comp, mbind, call. simpl.
      destruct (f y u) as [[z| |] u'] eqn:El; simpl; auto. erewrite Hp; eauto.
    - intros h u _. exact Hx.
  Qed.
  Lemma dimension_sum d (x v : list T) : length x = d -> d <= length v -> length (pointwise_sum x v) = d.
  Proof. intros Hx Hv. unfold pointwise_sum. rewrite map_length, combine_length. lia. Qed.

  Lemma pso_dimension (d : nat) s h cfg fuel u o u' t :
    (forall cfg, ok cfg -> keeps_dimension d cfg) ->
    pso_reach ok s h -> ok cfg ->
    pso_find_min cfg fuel s u = (o, u', t) \/ pso_next_iterations cfg fuel s u = (o, u', t) ->
    Forall (fun x => length x = d) (evals t) /\
    (forall e q, In e t -> shows e = Some q -> swarm_inside (fun x => length x = d) q) /\
    (forall r s', o = Ret (r, s') -> swarm_inside (fun x => length x = d) s' /\
       forall x v, r = Some (x, v) -> length x = d).
  Proof.
    apply run_inside_pso.
    - intros c f q w o' w' t' Hg H. pose proof Hg as [G1 [G2 [G3 G4]]].
      pose proof (every_find c (fun x => length x = d) (fun x => length x = d) (fun v => d <= length v)
        G1 (fun x Hx => dimension_post_move d c x Hg Hx) (fun s p u v u' => G2 s p u v u')
        (fun f v u w u' Hf Hv E => eq_ind_r (fun n => d <= n) Hv (G3 f v u w u' Hf E))
        (dimension_sum d) f q [] w (Forall_nil _)) as G.
      rewrite H in G. apply (fine_values c). destruct o'; [apply G|exact G|exact G].
    - intros c f q w o' w' t' Hg Hq H. pose proof Hg as [G1 [G2 [G3 G4]]].
      pose proof (every_next c (fun x => length x = d) (fun x => length x = d) (fun v => d <= length v)
        (fun x Hx => dimension_post_move d c x Hg Hx) (fun s p u v u' => G2 s p u v u')
        (fun f v u w u' Hf Hv E => eq_ind_r (fun n => d <= n) Hv (G3 f v u w u' Hf E))
        (dimension_sum d) f q [] w (conj (Forall_nil _) Hq)) as G.
      rewrite H in G. apply (fine_values c). destruct o'; [apply G|exact G|exact G].
  Qed.

  (** C71. *)
  Lemma iterations_app {S X} (a b : list (event (list T) S X)) :
    iterations_of (a ++ b) = iterations_of a + iterations_of b.
  Proof. induction a as [|e a IH]; simpl; auto. destruct e as [| |? []| | |]; simpl; auto; lia. Qed.
  Lemma iterations_consulted {S X} (a : list (event (list T) S X)) : consulted a = [] -> iterations_of a = 0.
  Proof. induction a as [|e a IH]; simpl; auto. destruct e; auto; discriminate. Qed.
  Lemma iterations_log {S X} k n (q : S) : iterations_of (@log_events (list T) S X k n q) = 0.
  Proof. apply iterations_consulted, consulted_log. Qed.
  Lemma rounds_iterations nvel nmove nlog s t s' k :
    pso_rounds nvel nmove nlog s t s' k -> iterations_of t = k /\ sw_iteration s' = sw_iteration s + k.
  Proof.
    induction 1 as [s|s g s1 t s2 k Hr Hrs IH]; simpl; [split; lia|].
    destruct (round_read _ _ _ _ _ _ Hr) as [_ [_ [_ [C [I _]]]]].
    rewrite iterations_app, (iterations_consulted g C). destruct IH. split; lia.
  Qed.

  Lemma pso_reach_invariants s h : pso_reach ok s h ->
    swarm_valued h s /\ extremes_of h s /\ sw_iteration s = iterations_of h.
  Proof.
    intros Hr.
    assert (K : sw_iteration s = iterations_of h).
    { induction Hr as [|c fuel u p h r p' u' t Hc Hr IH H|c fuel u p h r p' u' t Hc Hr IH H].
      - reflexivity.
      - apply pso_find_ret in H. destruct H as [_ [s0 [g [t1 [k [Hs [Hk ->]]]]]]].
        apply rounds_iterations in Hk. destruct Hk as [K1 K2].
        pose proof (start_read _ _ _ Hs) as [_ [_ [C [_ [I _]]]]].
        rewrite !iterations_app, (iterations_consulted g C), K1.
        rewrite !iterations_log. lia.
      - apply pso_next_ret in H. destruct H as [_ [t1 [k [Hk ->]]]].
        apply rounds_iterations in Hk. destruct Hk as [K1 K2].
        rewrite !iterations_app, K1. rewrite !iterations_log. lia. }
    inversion Hr; subst.
    - split; [|split; auto].
      + intros p [[]|[E|E]]; discriminate.
      + split; reflexivity.
    - pose proof (reach_rest s h u Hr) as [[_ [A _]] B]. auto.
    - pose proof (reach_rest s _ u Hr) as [[_ [A _]] B]. auto.
  Qed.
End Proofs.

Section Plain.
  Context {U T : Type} {FT : FloatTrait T}.
  Implicit Types (cfg : pso_config U T) (s : swarm T).

  (** C32. *)
  Lemma memories_of_moves (x v : list T) y ops :
    remembers ((x, y) :: visited ops)
      (fold_left (fun p op => match op with
                              | OpVelocity w => set_velocity p w
                              | OpMove z w => move_to p z w end) ops (particle_new x v y)).
  Proof.
    assert (G : forall (p : particle T) places, remembers places p ->
      remembers (places ++ visited ops)
        (fold_left (fun p op => match op with
                              | OpVelocity w => set_velocity p w
                              | OpMove z w => move_to p z w end) ops p)).
    { induction ops as [|[w|z w] ops IH]; intros p places H; simpl.
      - now rewrite app_nil_r.
      - apply IH. exact H.
      - replace (places ++ (z, w) :: visited ops) with ((places ++ [(z, w)]) ++ visited ops)
          by (rewrite <- app_assoc; reflexivity).
        apply IH. eapply remembers_moved; [exact H|].
        pose proof (moved_spec p (velocity p) z w) as G.
        replace (set_velocity p (velocity p)) with p in G by (destruct p; reflexivity). exact G. }
    apply (G (particle_new x v y) [(x, y)]). apply remembers_new.
  Qed.

  Lemma pso_memories cfg fuel s u r s' u' t :
    pso_find_min cfg fuel s u = (Ret (r, s'), u', t) ->
    forall t1 q b t2, t = t1 ++ EStop q b :: t2 ->
      forall n p, nth_error (particles q) n = Some p -> remembers (trail n (consulted t1 ++ [q])) p.
  Proof.
    intros H. apply pso_find_ret in H. destruct H as [_ [s0 [g [tr [k [Hs [Hk ->]]]]]]].
    intros t1 q b t2 E n p Hp.
    pose proof (start_read _ _ _ Hs) as [_ [_ [C [_ [_ [R _]]]]]].
    set (pre := g ++ log_events LStart (length (pso_loggers cfg)) s0
                  ++ log_events LResume (length (pso_loggers cfg)) s0) in *.
    set (post := log_events LFinish (length (pso_loggers cfg)) s') in *.
    assert (E' : pre ++ tr ++ post = t1 ++ EStop q b :: t2).
    { rewrite <- E. unfold pre. rewrite <- !app_assoc. reflexivity. }
    assert (Cpre : consulted pre = []).
    { unfold pre. rewrite !consulted_app, C, !consulted_log. reflexivity. }
    assert (Cpost : consulted post = []) by apply consulted_log.
    clearbody pre post. clear E.
    assert (G : forall pre (l t1 t2 : list (pso_event T)), consulted pre = [] ->
        pre ++ l = t1 ++ EStop q b :: t2 ->
        exists t1', t1 = pre ++ t1' /\ l = t1' ++ EStop q b :: t2).
    { clear. induction pre as [|e pre IH]; intros l t1 t2 C E; simpl in *; [eauto|].
      destruct t1 as [|e1 t1]; simpl in E; inversion E; subst.
      - discriminate.
      - destruct (IH l t1 t2) as [t1' [-> ->]]; auto.
        { destruct e1; simpl in C; auto; discriminate. }
        exists t1'. auto. }
    destruct (G pre _ _ _ Cpre E') as [t1' [-> E2]].
    assert (G2 : exists t2', tr = t1' ++ EStop q b :: t2').
    { clear - E2 Cpost. revert t1' E2. induction tr as [|e tr IH]; intros t1 E; simpl in *.
      - exfalso. rewrite E, consulted_app in Cpost. simpl in Cpost. destruct (consulted t1); discriminate.
      - destruct t1 as [|e1 t1]; simpl in E; inversion E; subst; eauto.
        + eexists. reflexivity.
        + destruct (IH t1 H1) as [t2' ->]. exists t2'. reflexivity. }
    destruct G2 as [t2' ->].
    rewrite consulted_app, Cpre. simpl.
    apply (rounds_memory _ _ _ [] _ _ _ _ Hk) with (b := b) (t2 := t2'); auto.
    intros m p1 Hp1. unfold trail. simpl. rewrite Hp1. simpl. apply R. eapply nth_error_In; eauto.
  Qed.

  (** C33. *)
  Lemma pso_none cfg fuel s u r s' u' t :
    pso_find_min cfg fuel s u = (Ret (r, s'), u', t) ->
    exists xs t1, t = ECall (PCoordinates xs) :: t1 /\ (r = None <-> xs = []).
  Proof.
    intros H. pose proof (pso_run_find _ _ _ _ _ _ _ H) as [_ R].
    destruct (R _ _ eq_refl) as [[_ He] _]. clear R.
    apply pso_find_ret in H. destruct H as [-> [s0 [g [tr [k [Hs [Hk ->]]]]]]].
    pose proof (start_read _ _ _ Hs) as [A [_ [_ [_ [_ [_ [xs [t0 [-> Hl]]]]]]]]].
    exists xs. eexists. split; [reflexivity|].
    set (rest0 := _ ++ _) in He. unfold extremes_of in He.
    assert (Hans : exists l, answers rest0 = map place (particles s0) ++ l).
    { unfold rest0. rewrite answers_app, A. eauto. }
    destruct Hans as [l Hans]. rewrite Hans in He.
    pose proof (rounds_read _ _ _ _ _ _ _ Hk) as [rest1 [_ [_ [_ [A1 [_ [N _]]]]]]].
    destruct xs as [|x xs].
    - split; auto. intros _.
      assert (E0 : answers rest0 = []).
      { unfold rest0. rewrite !answers_app, A, A1, !answers_log.
        destruct (particles s0); [|discriminate]. simpl. rewrite app_nil_r.
        clear - N. induction rest1 as [|q l IH]; auto. simpl.
        specialize (N q (or_introl eq_refl)) as Nq. simpl in Nq.
        destruct (particles q); [|discriminate]. simpl. apply IH. intros q' Hq'. apply N. now right. }
      rewrite Hans in E0. rewrite E0 in He. destruct He as [-> _]. reflexivity.
    - split; [|discriminate]. intros E. exfalso.
      destruct (particles s0); [discriminate|]. simpl in He. destruct He as [[b [Eb _]] _].
      rewrite Eb in E. discriminate.
  Qed.

  (** C34. *)
  Lemma pso_evaluations cfg fuel s u r s' u' t :
    pso_find_min cfg fuel s u = (Ret (r, s'), u', t) ->
    evals t = all_points (consulted t) /\ answers t = all_places (consulted t) /\
    length (consulted t) = sw_iteration s' + 1 /\
    length (evals t) = length (particles s') * (sw_iteration s' + 1) /\
    exists xs t1, t = ECall (PCoordinates xs) :: t1 /\ length (particles s') = length xs.
  Proof.
    intros H. apply pso_find_ret in H. destruct H as [_ [s0 [g [tr [k [Hs [Hk ->]]]]]]].
    pose proof (start_read _ _ _ Hs) as [A0 [E0 [C0 [_ [I0 [_ [xs [t0 [Eg Hl]]]]]]]]].
    pose proof (rounds_read _ _ _ _ _ _ _ Hk) as [rest0 [C [L [La [A [E [N [I _]]]]]]]].
    rewrite !evals_app, !answers_app, !consulted_app, E0, A0, C0, C, E, A.
    rewrite !evals_log, !answers_log, !consulted_log. simpl. rewrite !app_nil_r.
    assert (Hn : length (particles s') = length (particles s0)).
    { destruct rest0 as [|q l]; [simpl in La; congruence|]. apply N.
      rewrite <- La. clear. revert q. induction l as [|a l IH]; intros q; simpl; auto.
      right. apply IH. }
    split; [reflexivity|]. split; [reflexivity|]. split; [lia|]. split.
    - rewrite app_length, map_length.
      assert (G : length (all_points rest0) = length rest0 * length (particles s0)).
      { clear - N. induction rest0 as [|q l IH]; auto. simpl. rewrite app_length, map_length, IH.
        - rewrite N; auto. now left.
        - intros q' Hq'. apply N. now right. }
      rewrite G. nia.
    - exists xs. eexists. rewrite Eg. split; [reflexivity|]. congruence.
  Qed.

  Lemma pso_next_evaluations cfg fuel s u r s' u' t :
    pso_next_iterations cfg fuel s u = (Ret (r, s'), u', t) ->
    exists rest0, consulted t = s :: rest0 /\ evals t = all_points rest0 /\ answers t = all_places rest0 /\
      sw_iteration s' = sw_iteration s + length rest0 /\
      (forall q, In q rest0 -> length (particles q) = length (particles s)) /\
      length (evals t) = length (particles s) * length rest0.
  Proof.
    intros H. apply pso_next_ret in H. destruct H as [_ [tr [k [Hk ->]]]].
    pose proof (rounds_read _ _ _ _ _ _ _ Hk) as [rest0 [C [L [La [A [E [N [I _]]]]]]]].
    exists rest0. rewrite !evals_app, !answers_app, !consulted_app, C, E, A.
    rewrite !evals_log, !answers_log, !consulted_log. simpl. rewrite !app_nil_r.
    split; [reflexivity|]. split; [reflexivity|]. split; [reflexivity|]. split; [congruence|].
    split; [exact N|].
    clear - N. induction rest0 as [|q l IH]; simpl; [lia|]. rewrite app_length, map_length, IH.
    - rewrite N; [lia|]. now left.
    - intros q' Hq'. apply N. now right.
  Qed.

  (** C35. *)
  Lemma pso_find_protocol cfg fuel s u r s' u' t i :
    pso_find_min cfg fuel s u = (Ret (r, s'), u', t) -> i < length (pso_loggers cfg) ->
    protocol (fun s : swarm T => sw_iteration s) i t =
      PLog LStart 0 :: PLog LResume 0 :: rounds 0 (sw_iteration s') ++ [PLog LFinish (sw_iteration s')].
  Proof.
    intros H Hi. apply pso_find_ret in H. destruct H as [_ [s0 [g [tr [k [Hs [Hk ->]]]]]]].
    pose proof (start_read _ _ _ Hs) as [_ [_ [_ [P0 [I0 _]]]]].
    pose proof (rounds_read _ _ _ _ _ _ _ Hk) as [rest0 [_ [_ [_ [_ [_ [_ [I P]]]]]]]].
    change (fun s : swarm T => sw_iteration s) with (@sw_iteration T).
    rewrite !protocol_app, P0, P, !log_protocol by auto. rewrite I0 in *. simpl.
    rewrite I. reflexivity.
  Qed.
  Lemma pso_next_protocol cfg fuel s u r s' u' t i :
    pso_next_iterations cfg fuel s u = (Ret (r, s'), u', t) -> i < length (pso_loggers cfg) ->
    exists k, sw_iteration s' = sw_iteration s + k /\
    protocol (fun s : swarm T => sw_iteration s) i t =
      PLog LResume (sw_iteration s) :: rounds (sw_iteration s) k ++ [PLog LFinish (sw_iteration s')].
  Proof.
    intros H Hi. apply pso_next_ret in H. destruct H as [_ [tr [k [Hk ->]]]].
    pose proof (rounds_read _ _ _ _ _ _ _ Hk) as [rest0 [_ [_ [_ [_ [_ [_ [I P]]]]]]]].
    exists k. split; auto.
    change (fun s : swarm T => sw_iteration s) with (@sw_iteration T).
    rewrite !protocol_app, P, !log_protocol by auto. reflexivity.
  Qed.
  Lemma rounds_end nvel nmove nlog s t s' k : pso_rounds nvel nmove nlog s t s' k ->
    exists t0, t = t0 ++ [EStop s' true].
  Proof.
    induction 1 as [s|s g s1 t s2 k Hr Hrs [t0 ->]].
    - exists []. reflexivity.
    - exists (EStop s false :: g ++ t0). simpl. now rewrite <- app_assoc.
  Qed.
  Lemma pso_finish cfg fuel s u r s' u' t :
    pso_find_min cfg fuel s u = (Ret (r, s'), u', t) \/
    pso_next_iterations cfg fuel s u = (Ret (r, s'), u', t) ->
    (exists t0, t = t0 ++ EStop s' true :: log_events LFinish (length (pso_loggers cfg)) s') /\
    r = option_map place (best_particle s').
  Proof.
    intros [H|H].
    - apply pso_find_ret in H. destruct H as [-> [s0 [g [tr [k [Hs [Hk ->]]]]]]]. split; auto.
      destruct (rounds_end _ _ _ _ _ _ _ Hk) as [t0 ->].
      exists (g ++ log_events LStart (length (pso_loggers cfg)) s0
        ++ log_events LResume (length (pso_loggers cfg)) s0 ++ t0).
      rewrite <- !app_assoc. reflexivity.
    - apply pso_next_ret in H. destruct H as [-> [tr [k [Hk ->]]]]. split; auto.
      destruct (rounds_end _ _ _ _ _ _ _ Hk) as [t0 ->].
      exists (log_events LResume (length (pso_loggers cfg)) s ++ t0).
      rewrite <- !app_assoc. reflexivity.
  Qed.

  (** The order of the particles. *)
  Lemma compare_floats_spec x y : 
    (compare_floats x y = Lt <-> lt_fin x y) /\ (compare_floats x y = Gt <-> lt_fin y x) /\
    (compare_floats x y = Eq <-> le_fin x y /\ le_fin y x).
  Proof. split; [apply compare_lt|split; [apply compare_gt|apply compare_eq]]. Qed.
End Plain.
