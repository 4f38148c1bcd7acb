(** * A particle swarm whose components fit together never panics *)

From Coq Require Import List Arith ZArith Bool Lia.
From Verif Require Import Base Logic FloatModel GaModel PsoModel SpecGa SpecPso SpecTotal TotalFacts StopModel PsoFacts PsoRuns PsoProofs.
Import ListNotations.

Section Total.
  Context {U T : Type} {FT : FloatTrait T}.
  Variables (N : Prop) (I : phase -> nat -> U -> Prop) (answers : alg_state (list T) -> bool -> Prop) (m d n : nat) (cfg : pso_config U T).
  Notation V := (@swarm_seen T d m).
  Lemma seen_quiet e : shows e = None -> V e.
  Proof. intros H s E. congruence. Qed.
  Lemma seen_shape e s : shows e = Some s -> swarm_dim d s -> length (particles s) = m -> V e.
  Proof. intros H A B s' E. rewrite E in H. injection H as ->. auto. Qed.
  Hint Resolve seen_quiet : core.
  Ltac seen := intros; eapply seen_shape; [reflexivity| |]; auto; unfold swarm_dim; auto; congruence.
  Hypothesis fit : pso_fits I answers d n cfg.
  Notation ev := (pso_event T).
  Lemma loggers_shown (s : swarm T) : swarm_dim d s -> exists s', swarm_dim d s' /\ swarm_view s = pso_view s'.
  Proof. intros H. exists s. auto. Qed.

  Lemma safe_chain ph i (fs : list (list T -> comp U (list T))) mk x :
    (forall f x, In f fs -> dim d x -> always (I ph i) (dim d) (f x)) -> dim d x ->
    safe N (I ph i) V (mfold (fun x f => @call_comp U (list T) (swarm T) (pso_call T) _ (mk x) (f x)) fs x) (dim d).
  Proof. intros H Hx. apply safe_mfold; auto. intros y f Hy Hf. apply safe_call_comp; auto. Qed.

  Lemma particle_new_dim x v y : dim d x -> dim d v -> particle_dim d (@particle_new T x v y).
  Proof. unfold particle_dim. simpl. auto. Qed.

  Lemma safe_renew s : safe N (I Resting 0) V (renew_swarm cfg s)
    (fun s' => swarm_dim d s' /\ length (particles s') = n /\ sw_iteration s' = 0).
  Proof.
    unfold renew_swarm.
    eapply safe_mbind; [apply safe_call_comp; [auto|]; apply (fit_coordinates _ _ _ _ _ fit)|]. intros xs [Lx Dx].
    eapply safe_mbind; [apply safe_call_comp; [auto|]; apply (fit_velocities _ _ _ _ _ fit)|]. intros vs [Lv Dv].
    eapply safe_mbind with (Q := fun _ => True).
    { eapply safe_pure; auto. rewrite Lx, Lv, Nat.eqb_refl. reflexivity. }
    intros _ _.
    eapply safe_mbind.
    { apply safe_mmapM with (Q := fun _ => dim d). intros x Hx. unfold run_post_move.
      apply safe_chain; [intros; apply (fit_post_move _ _ _ _ _ fit); auto|]. rewrite Forall_forall in Dx. auto. }
    intros xs' Hx'.
    assert (Lx' : length xs' = n) by (apply forall2_len in Hx'; congruence).
    assert (Dx' : Forall (dim d) xs') by (clear - Hx'; induction Hx'; constructor; auto).
    eapply safe_mbind.
    { apply safe_mmapM with (Q := fun _ => particle_dim d). intros [x v] Hin.
      rewrite Forall_forall in Dx', Dv.
      pose proof (in_combine_l _ _ _ _ Hin) as H1. pose proof (in_combine_r _ _ _ _ Hin) as H2.
      eapply safe_mbind; [apply safe_call_goal; [auto|]; apply (fit_goal _ _ _ _ _ fit); simpl; auto|].
      intros y _. apply safe_mret. apply particle_new_dim; simpl; auto. }
    intros ps Hps.
    assert (Lp : length ps = n).
    { apply forall2_len in Hps. rewrite <- Hps, combine_length. lia. }
    assert (Dp : Forall (particle_dim d) ps) by (clear - Hps; induction Hps; constructor; auto).
    destruct (replace_particles_spec (swarm_reset s) ps) as [s' [Es [Ep [Ei [Hb Hw]]]]].
    apply safe_pure with (a := s'); auto.
    rewrite Ep, Ei. simpl. split; [|auto].
    rewrite Forall_forall in Dp. unfold swarm_dim. rewrite Ep. split; [apply Forall_forall; auto|].
    split; [intros b E; apply Hb in E; apply Dp; eapply first_least_in; eauto|].
    split.
    { intros w E. apply Hw in E. apply last_greatest_greatest in E. apply Dp. apply E. }
    pose proof (find_best_spec ps) as F1. pose proof (find_worst_spec ps) as F2.
    destruct ps as [|p ps].
    - split; split; auto; intros _.
      + destruct (best_particle s') as [b|]; auto. exfalso. eapply first_least_nil, Hb. reflexivity.
      + destruct (worst_particle s') as [w|]; auto. exfalso. eapply last_greatest_nil, Hw. reflexivity.
    - destruct F1 as [b [_ F1]], F2 as [w [_ F2]].
      apply Hb in F1. apply Hw in F2. split; split; congruence.
  Qed.

  Lemma safe_particle s i : swarm_dim d s -> length (particles s) = m -> i < length (particles s) ->
    safe N (I Running (sw_iteration s)) V (pso_particle cfg s i)
      (fun s' => swarm_dim d s' /\ length (particles s') = length (particles s) /\
                 sw_iteration s' = sw_iteration s).
  Proof.
    intros Hs Hm Hi. unfold pso_particle.
    destruct (index_lt (particles s) i Hi) as [p [Ep Np]].
    eapply safe_mbind with (Q := fun q => q = p); [eapply safe_pure; eauto|]. intros q ->.
    assert (Hp : In p (particles s)) by (eapply nth_error_In; eauto).
    destruct Hs as [D1 [D2 [D3 D4]]]. pose proof D1 as D1'. rewrite Forall_forall in D1.
    eapply safe_mbind; [apply safe_emit; seen|]. intros _ _.
    eapply safe_mbind; [apply safe_call_comp; [auto|]; apply (fit_calc _ _ _ _ _ fit); unfold swarm_dim; auto|]. intros v0 Hv0.
    eapply safe_mbind; [apply safe_chain; [intros; apply (fit_post_velocity _ _ _ _ _ fit); auto|exact Hv0]|]. intros v Hv.
    cbv zeta.
    eapply safe_mbind.
    { apply safe_chain; [intros; apply (fit_post_move _ _ _ _ _ fit); auto|]. unfold dim. simpl.
      rewrite map_length, combine_length. destruct (D1 p Hp) as [L _]. unfold dim in *. lia. }
    intros x Hx.
    eapply safe_mbind; [apply safe_call_goal; [auto|]; apply (fit_goal _ _ _ _ _ fit), Hx|]. intros y _.
    destruct (update_spec (particles s) i (move_to (set_velocity p v) x y)) as [Hu _].
    destruct (Hu Hi) as [ps [Eu [Lu [_ Ou]]]].
    eapply safe_mbind with (Q := fun q => q = ps); [eapply safe_pure; eauto|]. intros q ->.
    apply safe_mret. simpl. split; [|auto]. unfold swarm_dim. simpl.
    split; [|split; [exact D2|split; [exact D3|]]].
    2:{ assert (A : particles s <> []) by (destruct (particles s); [simpl in Hi; lia|discriminate]).
        assert (B : ps <> []) by (destruct ps; [simpl in Lu; lia|discriminate]).
        destruct D4 as [D4 D5]. split; split; intros K; [congruence|apply D4 in K|congruence|apply D5 in K]; congruence. }
    apply update_firstn_skipn in Eu. subst ps. apply Forall_app. split.
    { apply Forall_forall. intros q Hq. apply D1.
      rewrite <- (firstn_skipn i (particles s)). apply in_or_app. auto. }
    constructor.
    - destruct (D1 p Hp) as [A [B [C E]]]. unfold particle_dim, move_to. simpl.
      split; [exact Hx|]. split; [exact Hv|].
      split; destruct (compare_floats _ _); auto.
    - apply Forall_forall. intros q Hq. apply D1.
      rewrite <- (firstn_skipn (S i) (particles s)). apply in_or_app. auto.
  Qed.

  Lemma safe_iteration s : swarm_dim d s -> length (particles s) = m -> leads N (I Running (sw_iteration s)) V (pso_iteration cfg s)
    (fun s' u => (swarm_dim d s' /\ length (particles s') = length (particles s) /\
               sw_iteration s' = sw_iteration s + 1) /\ I Running (sw_iteration s') u).
  Proof.
    intros Hs Hm. unfold pso_iteration.
    eapply leads_safe_bind.
    { apply safe_mfold with (J := fun s' => swarm_dim d s' /\ length (particles s') = length (particles s) /\
                 sw_iteration s' = sw_iteration s); [|auto].
      intros s1 i [H1 [H2 H3]] Hi. apply in_seq in Hi. rewrite <- H3. eapply safe_conseq; [apply safe_particle; auto; [congruence|lia]|].
      simpl. intros s2 [K1 [K2 K3]]. split; [auto|]. split; congruence. }
    intros s1 [[D1 [D2 [D3 D4]]] [L1 I1]].
    destruct (update_best_spec s1) as [s2 [E2 [P2 [W2 [I2 B2]]]]].
    eapply leads_safe_bind with (Q := fun q => q = s2); [eapply safe_pure; eauto|]. intros q ->.
    destruct (update_worst_spec s2) as [s3 [E3 [P3 [B3 [I3 W3]]]]].
    eapply leads_safe_bind with (Q := fun q => q = s3); [eapply safe_pure; eauto|]. intros q ->.
    cbv zeta.
    assert (Hs4 : swarm_dim d (swarm_next_iteration s3)).
    { rewrite Forall_forall in D1. unfold swarm_dim. simpl. rewrite P3, P2, B3.
      split; [apply Forall_forall; auto|]. split; [|split].
      - intros b E. apply B2 in E. apply first_least_in in E. apply in_app_or in E.
        destruct E as [E|E]; [|auto]. destruct (best_particle s1) eqn:Eb; simpl in E; [|destruct E].
        destruct E as [<-|[]]. auto.
      - intros w E. apply W3 in E. rewrite W2, P2 in E. destruct E as [[E _]|[E _]]; [auto|].
        apply last_greatest_greatest in E. apply D1, E.
      - destruct D4 as [D4 D5]. split.
        + rewrite D4. destruct (best_particle s1) as [b1|] eqn:Eb1; split; auto; try discriminate; intros K.
          * exfalso. pose proof (find_best_spec (option_list (Some b1) ++ particles s1)) as F. simpl in F.
            destruct F as [b [_ F]]. apply (B2 b) in F. congruence.
          * destruct (best_particle s2) as [b|]; auto. assert (F := proj1 (B2 b) eq_refl). simpl in F.
            rewrite (proj2 D4 eq_refl) in F. now apply first_least_nil in F.
        + unfold update_worst_particle in E3. rewrite D5, <- W2. pose proof (find_worst_spec (particles s2)) as F.
          rewrite <- W2 in D5. rewrite <- P2 in D5.
          destruct (particles s2) as [|p2 l2].
          * rewrite F in E3. simpl in E3. injection E3 as <-. tauto.
          * destruct F as [w [F _]]. rewrite F in E3. simpl in E3. injection E3 as <-.
            destruct (worst_particle s2) eqn:Ew2; simpl;
              [destruct (compare_floats _ _); simpl; rewrite ?Ew2; split; congruence|].
            assert (K := proj2 D5 eq_refl). discriminate. }
    assert (I4 : sw_iteration (swarm_next_iteration s3) = sw_iteration s + 1) by (simpl; rewrite I3, I2, I1; lia).
    apply leads_pre with (J := I Running (sw_iteration (swarm_next_iteration s3))).
    { intros u Hu. rewrite I4. now apply (fit_age _ _ _ _ _ fit). }
    eapply leads_safe_bind.
    { apply safe_call_loggers; [intros; eapply seen_shape; [reflexivity|exact Hs4|simpl; rewrite P3, P2; congruence]|]. intros l Hl.
      exact (log_next _ _ _ (fit_logging _ _ _ _ _ fit) l (swarm_view _) Hl (loggers_shown _ Hs4)). }
    intros _ _. apply leads_mret. intros u Hu. split; [|exact Hu]. split; [exact Hs4|]. split; [simpl; rewrite P3, P2; auto|exact I4].
  Qed.

  (** The fuel is enough, or it does not matter. *)
  Definition enough (fuel : nat) (s : swarm T) : Prop :=
    N \/ exists k, stops_by k answers /\ k - sw_iteration s < fuel.

  Lemma safe_loop fuel s : swarm_dim d s -> length (particles s) = m -> enough fuel s ->
    leads N (I Running (sw_iteration s)) V (pso_loop cfg fuel s)
    (fun s' u => (swarm_dim d s' /\ length (particles s') = length (particles s) /\
      answers (swarm_view s') true /\
      forall k, stops_by k answers -> sw_iteration s <= k -> sw_iteration s' <= k) /\ I Running (sw_iteration s') u).
  Proof.
    revert s. induction fuel as [|fuel IH]; intros s Hs Hm Hf; simpl.
    { apply leads_nofuel. destruct Hf as [HN|[k [_ Hk]]]; [auto|lia]. }
    eapply leads_safe_bind; [apply safe_call_stop; [seen|]; apply (fit_stop _ _ _ _ _ fit), Hs|]. intros b Hb.
    destruct b; [apply leads_mret; auto|].
    eapply leads_bind; [apply safe_iteration; auto|]. intros s1 [H1 [H2 H3]].
    eapply leads_conseq; [apply IH; [auto|congruence|]|].
    - destruct Hf as [HN|[k [Hk Lk]]]; [now left|]. right. exists k. split; auto.
      destruct (Nat.le_gt_cases k (sw_iteration s)) as [K|K]; [|lia].
      exfalso. exact (Hk (swarm_view s) K Hb).
    - simpl. intros s2 u [[K1 [K2 [K3 K4]]] K5]. split; [|auto]. split; [auto|]. split; [congruence|]. split; [auto|].
      intros k Hk Lk. apply K4; auto. rewrite H3. destruct (Nat.le_gt_cases k (sw_iteration s)) as [K|K]; [|lia].
      exfalso. exact (Hk (swarm_view s) K Hb).
  Qed.

  Lemma safe_next fuel s : swarm_dim d s -> length (particles s) = m -> enough fuel s ->
    leads N (I Resting (sw_iteration s)) V (pso_next_iterations cfg fuel s)
    (fun r u => (swarm_dim d (snd r) /\ length (particles (snd r)) = length (particles s) /\
              fst r = option_map (fun p => (coordinates p, value p)) (best_particle (snd r)) /\
              answers (swarm_view (snd r)) true /\
              forall k, stops_by k answers -> sw_iteration s <= k -> sw_iteration (snd r) <= k) /\
              I Running (sw_iteration (snd r)) u).
  Proof.
    intros Hs Hm Hf. unfold pso_next_iterations.
    eapply leads_bind with (Q := fun _ => True) (J := fun _ => I Running (sw_iteration s)).
    { eapply leads_conseq; [apply leads_loggers; [seen|]|simpl; intros a u Ha; split; [exact Logic.I|exact Ha]].
      intros u Hu. exact (log_resume _ _ _ (fit_logging _ _ _ _ _ fit) (swarm_view s) u (loggers_shown _ Hs) Hu). }
    intros _ _. eapply leads_bind; [apply safe_loop; auto|]. intros s1 [H1 [H2 H3]]; cbv beta in *.
    eapply leads_safe_bind; [apply safe_call_loggers; [seen|]; intros l Hl; exact (log_finish _ _ _ (fit_logging _ _ _ _ _ fit) l (swarm_view _) Hl (loggers_shown _ H1))|].
    intros _ _. apply leads_mret. intros u Hu. simpl. split; [|exact Hu].
    split; [auto|]. split; [auto|]. split; [destruct (best_particle s1); reflexivity|exact H3].
  Qed.

  Lemma safe_find fuel s : m = n -> (N \/ exists k, stops_by k answers /\ k < fuel) ->
    leads N (I Resting 0) V (pso_find_min cfg fuel s)
    (fun r u => (swarm_dim d (snd r) /\ length (particles (snd r)) = n /\
              fst r = option_map (fun p => (coordinates p, value p)) (best_particle (snd r)) /\
              answers (swarm_view (snd r)) true /\
              forall k, stops_by k answers -> sw_iteration (snd r) <= k) /\ I Running (sw_iteration (snd r)) u).
  Proof.
    intros Hm Hf. unfold pso_find_min. eapply leads_safe_bind; [apply safe_renew|]. intros s1 [H1 [H2 H3]].
    rewrite <- H3.
    eapply leads_safe_bind; [apply safe_call_loggers; [seen|]; intros l Hl; exact (log_start _ _ _ (fit_logging _ _ _ _ _ fit) l (swarm_view _) Hl (loggers_shown _ H1))|].
    intros _ _. eapply leads_conseq.
    { apply safe_next; [exact H1|congruence|]. destruct Hf as [HN|[k [Ek Hk]]]; [now left|]. right. exists k. split; auto. lia. }
    simpl. intros r u [[K1 [K2 [K3 [K4 K5]]]] K6]. split; [|auto]. split; [auto|]. split; [congruence|]. split; [auto|]. split; [auto|].
    intros k Hk. apply K5; [auto|lia].
  Qed.
End Total.

Section Histories.
  Context {U T : Type} {FT : FloatTrait T}.
  Implicit Types (I : phase -> nat -> U -> Prop).

  Lemma pso_find_never_panics I answers d n (cfg : pso_config U T) fuel s u : pso_fits I answers d n cfg -> I Resting 0 u ->
    fst (fst (pso_find_min cfg fuel s u)) <> Panic.
  Proof. intros H Hu. eapply leads_not_panic; [eapply (safe_find True); [exact H|reflexivity|now left]|exact Hu]. Qed.
  Lemma pso_next_never_panics I answers d n (cfg : pso_config U T) fuel s u : pso_fits I answers d n cfg -> I Resting (sw_iteration s) u ->
    swarm_dim d s -> fst (fst (pso_next_iterations cfg fuel s u)) <> Panic.
  Proof. intros H Hu Hs. eapply leads_not_panic; [eapply (safe_next True); eauto; now left|exact Hu]. Qed.

  Lemma pso_find_fits I answers d n (cfg : pso_config U T) fuel s u r s' u' t : pso_fits I answers d n cfg -> I Resting 0 u ->
    pso_find_min cfg fuel s u = (Ret (r, s'), u', t) ->
    swarm_dim d s' /\ length (particles s') = n /\ answers (swarm_view s') true /\ I Running (sw_iteration s') u'.
  Proof.
    intros H Hu E.
    destruct (leads_post True (I Resting 0) _ _ _ u _ _ _ (safe_find True I answers n d n cfg H fuel s eq_refl (or_introl Logic.I)) Hu E)
      as [[A [B [C [D _]]]] F]. auto.
  Qed.
  Lemma pso_next_fits I answers d n (cfg : pso_config U T) fuel s u r s' u' t : pso_fits I answers d n cfg -> I Resting (sw_iteration s) u ->
    swarm_dim d s ->
    pso_next_iterations cfg fuel s u = (Ret (r, s'), u', t) ->
    swarm_dim d s' /\ length (particles s') = length (particles s) /\ answers (swarm_view s') true /\ I Running (sw_iteration s') u'.
  Proof.
    intros H Hu Hs E.
    destruct (leads_post True (I Resting (sw_iteration s)) _ _ _ u _ _ _ (safe_next True I answers (length (particles s)) d n cfg H fuel s Hs eq_refl (or_introl Logic.I)) Hu E)
      as [[A [B [C [D _]]]] F]. auto.
  Qed.
  Lemma pso_find_answer I answers d n (cfg : pso_config U T) fuel s u r s' u' t : pso_fits I answers d n cfg -> I Resting 0 u ->
    pso_find_min cfg fuel s u = (Ret (r, s'), u', t) -> r = as_best (swarm_view s') /\ (r = None <-> n = 0).
  Proof.
    intros H Hu E.
    destruct (leads_post True (I Resting 0) _ _ _ u _ _ _ (safe_find True I answers n d n cfg H fuel s eq_refl (or_introl Logic.I)) Hu E)
      as [[[_ [_ [_ [A _]]]] [B [C _]]] _]. simpl in *. split.
    - rewrite C. unfold swarm_view. simpl. now destruct (best_particle s').
    - subst r. rewrite <- B. split; intros K.
      + destruct (best_particle s'); [discriminate|]. now rewrite (proj2 A eq_refl).
      + apply length_zero_iff_nil, A in K. now rewrite K.
  Qed.
  Lemma pso_next_answer I answers d n (cfg : pso_config U T) fuel s u r s' u' t : pso_fits I answers d n cfg -> I Resting (sw_iteration s) u ->
    swarm_dim d s ->
    pso_next_iterations cfg fuel s u = (Ret (r, s'), u', t) -> r = as_best (swarm_view s').
  Proof.
    intros H Hu Hs E.
    destruct (leads_post True (I Resting (sw_iteration s)) _ _ _ u _ _ _ (safe_next True I answers (length (particles s)) d n cfg H fuel s Hs eq_refl (or_introl Logic.I)) Hu E)
      as [[_ [_ [C _]]] _]. simpl in *. rewrite C. unfold swarm_view. simpl. now destruct (best_particle s').
  Qed.
  Lemma pso_find_seen I answers d n (cfg : pso_config U T) fuel s u : pso_fits I answers d n cfg -> I Resting 0 u ->
    Forall (swarm_seen d n) (snd (pso_find_min cfg fuel s u)).
  Proof.
    intros H Hu. exact (leads_events True (I Resting 0) _ _ _ u (safe_find True I answers n d n cfg H fuel s eq_refl (or_introl Logic.I)) Hu).
  Qed.
  Lemma pso_next_seen I answers d n (cfg : pso_config U T) fuel s u : pso_fits I answers d n cfg -> I Resting (sw_iteration s) u -> swarm_dim d s ->
    Forall (swarm_seen d (length (particles s))) (snd (pso_next_iterations cfg fuel s u)).
  Proof.
    intros H Hu Hs.
    exact (leads_events True (I Resting (sw_iteration s)) _ _ _ u (safe_next True I answers (length (particles s)) d n cfg H fuel s Hs eq_refl (or_introl Logic.I)) Hu).
  Qed.
  Lemma swarm_new_dim d : swarm_dim d (@swarm_new T).
  Proof. unfold swarm_dim. simpl. split; [constructor|]. split; [discriminate|]. split; [discriminate|]. tauto. Qed.

  (** With a bound on the iterations the run returns. *)
  Lemma pso_find_returns I answers d n (cfg : pso_config U T) k fuel s u :
    pso_fits I answers d n cfg -> stops_by k answers -> k < fuel -> I Resting 0 u ->
    exists r s' u' t, pso_find_min cfg fuel s u = (Ret (r, s'), u', t) /\
      swarm_dim d s' /\ length (particles s') = n /\ (r = None <-> n = 0) /\
      sw_iteration s' <= k /\ answers (swarm_view s') true /\ I Running (sw_iteration s') u'.
  Proof.
    intros H Ek Hk Hu.
    destruct (leads_total (I Resting 0) _ _ _ u (safe_find False I answers n d n cfg H fuel s eq_refl
                (or_intror (ex_intro _ k (conj Ek Hk)))) Hu) as [[r s'] [u' [t [E [[[A [B [C [F G]]]] D] _]]]]].
    exists r, s', u', t. simpl in *. split; [auto|]. split; [auto|]. split; [auto|]. split; [|auto].
    destruct A as [_ [_ [_ [A _]]]]. subst r. rewrite <- B. split; intros K.
    - destruct (best_particle s'); [discriminate|]. now rewrite (proj2 A eq_refl).
    - apply length_zero_iff_nil, A in K. now rewrite K.
  Qed.
  Lemma pso_next_returns I answers d n (cfg : pso_config U T) k fuel s u :
    pso_fits I answers d n cfg -> stops_by k answers -> k - sw_iteration s < fuel -> I Resting (sw_iteration s) u -> swarm_dim d s ->
    exists r s' u' t, pso_next_iterations cfg fuel s u = (Ret (r, s'), u', t) /\
      swarm_dim d s' /\ length (particles s') = length (particles s) /\ (r = None <-> particles s = []) /\
      (sw_iteration s <= k -> sw_iteration s' <= k) /\ answers (swarm_view s') true /\ I Running (sw_iteration s') u'.
  Proof.
    intros H Ek Hk Hu Hs.
    destruct (leads_total (I Resting (sw_iteration s)) _ _ _ u (safe_next False I answers (length (particles s)) d n cfg H fuel s Hs eq_refl
                (or_intror (ex_intro _ k (conj Ek Hk)))) Hu) as [[r s'] [u' [t [E [[[A [B [C [F G]]]] D] _]]]]].
    exists r, s', u', t. simpl in *. split; [auto|]. split; [auto|]. split; [auto|]. split; [|auto].
    destruct A as [_ [_ [_ [A _]]]]. subst r. split; intros K.
    - apply length_zero_iff_nil. rewrite <- B. apply length_zero_iff_nil. apply A. now destruct (best_particle s').
    - rewrite K in B. apply length_zero_iff_nil, A in B. now rewrite B.
  Qed.
End Histories.
