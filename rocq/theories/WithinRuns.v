(** * Swarms within a set of points and a set of velocities *)

From Coq Require Import List Arith ZArith Bool Lia.
From Verif Require Import Base Logic FloatModel GaModel PsoModel SpecGa SpecPso PsoFacts PsoRuns.
Import ListNotations.

(** What the post-velocity components make of a velocity. *)
Definition run_post_velocity {U T} (cfg : pso_config U T) (v : list T) : M U (pso_event T) (list T) :=
  mfold (fun v f => call_comp (PPostVelocity v) (f v)) (pso_post_velocity cfg) v.

Lemma chain_keeps {U T} (mk : list T -> list T -> pso_call T) (Q : list T -> Prop) (l : list (list T -> comp U (list T))) :
  (forall f y u z u', In f l -> Q y -> f y u = (Ret z, u') -> Q z) ->
  forall x, Q x -> hoare (fun (_ : list (pso_event T)) (_ : U) => True)
    (mfold (fun y f => call_comp (mk y) (f y)) l x) (fun z _ _ => Q z) (fun _ _ => True).
Proof.
  intros HQ x Hx. eapply hoare_pre.
  - apply hoare_mfold with (I := fun v (_ : list (pso_event T)) (_ : U) => Q v). intros v f Hf h u Hv.
    unfold call_comp, mbind, call, emit, mret. destruct (f v u) as [[z| |] u'] eqn:E; cbn; auto. eapply HQ; eauto.
  - auto.
Qed.

Section Within.
  Context {U T : Type} {FT : FloatTrait T}.
  Variable cfg : pso_config U T.
  Notation ev := (pso_event T).
  Implicit Types (h t : list ev) (s : swarm T) (u : U).
  (** [P0]: starting points and sums before the post-moves; [P]: points the goal is called
      on; [V0]: velocities as calculated; [V]: velocities of particles. *)
  Variables P0 P V0 V : list T -> Prop.

  Definition within s : Prop :=
    (forall p, In p (particles s) ->
       P (coordinates p) /\ P (best_personal_coordinates p) /\ P (worst_personal_coordinates p) /\ V (velocity p)) /\
    (forall b, best_particle s = Some b \/ worst_particle s = Some b -> P (coordinates b)).

  Hypothesis K1 : forall s p u v u', within s -> In p (particles s) -> pso_calc cfg s p u = (Ret v, u') -> V0 v.
  Hypothesis K2 : forall v, V0 v ->
    hoare (fun _ _ => True) (run_post_velocity cfg v) (fun w _ _ => V w) (fun _ _ => True).
  Hypothesis K3 : forall x, P0 x ->
    hoare (fun _ _ => True) (run_post_move cfg x) (fun y _ _ => P y) (fun _ _ => True).
  Hypothesis K4 : forall x v, P x -> V v -> P0 (pointwise_sum x v).

  Definition fine (e : ev) : Prop :=
    match e with EEval x => P x | EValue x _ => P x | _ => True end /\ (forall s, shows e = Some s -> within s).
  Definition every h (u : U) : Prop := Forall fine h.
  Definition every_at s h (u : U) : Prop := every h u /\ within s.

  Lemma w_emit e : fine e -> hoare every (emit e) (fun _ => every) every.
  Proof. intros He h u H. simpl. apply Forall_app. auto. Qed.
  Lemma fine_call c : fine (ECall c).
  Proof. split; [exact I|]. intros s E. discriminate E. Qed.
  Lemma fine_see s e : within s -> shows e = Some s -> fine e.
  Proof. intros W E. split; [destruct e; try exact I; discriminate E|]. intros s' E'. rewrite E in E'. now injection E' as <-. Qed.

  Lemma w_call {A} (rec : A -> pso_call T) (c : comp U A) (R : A -> Prop) :
    (forall a u u', c u = (Ret a, u') -> R a) ->
    hoare every (call_comp rec c) (fun a h u => every h u /\ R a) every.
  Proof.
    intros HR. unfold call_comp.
    eapply hoare_mbind with (R := fun a h u => every h u /\ R a).
    - apply hoare_call; auto. intros h u a u' H Hc. split; eauto.
    - intros a. eapply hoare_mbind with (R := fun _ h u => every h u /\ R a).
      + intros h u [H1 H2]. simpl. split; auto. apply Forall_app. split; [exact H1|]. constructor; [apply fine_call|constructor].
      + intros ?x. apply (hoare_mret a (fun a h u => every h u /\ R a)).
  Qed.

  Lemma w_goal x : P x -> hoare every (call_goal (pso_goal cfg) x) (fun _ => every) every.
  Proof.
    intros Hx. unfold call_goal. eapply hoare_mbind; [apply w_emit; split; [exact Hx|intros s E; discriminate E]|].
    intros ?x. eapply hoare_mbind with (R := fun v => every).
    - apply hoare_call; eauto.
    - intros v. eapply hoare_mbind with (R := fun _ => every).
      + apply w_emit. split; [exact Hx|intros s E; discriminate E].
      + intros ?x. apply (hoare_mret v (fun _ => every)).
  Qed.

  Lemma w_chain (mk : list T -> list T -> pso_call T) (Q0 Q : list T -> Prop) (l : list (list T -> comp U (list T))) x :
    (forall y, Q0 y -> hoare (fun (_ : list ev) (_ : U) => True) (mfold (fun y f => call_comp (mk y) (f y)) l y)
                         (fun z _ _ => Q z) (fun _ _ => True)) -> Q0 x ->
    hoare every (mfold (fun y f => call_comp (mk y) (f y)) l x) (fun y h u => every h u /\ Q y) every.
  Proof.
    intros HQ Hx h u H.
    assert (G : hoare every (mfold (fun y f => call_comp (mk y) (f y)) l x) (fun _ => every) every).
    { apply hoare_mfold with (I := fun _ => every). intros v f Hf h1 u1 H1.
      pose proof (w_call (mk v) (f v) (fun _ => True) (fun _ _ _ _ => I) h1 u1 H1) as G.
      destruct (call_comp _ _ u1) as [[[z| |] u'] t]; tauto. }
    specialize (G h u H). specialize (HQ x Hx h u I).
    destruct (mfold _ _ _ u) as [[[z| |] u'] t]; auto.
  Qed.

  Lemma w_loggers k s : within s ->
    hoare every (call_loggers swarm_view k (pso_loggers cfg) s) (fun _ => every) every.
  Proof.
    intros W. unfold call_loggers. apply hoare_mfor. intros [i l] _. eapply hoare_mbind.
    - apply w_emit. apply (fine_see s); [exact W|reflexivity].
    - intros ?x. apply hoare_call; auto.
  Qed.

  Lemma w_particle s n : hoare (every_at s) (pso_particle cfg s n) (fun s' => every_at s') every.
  Proof.
    intros h0 u0 [H0 W].
    assert (G : hoare every (pso_particle cfg s n) (fun s' => every_at s') every).
    2:{ exact (G h0 u0 H0). }
    clear h0 u0 H0. unfold pso_particle.
    eapply hoare_mbind with (R := fun p h u => every h u /\ nth_error (particles s) n = Some p).
    { apply hoare_pure; auto. intros h u p H E. split; auto. now apply index_ret in E. }
    intros p h0 u0 [H0 Ep]. revert h0 u0 H0.
    match goal with |- forall h u, every h u -> match ?m u with _ => _ end =>
      change (hoare every m (fun s' => every_at s') every) end.
    assert (Hin : In p (particles s)) by (eapply nth_error_In; eauto).
    destruct (proj1 W p Hin) as [Hc [Hb [Hw Hv]]].
    eapply hoare_mbind; [apply w_emit; apply (fine_see s); [exact W|reflexivity]|]. intros ?x.
    eapply hoare_mbind; [apply (w_call _ _ V0); eauto|]. intros v0. cbn beta.
    eapply hoare_mbind with (R := fun v h u => every h u /\ V v).
    { intros h u [H Hv0]. exact (w_chain PPostVelocity V0 V (pso_post_velocity cfg) v0 K2 Hv0 h u H). }
    intros v. cbn beta zeta.
    eapply hoare_mbind with (R := fun y h u => every h u /\ P y /\ V v).
    { intros h u [H Hv0]. pose proof (w_chain PPostMove P0 P (pso_post_move cfg)
        (pointwise_sum (coordinates p) v) K3 (K4 _ _ Hc Hv0) h u H) as G.
      unfold run_post_move. unfold pointwise_sum in G. cbn [set_velocity coordinates velocity].
      destruct (mfold _ (pso_post_move cfg) _ u) as [[[z| |] u'] t]; tauto. }
    intros y. eapply hoare_mbind with (R := fun _ h u => every h u /\ P y /\ V v).
    { intros h u [H Hy]. pose proof (w_goal y (proj1 Hy) h u H) as G.
      destruct (call_goal (pso_goal cfg) y u) as [[[z| |] u'] t]; auto. }
    intros z. eapply hoare_mbind with (R := fun ps h u => every h u /\ (P y /\ V v) /\
        update (particles s) n (move_to (set_velocity p v) y z) = Ret ps).
    { apply hoare_pure; [intros h u a [H1 H2]; auto|intros h u [H _]; auto]. }
    intros ps. eapply hoare_pre; [apply (hoare_mret _ (fun s' => every_at s'))|].
    intros h u [H [[Hy Hv0] E]]. split; auto. apply update_firstn_skipn in E. subst ps. split.
    - intros q Hq. cbn [set_particles particles] in Hq. apply in_app_or in Hq. destruct Hq as [Hq|[Hq|Hq]].
      + apply W. rewrite <- (firstn_skipn n). apply in_or_app. now left.
      + subst q. unfold move_to, set_velocity.
        cbn [coordinates velocity best_personal_coordinates worst_personal_coordinates best_personal_value worst_personal_value].
        repeat split; auto; destruct (compare_floats _ _); auto.
      + apply W. rewrite <- (firstn_skipn (Datatypes.S n)). apply in_or_app. now right.
    - exact (proj2 W).
  Qed.

  Lemma within_best s s' : particles s' = particles s ->
    (forall b, best_particle s' = Some b -> best_particle s = Some b \/ In b (particles s)) ->
    (forall b, worst_particle s' = Some b -> worst_particle s = Some b \/ In b (particles s)) ->
    within s -> within s'.
  Proof.
    intros EP EB EW [W1 W2]. split; [rewrite EP; exact W1|].
    intros b [Hb|Hb]; [apply EB in Hb|apply EW in Hb]; destruct Hb as [Hb|Hb]; auto; now apply W1.
  Qed.

  Lemma w_iteration s : hoare (every_at s) (pso_iteration cfg s) (fun s' => every_at s') every.
  Proof.
    unfold pso_iteration. eapply hoare_mbind with (R := fun s1 => every_at s1).
    { apply hoare_mfold with (I := fun s' => every_at s'). intros. apply w_particle. }
    intros s1. eapply hoare_mbind with (R := fun s2 => every_at s2).
    { apply hoare_pure; [|intros h u [H _]; auto]. intros h u s2 [H1 H2] E.
      destruct (update_best_spec s1) as [x [X1 [P1 [W1 [_ B1]]]]]. rewrite E in X1. inversion X1; subst x.
      split; auto. apply (within_best s1); auto.
      - intros b Hb. apply B1 in Hb. destruct Hb as [k [Hk _]]. apply nth_error_In in Hk. apply in_app_or in Hk.
        destruct Hk as [Hk|Hk]; auto. left. destruct (best_particle s1); [destruct Hk as [->|[]]; auto|destruct Hk].
      - intros b Hb. left. congruence. }
    intros s2. eapply hoare_mbind with (R := fun s3 => every_at s3).
    { apply hoare_pure; [|intros h u [H _]; auto]. intros h u s3 [H1 H2] E.
      destruct (update_worst_spec s2) as [x [X1 [P1 [W1 [_ B1]]]]]. rewrite E in X1. inversion X1; subst x.
      split; auto. apply (within_best s2); auto.
      - intros b Hb. left. congruence.
      - intros b Hb. apply B1 in Hb. destruct Hb as [[Hb _]|[[k [Hk _]] _]]; auto. right. now apply nth_error_In in Hk. }
    intros s3. cbn zeta. eapply hoare_mbind with (R := fun _ => every_at (swarm_next_iteration s3)).
    { intros h u [H1 H2]. assert (W : within (swarm_next_iteration s3)) by exact H2.
      pose proof (w_loggers LNext (swarm_next_iteration s3) W h u H1) as G.
      destruct (call_loggers _ _ _ _ u) as [[[z| |] u'] t]; auto. split; auto. }
    intros ?x. apply (hoare_mret _ (fun s' => every_at s')).
  Qed.

  Lemma w_next fuel s : hoare (every_at s) (pso_next_iterations cfg fuel s)
    (fun r => every_at (snd r)) every.
  Proof.
    assert (HL : forall k q, hoare (every_at q) (call_loggers swarm_view k (pso_loggers cfg) q)
                   (fun _ => every_at q) every).
    { intros k q h u [H1 H2]. pose proof (w_loggers k q H2 h u H1) as G.
      destruct (call_loggers _ _ _ _ u) as [[[z| |] u'] t]; auto. split; auto. }
    unfold pso_next_iterations. eapply hoare_mbind; [apply HL|]. intros ?x.
    eapply hoare_mbind with (R := fun s' => every_at s').
    - revert s. induction fuel as [|fuel IH]; intros s; simpl.
      + eapply hoare_pre; [apply hoare_nofuel|]. intros h u [H _]. exact H.
      + eapply hoare_mbind with (R := fun _ => every_at s).
        * unfold call_stop. eapply hoare_mbind with (R := fun b => every_at s).
          -- apply hoare_call; [|intros h u u' [H _]; auto]. auto.
          -- intros b. eapply hoare_mbind with (R := fun _ => every_at s).
             ++ intros h u [H1 H2]. simpl. split; auto. apply Forall_app. split; [exact H1|].
                constructor; [apply (fine_see s); [exact H2|reflexivity]|constructor].
             ++ intros ?x. apply (hoare_mret _ (fun _ => every_at s)).
        * intros [|]; [apply (hoare_mret _ (fun s' => every_at s'))|].
          eapply hoare_mbind; [apply w_iteration|]. intros s'. apply IH.
    - intros s'. eapply hoare_mbind; [apply HL|]. intros ?x.
      apply (hoare_mret (_, s') (fun r => every_at (snd r))).
  Qed.

  Lemma w_start s u0 : (forall xs u1, pso_coordinates cfg u0 = (Ret xs, u1) -> Forall P0 xs) ->
    (forall u vs u', pso_velocities cfg u = (Ret vs, u') -> Forall V vs) ->
    hoare (fun h u => every h u /\ u = u0) (renew_swarm cfg s) (fun s1 => every_at s1) every.
  Proof.
    intros H1 H2. unfold renew_swarm.
    eapply hoare_mbind with (R := fun xs h u => every h u /\ Forall P0 xs).
    { intros h u [H ->]. unfold call_comp, mbind, call, emit, mret.
      destruct (pso_coordinates cfg u0) as [[xs| |] u1] eqn:E; cbn; try (now rewrite app_nil_r).
      split; [|eapply H1; reflexivity]. apply Forall_app. split; [exact H|]. constructor; [apply fine_call|constructor]. }
    intros coords. eapply hoare_mbind with (R := fun vs h u => every h u /\ Forall P0 coords /\ Forall V vs).
    { intros h u [H Hc]. pose proof (w_call PVelocities (pso_velocities cfg) (Forall V) (fun a u u' => H2 u a u') h u H) as G.
      destruct (call_comp _ _ u) as [[[z| |] u'] t]; tauto. }
    intros vels. eapply hoare_mbind with (R := fun _ h u => every h u /\ Forall P0 coords /\ Forall V vels).
    { apply hoare_pure; [intros; auto|]. intros h u [H _]. exact H. }
    intros ?x. eapply hoare_mbind with (R := fun coords' h u => every h u /\ Forall P coords' /\ Forall V vels).
    { intros h u [H [Hc Hv]]. rewrite Forall_forall in Hc.
      pose proof (hoare_mmapM (run_post_move cfg) coords every (fun _ y => P y) every
        (fun x Hx => w_chain PPostMove P0 P (pso_post_move cfg) x K3 (Hc x Hx)) h u H) as G.
      destruct (mmapM _ _ u) as [[[z| |] u'] t]; auto. destruct G as [G1 G2]. split; auto. split; auto.
      clear - G2. induction G2; constructor; auto. }
    intros coords'.
    eapply hoare_mbind with (R := fun ps h u => every h u /\
      Forall (fun p => P (coordinates p) /\ P (best_personal_coordinates p) /\ P (worst_personal_coordinates p) /\ V (velocity p)) ps).
    { intros h u [H [Hc Hv]].
      set (R := fun (_ : list T * list T) (p : particle T) =>
        P (coordinates p) /\ P (best_personal_coordinates p) /\ P (worst_personal_coordinates p) /\ V (velocity p)).
      assert (G' : hoare every (mmapM (fun cs => y <- call_goal (pso_goal cfg) (fst cs) ;;
                 mret (particle_new (fst cs) (snd cs) y)) (combine coords' vels))
                 (fun ys h u => every h u /\ Forall2 R (combine coords' vels) ys) every).
      { apply hoare_mmapM. intros [x1 v1] Hx. pose proof (in_combine_l _ _ _ _ Hx) as Hx1. apply in_combine_r in Hx.
        rewrite Forall_forall in Hc, Hv.
        eapply hoare_mbind; [apply w_goal; apply Hc; exact Hx1|]. intros y.
        intros h1 u1 H3. simpl. rewrite app_nil_r. split; [exact H3|].
        unfold R, particle_new. cbn. specialize (Hc _ Hx1). specialize (Hv _ Hx). auto. }
      specialize (G' h u H). destruct (mmapM _ _ u) as [[[z| |] u'] t]; auto. destruct G' as [G1 G2].
      split; auto. clear - G2. induction G2; constructor; auto. }
    intros ps. apply hoare_pure; [|intros h u [H _]; auto].
    intros h u s' [H3 H4] E. destruct (replace_particles_spec (swarm_reset s) ps) as [z [X1 [Q1 [_ [B1 B2]]]]].
    rewrite E in X1. inversion X1; subst z. split; auto. rewrite Forall_forall in H4. split; [rewrite Q1; exact H4|].
    intros b [Hb|Hb]; [apply B1 in Hb|apply B2 in Hb]; destruct Hb as [k [Hk _]]; apply nth_error_In in Hk; now apply H4.
  Qed.

  Lemma w_find fuel s u0 : (forall xs u1, pso_coordinates cfg u0 = (Ret xs, u1) -> Forall P0 xs) ->
    (forall u vs u', pso_velocities cfg u = (Ret vs, u') -> Forall V vs) ->
    hoare (fun h u => every h u /\ u = u0) (pso_find_min cfg fuel s) (fun r => every_at (snd r)) every.
  Proof.
    intros H1 H2. unfold pso_find_min. eapply hoare_mbind; [apply w_start; eauto|].
    intros s1. eapply hoare_mbind with (R := fun _ => every_at s1).
    { intros h u [H3 H4]. pose proof (w_loggers LStart s1 H4 h u H3) as G.
      destruct (call_loggers _ _ _ _ u) as [[[z| |] u'] t]; auto. split; auto. }
    intros ?x. apply w_next.
  Qed.
End Within.
