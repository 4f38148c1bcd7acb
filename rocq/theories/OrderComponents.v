(** * Proofs for C95: the components that compare goal values and use them for nothing else *)

From Coq Require Import List Arith ZArith Bool Lia.
From Verif Require Import Base FloatModel Rng GaModel GaComponents PsoModel PsoComponents StopModel SpecGa SpecOrder OrderFacts.
Import ListNotations.

Lemma alike_outcome_eq {A} (o o' : outcome A) : alike_outcome eq o o' -> o = o'.
Proof. destruct o, o'; cbn; intros H; try contradiction; congruence. Qed.

Lemma cbind_ext {U A B} (m m' : comp U A) (k k' : A -> comp U B) u :
  m u = m' u -> (forall a u, k a u = k' a u) -> cbind m k u = cbind m' k' u.
Proof. intros E H. unfold cbind. rewrite E. destruct (m' u) as [[a| |] v]; auto. Qed.
Lemma cfold_ext {U A S} (f f' : S -> A -> comp U S) l : (forall s a u, f s a u = f' s a u) ->
  forall s u, cfold f l s u = cfold f' l s u.
Proof. intros H. induction l as [|a l IH]; intros s u; cbn [cfold]; [reflexivity|]. now apply cbind_ext. Qed.
Lemma creplicate_ext {U A} n (m m' : comp U A) : (forall u, m u = m' u) ->
  forall u, creplicate n m u = creplicate n m' u.
Proof.
  intros H. induction n as [|n IH]; intros u; cbn [creplicate]; [reflexivity|].
  apply cbind_ext; [apply H|]. intros a v. apply cbind_ext; auto.
Qed.
Lemma cmapM_ext {U A B} (f f' : A -> comp U B) l : (forall a u, f a u = f' a u) ->
  forall u, cmapM f l u = cmapM f' l u.
Proof.
  intros H. induction l as [|a l IH]; intros u; cbn [cmapM]; [reflexivity|].
  apply cbind_ext; [apply H|]. intros b v. apply cbind_ext; auto.
Qed.

Section Components.
  Variable R : f64 -> f64 -> Prop.
  Hypothesis HR : same_order R.

  Lemma random_pairing_blind {T} (p q : population T) r : alike_population R p q ->
    random_pairing p r = random_pairing q r.
  Proof. intros [H _]. unfold random_pairing. now rewrite (Forall2_len _ _ _ H). Qed.

  Lemma tournament_blind {T} t (p q : population T) r : alike_population R p q ->
    tournament_pairs t p r = tournament_pairs t q r.
  Proof.
    intros [H _]. unfold tournament_pairs. rewrite (Forall2_len _ _ _ H).
    apply cbind_ext; [reflexivity|]. intros between u.
    apply creplicate_ext. intros u'. apply creplicate_ext. intros u''. unfold tournament_partner.
    apply cbind_ext; [reflexivity|]. intros first v. apply cfold_ext. intros b _ w.
    apply cbind_ext; [reflexivity|]. intros ch x. unfold cpure. f_equal. apply alike_outcome_eq.
    apply (alike_obind (alike_individual R)); [now apply alike_index|]. intros i i' Hi.
    apply (alike_obind (alike_individual R)); [now apply alike_index|]. intros j j' Hj.
    cbn. now rewrite (ltb_alike R HR _ _ _ _ (proj1 (proj2 Hi)) (proj1 (proj2 Hj))).
  Qed.

  Lemma kill_alike {T} (i j : individual T) : alike_individual R i j -> alike_individual R (kill i) (kill j).
  Proof. intros [H1 [H2 H3]]. repeat split; assumption. Qed.

  Lemma kill_nan_alike {T} (p q : population T) : alike_population R p q ->
    Forall2 (alike_individual R) (kill_fitness_nan p) (kill_fitness_nan q).
  Proof.
    intros [H _]. unfold kill_fitness_nan. induction H as [|i j l l' H _ IH]; cbn [map]; constructor; [|exact IH].
    rewrite (proj1 (HR _ _ (proj1 (proj2 H)))). destruct (is_finite (fitness i)); [exact H|now apply kill_alike].
  Qed.

  Lemma interval_alike {T} {FT : FloatTrait T} intervals (p q : population (list T)) : alike_population R p q ->
    alike_outcome (Forall2 (alike_individual R)) (selection_interval intervals p) (selection_interval intervals q).
  Proof.
    intros [H _]. unfold selection_interval. apply (alike_omap (alike_individual R)); [|exact H].
    intros i j Hi. rewrite <- (proj1 Hi). apply (alike_obind eq); [apply alike_eq|]. intros _ _ _.
    cbn. destruct (genes_ok intervals (chromosomes i)); [exact Hi|now apply kill_alike].
  Qed.

  Section Limit.
    Context {T : Type}.
    Variables l l' : list (individual T).
    Hypothesis Hl : Forall2 (alike_individual R) l l'.
    Definition kw_alike (s s' : kw_state) : Prop := fst s = fst s' /\ R (snd s) (snd s').

    Lemma fitness_at_alike n : alike_outcome R (fitness_at l n) (fitness_at l' n).
    Proof.
      unfold fitness_at. apply (alike_obind (alike_individual R)); [now apply alike_index|].
      intros i j Hi. apply Hi.
    Qed.
    Lemma kw_rescan_alike ks : alike_outcome kw_alike (kw_rescan l ks) (kw_rescan l' ks).
    Proof.
      unfold kw_rescan. apply (alike_obind eq); [apply alike_eq|]. intros k _ <-.
      apply (alike_obind R); [apply fitness_at_alike|]. intros f f' Hf.
      apply (alike_obind (fun a b => fst a = fst b /\ R (snd a) (snd b))).
      - apply (alike_ofold eq (fun a b => fst a = fst b /\ R (snd a) (snd b))); [|apply Forall2_same|split; auto].
        intros [a x] [b y] m m' [E Hx] <-. cbn in E, Hx. subst b.
        apply (alike_obind eq); [apply alike_eq|]. intros km _ <-.
        apply (alike_obind R); [apply fitness_at_alike|]. intros g g' Hg. cbn.
        rewrite (ltb_alike R HR _ _ _ _ Hg Hx). destruct (ltb g x); split; auto.
      - intros [a x] [b y] [E Hx]. cbn in E, Hx. subst b. split; auto.
    Qed.
    Lemma kw_step_alike count s s' n : kw_alike s s' -> alike_outcome kw_alike (kw_step l count s n) (kw_step l' count s' n).
    Proof.
      destruct s as [[ks bi] bf], s' as [[ks' bi'] bf']. intros [E Hb]. cbn in E, Hb. injection E as <- <-.
      unfold kw_step. apply (alike_obind (alike_individual R)); [now apply alike_index|]. intros i j Hi.
      destruct Hi as [_ [Hf Ha]]. rewrite <- Ha. destruct (negb (alive i)); [split; auto|].
      rewrite (ltb_alike R HR _ _ _ _ Hf Hb), (ltb_alike R HR _ _ _ _ Hb Hf).
      destruct (length ks <? count); [split; auto|].
      destruct (ltb bf (fitness i)); [|split; auto].
      apply (alike_obind eq); [apply alike_eq|]. intros k _ <-. apply kw_rescan_alike.
    Qed.
    Lemma kill_worst_alike count : alike_outcome (Forall2 (alike_individual R)) (kill_worst l count) (kill_worst l' count).
    Proof.
      unfold kill_worst. rewrite <- (Forall2_len _ _ _ Hl).
      apply (alike_obind R); [apply fitness_at_alike|]. intros f f' Hf.
      apply (alike_obind kw_alike).
      - apply (alike_ofold eq kw_alike); [|apply Forall2_same|split; auto].
        intros s s' n _ Hs <-. now apply kw_step_alike.
      - intros [[ks bi] bf] [[ks' bi'] bf'] [E _]. cbn in E. injection E as <- <-.
        apply (alike_ofold eq (Forall2 (alike_individual R))); [|apply Forall2_same|exact Hl].
        intros s s' n _ Hs <-. apply (alike_obind (alike_individual R)); [now apply alike_index|].
        intros i j Hi. apply alike_update; [exact Hs|now apply kill_alike].
    Qed.
  End Limit.

  Lemma len_alive_alike {T} (l l' : list (individual T)) : Forall2 (alike_individual R) l l' -> len_alive l = len_alive l'.
  Proof. intros H. unfold len_alive. exact (Forall2_len _ _ _ (filter_alike R _ _ H)). Qed.

  Lemma limit_alike {T} n (p q : population T) : alike_population R p q ->
    alike_outcome (Forall2 (alike_individual R)) (limit_population n p) (limit_population n q).
  Proof.
    intros [H _]. unfold limit_population. rewrite <- (len_alive_alike _ _ H).
    destruct (n <? len_alive (individuals p)); [now apply kill_worst_alike|exact H].
  Qed.

  (** ** Velocities *)
  Section Velocity.
    Context {T : Type} {FT : FloatTrait T}.
    Variable np32 : nan_policy 24 128.

    Lemma best_alike {U A} (s t : swarm T) (k k' : particle T -> comp U A) u : alike_swarm R s t ->
      (forall b b', coordinates b = coordinates b' -> k b u = k' b' u) ->
      cbind (cpure (unwrap (best_particle s))) k u = cbind (cpure (unwrap (best_particle t))) k' u.
    Proof.
      intros [_ [H _]] Hk. unfold cbind, cpure.
      destruct (best_particle s), (best_particle t); cbn in *; try contradiction; auto. apply Hk, H.
    Qed.

    Lemma classic_blind phi_p phi_g (s t : swarm T) p q r : alike_swarm R s t -> alike_particle R p q ->
      classic_velocity np32 phi_p phi_g s p r = classic_velocity np32 phi_p phi_g t q r.
    Proof.
      intros Hs [P1 [P2 [P3 [P4 [P5 [P6 P7]]]]]]. unfold classic_velocity. rewrite <- P1, <- P2, <- P4.
      apply best_alike; [exact Hs|]. intros b b' <-. reflexivity.
    Qed.
    Lemma canonical_blind phi_p phi_g xi (s t : swarm T) p q r : alike_swarm R s t -> alike_particle R p q ->
      canonical_velocity np32 phi_p phi_g xi s p r = canonical_velocity np32 phi_p phi_g xi t q r.
    Proof.
      intros Hs [P1 [P2 [P3 [P4 [P5 [P6 P7]]]]]]. unfold canonical_velocity. rewrite <- P1, <- P2, <- P4.
      apply best_alike; [exact Hs|]. intros b b' <-. reflexivity.
    Qed.
    Lemma inertia_blind {U} (L : lens U rng) phi_p phi_g inertia (s t : swarm T) p q u : alike_swarm R s t -> alike_particle R p q ->
      inertia_velocity np32 L phi_p phi_g inertia s p u = inertia_velocity np32 L phi_p phi_g inertia t q u.
    Proof.
      intros Hs [P1 [P2 [P3 [P4 [P5 [P6 P7]]]]]]. unfold inertia_velocity.
      rewrite <- P1, <- P2, <- P4, <- (proj2 (proj2 (proj2 Hs))).
      apply best_alike; [exact Hs|]. intros b b' <-. reflexivity.
    Qed.
    Lemma particle_option_alike {U A} (o o' : outcome (particle T)) (k k' : particle T -> comp U A) u :
      alike_outcome (alike_particle R) o o' ->
      (forall b b', coordinates b = coordinates b' -> k b u = k' b' u) ->
      cbind (cpure o) k u = cbind (cpure o') k' u.
    Proof.
      intros H Hk. unfold cbind, cpure. destruct o, o'; cbn in *; try contradiction; auto. apply Hk, H.
    Qed.
    Lemma negative_blind np64 k (s t : swarm T) p q r : alike_swarm R s t -> alike_particle R p q ->
      negative_velocity np64 k s p r = negative_velocity np64 k t q r.
    Proof.
      intros [S1 [S2 [S3 S4]]] [P1 [P2 [P3 [P4 [P5 [P6 P7]]]]]]. unfold negative_velocity.
      rewrite <- P1, <- P2, <- P4, <- P6.
      assert (Hu : forall o o', alike_option (alike_particle R) o o' -> alike_outcome (@alike_particle R T) (unwrap o) (unwrap o')).
      { intros o o' Ho. destruct o, o'; cbn in *; auto. }
      apply particle_option_alike; [now apply Hu|]. intros b b' <-.
      apply particle_option_alike.
      { apply (alike_obind (alike_option (alike_particle R))); [now apply (find_best_alike R HR)|exact Hu]. }
      intros c c' <-. apply particle_option_alike; [now apply Hu|]. intros d d' <-.
      apply particle_option_alike.
      { apply (alike_obind (alike_option (alike_particle R))); [now apply (find_worst_alike R HR)|exact Hu]. }
      intros e e' <-. reflexivity.
    Qed.
  End Velocity.

  Lemma threshold_alike {U1 U2 T} (W : U1 -> U2 -> Prop) t t' :
    (forall v w, R v w -> leb w t' = leb v t) ->
    @alike_stop R U1 U2 W T (threshold t) (threshold t').
  Proof.
    intros Ht a b [Hb _] u1 u2 Hw. unfold threshold, cret. cbn. split; [|exact Hw].
    destruct (as_best a) as [[x v]|], (as_best b) as [[y w]|]; cbn in Hb; try contradiction; auto.
    symmetry. apply Ht. apply Hb.
  Qed.
  Lemma max_iterations_alike {U1 U2 T} (W : U1 -> U2 -> Prop) n :
    @alike_stop R U1 U2 W T (max_iterations n) (max_iterations n).
  Proof. intros a b [_ Hi] u1 u2 Hw. unfold max_iterations, cret. cbn. rewrite Hi. auto. Qed.
End Components.

(** ** Two functions that rank all points in the same way *)

Lemma comp_same {U A} (c : comp U A) : alike_comp eq eq c c.
Proof. intros u1 u2 <-. split; [apply alike_eq|reflexivity]. Qed.
Lemma comp_equal {U A} (c c' : comp U A) : (forall u, c u = c' u) -> alike_comp eq eq c c'.
Proof. intros H u1 u2 <-. rewrite H. split; [apply alike_eq|reflexivity]. Qed.
Lemma Forall2_refl_in {A} (Q : A -> A -> Prop) l : Forall (fun a => Q a a) l -> Forall2 Q l l.
Proof. induction 1; constructor; auto. Qed.

Section Same.
  Context {U T : Type} {FT : FloatTrait T}.
  Variables (f g : list T -> f64).
  Hypothesis HF : same_ranking f g.
  Variables (stop : alg_state (list T) -> comp U bool) (coords vels : comp U (list (list T)))
    (calc : swarm T -> particle T -> comp U (list T)) (pv pm : list (list T -> comp U (list T))).
  Hypothesis Hstop : forall a b, as_iter a = as_iter b ->
    option_map fst (as_best a) = option_map fst (as_best b) -> forall u, stop a u = stop b u.
  Hypothesis Hcalc : forall s t p q, alike_swarm (by_rank f g) s t -> alike_particle (by_rank f g) p q -> forall u, calc s p u = calc t q u.

  Lemma same_pso : alike_pso (by_rank f g) (@eq U)
    (PsoConfig (goal_from_function f) stop coords vels calc pv pm [])
    (PsoConfig (goal_from_function g) stop coords vels calc pv pm []).
  Proof.
    split; cbn.
    - intros x u1 u2 <-. cbn. split; [exists x; auto|reflexivity].
    - intros a b [Hb Hi]. apply comp_equal. intros u. apply Hstop; [exact Hi|].
      destruct (as_best a), (as_best b); cbn in *; try contradiction; auto. f_equal. apply Hb.
    - apply comp_same.
    - apply comp_same.
    - intros s t p q Hs Hp. apply comp_equal. intros u. now apply Hcalc.
    - apply Forall2_refl_in. apply Forall_forall. intros h _ v. apply comp_same.
    - apply Forall2_refl_in. apply Forall_forall. intros h _ v. apply comp_same.
    - constructor.
  Qed.

  Lemma same_points fuel s0 u o s u' t :
    pso_find_min (PsoConfig (goal_from_function f) stop coords vels calc pv pm []) fuel s0 u = (Ret (o, s), u', t) ->
    exists o' s' t',
      pso_find_min (PsoConfig (goal_from_function g) stop coords vels calc pv pm []) fuel s0 u = (Ret (o', s'), u', t') /\
      option_map fst o' = option_map fst o /\ map coordinates (particles s') = map coordinates (particles s) /\
      sw_iteration s' = sw_iteration s.
  Proof.
    intros E. pose proof (pso_find_rel _ HF _ _ _ same_pso fuel s0 s0 u u eq_refl) as H. rewrite E in H. clear E.
    destruct (pso_find_min _ fuel s0 u) as [[[[o' s']| |] v] t'] eqn:E'; destruct H as [H1 [H2 H3]]; cbn in H1, H2; try contradiction.
    subst v. exists o', s', t'. split; [reflexivity|]. destruct H1 as [Ho [Hp [_ [_ Hi]]]]. cbn in Ho, Hp, Hi.
    split; [destruct o, o'; cbn in *; try contradiction; auto; f_equal; symmetry; apply Ho|].
    split; [|congruence].
    clear - Hp. induction Hp as [|p q ps qs H _ IH]; cbn [map]; [reflexivity|]. f_equal; [symmetry; apply H|exact IH].
  Qed.
End Same.

Section SameGa.
  Context {U T : Type}.
  Variables (f g : T -> f64).
  Hypothesis HF : same_ranking f g.
  Variables (stop : alg_state T -> comp U bool) (creator : comp U (list T)) (pairing : population T -> comp U (list (list nat)))
    (cross : list T -> comp U (list T)) (mutation : T -> comp U T)
    (selections : list (population T -> comp U (list (individual T)))) (pre_births : list (population T -> list T -> comp U (list T))).
  Hypothesis Hstop : forall a b, as_iter a = as_iter b ->
    option_map fst (as_best a) = option_map fst (as_best b) -> forall u, stop a u = stop b u.
  Hypothesis Hpair : forall p q, alike_population (by_rank f g) p q -> forall u, pairing p u = pairing q u.
  Hypothesis Hsel : Forall (fun s => forall p q, alike_population (by_rank f g) p q ->
    alike_comp eq (Forall2 (alike_individual (by_rank f g))) (s p) (s q)) selections.
  Hypothesis Hpre : Forall (fun b => forall p q xs, alike_population (by_rank f g) p q -> forall u, b p xs u = b q xs u) pre_births.

  Lemma same_ga : alike_ga (by_rank f g) (@eq U)
    (GaConfig (goal_from_function f) stop creator pairing cross mutation selections pre_births [])
    (GaConfig (goal_from_function g) stop creator pairing cross mutation selections pre_births []).
  Proof.
    split; cbn.
    - intros x u1 u2 <-. cbn. split; [exists x; auto|reflexivity].
    - intros a b [Hb Hi]. apply comp_equal. intros u. apply Hstop; [exact Hi|].
      destruct (as_best a), (as_best b); cbn in *; try contradiction; auto. f_equal. apply Hb.
    - apply comp_same.
    - intros p q H. apply comp_equal. intros u. now apply Hpair.
    - intros xs. apply comp_same.
    - intros x. apply comp_same.
    - now apply Forall2_refl_in.
    - apply Forall2_refl_in. eapply Forall_impl; [|exact Hpre]. intros b H p q xs Hp. apply comp_equal. intros u. now apply H.
    - constructor.
  Qed.

  Lemma same_points_ga fuel p0 u o p u' t :
    ga_find_min (GaConfig (goal_from_function f) stop creator pairing cross mutation selections pre_births []) fuel p0 u = (Ret (o, p), u', t) ->
    exists o' p' t',
      ga_find_min (GaConfig (goal_from_function g) stop creator pairing cross mutation selections pre_births []) fuel p0 u = (Ret (o', p'), u', t') /\
      option_map fst o' = option_map fst o /\ map chromosomes (individuals p') = map chromosomes (individuals p) /\
      iteration p' = iteration p.
  Proof.
    intros E. pose proof (find_rel _ HF _ _ _ same_ga fuel p0 p0 u u eq_refl) as H. rewrite E in H. clear E.
    destruct (ga_find_min _ fuel p0 u) as [[[[o' s']| |] v] t'] eqn:E'; destruct H as [H1 [H2 H3]]; cbn in H1, H2; try contradiction.
    subst v. exists o', s', t'. split; [reflexivity|]. destruct H1 as [Ho [Hp [_ [_ Hi]]]]. cbn in Ho, Hp, Hi.
    split; [destruct o, o'; cbn in *; try contradiction; auto; f_equal; symmetry; apply Ho|].
    split; [|congruence].
    clear - Hp. induction Hp as [|i j ps qs H _ IH]; cbn [map]; [reflexivity|]. f_equal; [symmetry; apply H|exact IH].
  Qed.
End SameGa.
