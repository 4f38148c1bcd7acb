(** * Stop checkers: proofs *)

From Coq Require Import List Arith ZArith Bool Lia RelationClasses Reals Lra.
From Flocq Require Import Core IEEE754.BinarySingleNaN IEEE754.Binary.
From Verif Require Import Base Logic FloatModel GaModel PsoModel StopModel SpecGa SpecPso SpecRun SpecStop
  FloatFacts ArithFacts GaBest GaFacts GaSafety GaTheorems GaMore GaProofs PsoFacts PsoRuns PsoProofs LoopFacts.
Import ListNotations.

(** ** Both optimizers *)
Section Ga.
  Context {U T : Type}.
  Implicit Types (cfg : ga_config U T) (p : population T).

  (** C48 *)
  Lemma ga_max_next cfg n fuel p u r p' u' t : ga_stop cfg = max_iterations n ->
    ga_next_iterations cfg fuel p u = (Ret (r, p'), u', t) -> iteration p' = Nat.max (iteration p) n.
  Proof.
    intros Hs H. rewrite ga_next_gnext, Hs in H. unfold gnext in H. minv H.
    match goal with h : gloop _ _ _ _ _ _ = _ |- _ => apply (gloop_max _ _ (ga_step_num cfg)) in h; rename h into G end.
    inversion H; subst. exact G.
  Qed.
  Lemma ga_init_zero cfg p u p' u' t : ga_init cfg p u = (Ret p', u', t) -> iteration p' = 0.
  Proof.
    unfold ga_init. intros H. minv H. apply pop_append_ret in H. destruct H as [vals [_ [-> _]]]. reflexivity.
  Qed.
  Lemma ga_max_find cfg n fuel p u r p' u' t : ga_stop cfg = max_iterations n ->
    ga_find_min cfg fuel p u = (Ret (r, p'), u', t) -> iteration p' = n.
  Proof.
    intros Hs H. rewrite ga_find_gfind in H. unfold gfind in H. minv H.
    match goal with h : ga_init _ _ _ = _ |- _ => apply ga_init_zero in h; rename h into G end.
    rewrite <- ga_next_gnext in H. apply (ga_max_next _ n) in H; auto. simpl in *. lia.
  Qed.
  Lemma ga_fuel_next cfg n fuel1 fuel2 p u : ga_stop cfg = max_iterations n ->
    n - iteration p < fuel1 -> n - iteration p < fuel2 ->
    ga_next_iterations cfg fuel1 p u = ga_next_iterations cfg fuel2 p u.
  Proof.
    intros Hs H1 H2. rewrite !ga_next_gnext. unfold gnext. apply mbind_ext; [reflexivity|]. intros _ v.
    apply mbind_ext; [|reflexivity]. intros w. rewrite Hs. apply (gloop_fuel _ _ (ga_step_num cfg)); auto.
  Qed.
  Lemma mbind_ret_ext {S X A B} (m : M U (event T S X) A) (k k' : A -> M U (event T S X) B) u :
    (forall a v t, m u = (Ret a, v, t) -> k a v = k' a v) -> mbind m k u = mbind m k' u.
  Proof.
    intros H. unfold mbind. destruct (m u) as [[[a| |] v] t]; auto. now rewrite (H a v t eq_refl).
  Qed.
  Lemma ga_fuel_find cfg n fuel1 fuel2 p u : ga_stop cfg = max_iterations n ->
    n < fuel1 -> n < fuel2 -> ga_find_min cfg fuel1 p u = ga_find_min cfg fuel2 p u.
  Proof.
    intros Hs H1 H2. rewrite !ga_find_gfind. unfold gfind. apply mbind_ret_ext. intros p1 v t E.
    apply ga_init_zero in E. apply mbind_ret_ext. intros _ w t' _.
    rewrite <- !ga_next_gnext. apply (ga_fuel_next _ n); auto; lia.
  Qed.
  Lemma ga_ends_next cfg n fuel p u : ga_ends cfg -> ga_stop cfg = max_iterations n ->
    n - iteration p < fuel -> fst (fst (ga_next_iterations cfg fuel p u)) <> NoFuel.
  Proof.
    intros He Hs Hf. rewrite ga_next_gnext. revert u.
    change (mends (gnext pop_view (ga_iteration cfg) (ga_loggers cfg) (ga_stop cfg) fuel p)).
    pose proof He as [_ [_ [_ [_ [_ [_ [_ Hl]]]]]]].
    unfold gnext. apply mends_bind; [apply loggers_end; auto|]. intros _. apply mends_bind.
    - rewrite Hs. apply (gloop_ends _ _ (ga_step_num cfg)); auto. intros. now apply ga_end_step.
    - intros p'. apply mends_bind; [apply loggers_end; auto|]. intros _. apply mends_ret.
  Qed.
  Lemma ga_ends_find cfg n fuel p u : ga_ends cfg -> ga_stop cfg = max_iterations n ->
    n < fuel -> fst (fst (ga_find_min cfg fuel p u)) <> NoFuel.
  Proof.
    intros He Hs Hf. rewrite ga_find_gfind. unfold gfind.
    pose proof He as [_ [Hc [_ [_ [_ [_ [_ Hl]]]]]]].
    assert (G : mends (ga_init cfg p)).
    { unfold ga_init. apply mends_bind; [now apply comp_end|]. intros xs. now apply ga_end_append. }
    specialize (G u). unfold mbind at 1. destruct (ga_init cfg p u) as [[[p1| |] u1] t1] eqn:E; simpl in *; try congruence.
    apply ga_init_zero in E.
    assert (G2 : mends (call_loggers pop_view LStart (ga_loggers cfg) p1 ;;;
                        gnext pop_view (ga_iteration cfg) (ga_loggers cfg) (ga_stop cfg) fuel p1)).
    { apply mends_bind; [apply loggers_end; auto|]. intros _ v. rewrite <- ga_next_gnext.
      apply (ga_ends_next _ n); auto. lia. }
    specialize (G2 u1). revert G2.
    match goal with |- context [fst (fst ?m) <> NoFuel -> _] => destruct m as [[o w] t] end. auto.
  Qed.

  (** C49 *)
  Definition reached (thr : f64) (b : option (T * f64)) : bool :=
    match b with Some (_, v) => leb v thr | None => false end.
  Lemma generations_stops npre nsel nlog p t p' gens :
    generations npre nsel nlog p t p' gens ->
    exists l, stops t = map (fun q => (q, false)) l ++ [(p', true)].
  Proof.
    induction 1 as [p|p g p1 t p2 born vals after gens Hg Hgs [l IH]].
    - exists []. reflexivity.
    - exists (p :: l). simpl. rewrite stops_app, IH. rewrite (stops_none g); auto.
      intros q b. eapply generation_no_stop; eauto.
  Qed.
  Lemma stops_evals xs vs : stops (@eval_events T (population T) (ga_call T) xs vs) = [].
  Proof. revert vs. induction xs as [|x xs IH]; intros [|v vs]; simpl; auto. apply IH. Qed.
  Lemma ga_stops cfg fuel p u r p' u' t :
    ga_find_min cfg fuel p u = (Ret (r, p'), u', t) \/ ga_next_iterations cfg fuel p u = (Ret (r, p'), u', t) ->
    exists l, stops t = map (fun q => (q, false)) l ++ [(p', true)].
  Proof.
    intros [H|H].
    - apply ga_find_min_ret in H. destruct H as [_ [xs [vs [gens [t1 [_ [Hg ->]]]]]]].
      apply generations_stops in Hg. destruct Hg as [l Hl]. exists l.
      simpl. rewrite !stops_app, !stops_log, stops_evals, Hl. simpl. now rewrite app_nil_r.
    - apply ga_next_ret in H. destruct H as [_ [gens [t1 [Hg ->]]]].
      apply generations_stops in Hg. destruct Hg as [l Hl]. exists l.
      rewrite !stops_app, !stops_log, Hl. simpl. now rewrite app_nil_r.
  Qed.
  Lemma ga_threshold cfg thr fuel p u r p' u' t : ga_stop cfg = threshold thr ->
    ga_find_min cfg fuel p u = (Ret (r, p'), u', t) \/ ga_next_iterations cfg fuel p u = (Ret (r, p'), u', t) ->
    (exists x v, r = Some (x, v) /\ leb v thr = true) /\
    exists l, stops t = map (fun q => (q, false)) l ++ [(p', true)] /\
      forall q i, In q l -> best_individual q = Some i -> leb (fitness i) thr = false.
  Proof.
    intros Hs H.
    assert (Hg : Forall (genuine cfg) t) by (destruct H as [H|H]; [eapply find_min_genuine|eapply next_genuine]; eauto).
    destruct (ga_stops _ _ _ _ _ _ _ _ H) as [l Hl].
    assert (K : forall q b, In (q, b) (stops t) -> b = reached thr (option_map (fun i => (chromosomes i, fitness i)) (best_individual q))).
    { intros q b Hin. apply stops_in in Hin. rewrite Forall_forall in Hg. specialize (Hg _ Hin).
      simpl in Hg. destruct Hg as [w [w' E]]. rewrite Hs in E. unfold threshold, cret in E. simpl in E.
      inversion E as [[E1 E2]]. destruct (best_individual q); reflexivity. }
    split.
    - destruct (finish_state _ _ _ _ _ _ _ _ H) as [_ ->].
      specialize (K p' true). rewrite Hl in K. specialize (K ltac:(apply in_or_app; right; now left)).
      destruct (best_individual p') as [i|]; simpl in *; [eauto|discriminate].
    - exists l. split; auto. intros q i Hq Hi. specialize (K q false). rewrite Hl in K.
      rewrite Hi in K. symmetry. apply K. apply in_or_app. left. apply in_map_iff. eauto.
  Qed.

  (** Pausing. *)
  Lemma ga_set_step cfg stop p u : ga_iteration (ga_set_stop_checker cfg stop) p u = ga_iteration cfg p u.
  Proof. reflexivity. Qed.
  Lemma ga_pause (R : U -> U -> Prop) cfg (f g : alg_state T -> bool) fuel p :
    ga_unaffected R cfg -> (forall a, g a = true -> f a = true) ->
    sim R (ga_find_min (ga_set_stop_checker cfg (fun a => cret (g a))) fuel p)
          (r <- ga_find_min (ga_set_stop_checker cfg (fun a => cret (f a))) fuel p ;;
           ga_next_iterations (ga_set_stop_checker cfg (fun a => cret (g a))) fuel (snd r)).
  Proof.
    intros Hc Hfg. pose proof Hc as [HR [_ [_ [_ [_ [_ [_ [_ Hl]]]]]]]].
    eapply sim_eq; [apply ga_find_gfind|]. eapply sim_eq_r.
    { intros u. apply mbind_ext; [apply ga_find_gfind|]. intros r w. apply ga_next_gnext. }
    apply (sim_paused pop_view (ga_iteration cfg) (ga_loggers cfg) R HR Hl
             (fun q => ga_sim_step R cfg q Hc) (ga_init cfg p) f g fuel Hfg).
    now apply ga_sim_init.
  Qed.
  Lemma ga_pause_resume (R : U -> U -> Prop) cfg n m fuel p u r p' u' t :
    ga_unaffected R cfg ->
    ga_find_min (ga_set_stop_checker cfg (max_iterations (n + m))) fuel p u = (Ret (r, p'), u', t) ->
    exists r1 p1 u1 t1 u2 t2,
      ga_find_min (ga_set_stop_checker cfg (max_iterations n)) fuel p u = (Ret (r1, p1), u1, t1) /\
      ga_next_iterations (ga_set_stop_checker cfg (max_iterations (n + m))) fuel p1 u1
        = (Ret (r, p'), u2, t2) /\
      work t1 ++ work t2 = work t /\ R u' u2.
  Proof.
    intros Hc H.
    pose proof (ga_pause R cfg (fun a => n <=? as_iter a) (fun a => n + m <=? as_iter a) fuel p Hc) as G.
    assert (Hle : forall a : alg_state T, (n + m <=? as_iter a) = true -> (n <=? as_iter a) = true).
    { intros a Ha. apply Nat.leb_le in Ha. apply Nat.leb_le. lia. }
    specialize (G Hle u u (@Equivalence_Reflexive _ _ (proj1 Hc) u)).
    cbv beta in G.
    change (fun a => cret (n + m <=? as_iter a)) with (@max_iterations U T (n + m)) in G.
    change (fun a => cret (n <=? as_iter a)) with (@max_iterations U T n) in G.
    rewrite H in G. simpl in G. destruct G as [G1 [G2 G3]]; [discriminate|].
    specialize (G3 _ eq_refl). unfold mbind in *.
    destruct (ga_find_min (ga_set_stop_checker cfg (max_iterations n)) fuel p u) as [[[[r1 p1]| |] u1] t1]; simpl in *; try discriminate.
    destruct (ga_next_iterations (ga_set_stop_checker cfg (max_iterations (n + m))) fuel p1 u1) as [[o u2] t2] eqn:En; simpl in *.
    subst o. exists r1, p1, u1, t1, u2, t2. rewrite work_app in G2. auto.
  Qed.
End Ga.

Section Pso.
  Context {U T : Type} {FT : FloatTrait T}.
  Implicit Types (cfg : pso_config U T) (s : swarm T).

  Lemma pso_max_next cfg n fuel s u r s' u' t : pso_stop cfg = max_iterations n ->
    pso_next_iterations cfg fuel s u = (Ret (r, s'), u', t) ->
    sw_iteration s' = Nat.max (sw_iteration s) n.
  Proof.
    intros Hs H. rewrite pso_next_gnext, Hs in H. unfold gnext in H. minv H.
    match goal with h : gloop _ _ _ _ _ _ = _ |- _ => apply (gloop_max _ _ (pso_step_num cfg)) in h; rename h into G end.
    inversion H; subst. exact G.
  Qed.
  Lemma pso_init_zero cfg s u s' u' t : renew_swarm cfg s u = (Ret s', u', t) -> sw_iteration s' = 0.
  Proof. intros H. apply renew_swarm_ret in H. destruct H. exact start_iteration. Qed.
  Lemma pso_max_find cfg n fuel s u r s' u' t : pso_stop cfg = max_iterations n ->
    pso_find_min cfg fuel s u = (Ret (r, s'), u', t) -> sw_iteration s' = n.
  Proof.
    intros Hs H. rewrite pso_find_gfind in H. unfold gfind in H. minv H.
    match goal with h : renew_swarm _ _ _ = _ |- _ => apply pso_init_zero in h; rename h into G end.
    rewrite <- pso_next_gnext in H. apply (pso_max_next _ n) in H; auto. simpl in *. lia.
  Qed.
  Lemma pso_fuel_next cfg n fuel1 fuel2 s u : pso_stop cfg = max_iterations n ->
    n - sw_iteration s < fuel1 -> n - sw_iteration s < fuel2 ->
    pso_next_iterations cfg fuel1 s u = pso_next_iterations cfg fuel2 s u.
  Proof.
    intros Hs H1 H2. rewrite !pso_next_gnext. unfold gnext. apply mbind_ext; [reflexivity|]. intros _ v.
    apply mbind_ext; [|reflexivity]. intros w. rewrite Hs. apply (gloop_fuel _ _ (pso_step_num cfg)); auto.
  Qed.
  Lemma pso_fuel_find cfg n fuel1 fuel2 s u : pso_stop cfg = max_iterations n ->
    n < fuel1 -> n < fuel2 -> pso_find_min cfg fuel1 s u = pso_find_min cfg fuel2 s u.
  Proof.
    intros Hs H1 H2. rewrite !pso_find_gfind. unfold gfind. apply mbind_ret_ext. intros p1 v t E.
    apply pso_init_zero in E. apply mbind_ret_ext. intros _ w t' _.
    rewrite <- !pso_next_gnext. apply (pso_fuel_next _ n); auto; lia.
  Qed.
  Lemma pso_ends_next cfg n fuel s u : pso_ends cfg -> pso_stop cfg = max_iterations n ->
    n - sw_iteration s < fuel -> fst (fst (pso_next_iterations cfg fuel s u)) <> NoFuel.
  Proof.
    intros He Hs Hf. rewrite pso_next_gnext. revert u.
    change (mends (gnext swarm_view (pso_iteration cfg) (pso_loggers cfg) (pso_stop cfg) fuel s)).
    pose proof He as [_ [_ [_ [_ [_ [_ Hl]]]]]].
    unfold gnext. apply mends_bind; [apply loggers_end; auto|]. intros _. apply mends_bind.
    - rewrite Hs. apply (gloop_ends _ _ (pso_step_num cfg)); auto. intros. now apply pso_end_step.
    - intros p'. apply mends_bind; [apply loggers_end; auto|]. intros _. apply mends_ret.
  Qed.
  Lemma pso_ends_find cfg n fuel s u : pso_ends cfg -> pso_stop cfg = max_iterations n ->
    n < fuel -> fst (fst (pso_find_min cfg fuel s u)) <> NoFuel.
  Proof.
    intros He Hs Hf. rewrite pso_find_gfind. unfold gfind.
    pose proof He as [_ [_ [_ [_ [_ [_ Hl]]]]]].
    pose proof (pso_end_init cfg s He u) as G.
    unfold mbind at 1. destruct (renew_swarm cfg s u) as [[[p1| |] u1] t1] eqn:E; simpl in *; try congruence.
    apply pso_init_zero in E.
    assert (G2 : mends (call_loggers swarm_view LStart (pso_loggers cfg) p1 ;;;
                        gnext swarm_view (pso_iteration cfg) (pso_loggers cfg) (pso_stop cfg) fuel p1)).
    { apply mends_bind; [apply loggers_end; auto|]. intros _ v. rewrite <- pso_next_gnext.
      apply (pso_ends_next _ n); auto. lia. }
    specialize (G2 u1). revert G2.
    match goal with |- context [fst (fst ?m) <> NoFuel -> _] => destruct m as [[o w] t] end. auto.
  Qed.

  Lemma rounds_stops nvel nmove nlog s t s' k :
    pso_rounds nvel nmove nlog s t s' k ->
    exists l, stops t = map (fun q => (q, false)) l ++ [(s', true)].
  Proof.
    induction 1 as [s|s g s1 t s2 k Hg Hgs [l IH]].
    - exists []. reflexivity.
    - exists (s :: l). simpl. rewrite stops_app, IH.
      apply round_read in Hg. destruct Hg as [_ [_ [_ [H _]]]].
      rewrite (stops_none g); auto. intros q b Hin. apply in_split in Hin. destruct Hin as [t1 [t2 ->]].
      rewrite consulted_app in H. simpl in H. destruct (consulted t1); discriminate.
  Qed.
  Lemma pso_stops cfg fuel s u r s' u' t :
    pso_find_min cfg fuel s u = (Ret (r, s'), u', t) \/
    pso_next_iterations cfg fuel s u = (Ret (r, s'), u', t) ->
    exists l, stops t = map (fun q => (q, false)) l ++ [(s', true)].
  Proof.
    intros [H|H].
    - apply pso_find_ret in H. destruct H as [_ [s0 [g [t1 [k [Hg [Hk ->]]]]]]].
      apply start_read in Hg. destruct Hg as [_ [_ [Hg _]]].
      apply rounds_stops in Hk. destruct Hk as [l Hl]. exists l.
      rewrite !stops_app, !stops_log, Hl, (stops_none g).
      + simpl. now rewrite app_nil_r.
      + intros q b Hin. apply in_split in Hin. destruct Hin as [t2 [t3 ->]].
        rewrite consulted_app in Hg. simpl in Hg. destruct (consulted t2); discriminate.
    - apply pso_next_ret in H. destruct H as [_ [t1 [k [Hk ->]]]].
      apply rounds_stops in Hk. destruct Hk as [l Hl]. exists l.
      rewrite !stops_app, !stops_log, Hl. simpl. now rewrite app_nil_r.
  Qed.
  Lemma pso_threshold cfg thr fuel s u r s' u' t : pso_stop cfg = threshold thr ->
    pso_find_min cfg fuel s u = (Ret (r, s'), u', t) \/
    pso_next_iterations cfg fuel s u = (Ret (r, s'), u', t) ->
    (exists x v, r = Some (x, v) /\ leb v thr = true) /\
    exists l, stops t = map (fun q => (q, false)) l ++ [(s', true)] /\
      forall q b, In q l -> best_particle q = Some b -> leb (value b) thr = false.
  Proof.
    intros Hs H.
    assert (Hg : Forall (pso_genuine cfg) t)
      by (destruct H as [H|H]; [eapply pso_find_genuine|eapply pso_next_genuine]; eauto).
    destruct (pso_stops _ _ _ _ _ _ _ _ H) as [l Hl].
    assert (K : forall q b, In (q, b) (stops t) -> b = reached thr (option_map place (best_particle q))).
    { intros q b Hin. apply stops_in in Hin. rewrite Forall_forall in Hg. specialize (Hg _ Hin).
      simpl in Hg. destruct Hg as [w [w' E]]. rewrite Hs in E. unfold threshold, cret in E. simpl in E.
      inversion E as [[E1 E2]]. destruct (best_particle q); reflexivity. }
    split.
    - destruct (pso_finish _ _ _ _ _ _ _ _ H) as [_ ->].
      specialize (K s' true). rewrite Hl in K. specialize (K ltac:(apply in_or_app; right; now left)).
      destruct (best_particle s') as [i|]; [|discriminate K]. exists (coordinates i), (value i). auto.
    - exists l. split; auto. intros q i Hq Hi. specialize (K q false). rewrite Hl in K.
      rewrite Hi in K. symmetry. apply K. apply in_or_app. left. apply in_map_iff. eauto.
  Qed.

  Lemma pso_pause (R : U -> U -> Prop) cfg (f g : alg_state (list T) -> bool) fuel s :
    pso_unaffected R cfg -> (forall a, g a = true -> f a = true) ->
    sim R (pso_find_min (pso_set_stop_checker cfg (fun a => cret (g a))) fuel s)
          (r <- pso_find_min (pso_set_stop_checker cfg (fun a => cret (f a))) fuel s ;;
           pso_next_iterations (pso_set_stop_checker cfg (fun a => cret (g a))) fuel (snd r)).
  Proof.
    intros Hc Hfg. pose proof Hc as [HR [_ [_ [_ [_ [_ [_ Hl]]]]]]].
    eapply sim_eq; [apply pso_find_gfind|]. eapply sim_eq_r.
    { intros u. apply mbind_ext; [apply pso_find_gfind|]. intros r w. apply pso_next_gnext. }
    apply (sim_paused swarm_view (pso_iteration cfg) (pso_loggers cfg) R HR Hl
             (fun q => pso_sim_step R cfg q Hc) (renew_swarm cfg s) f g fuel Hfg).
    now apply pso_sim_init.
  Qed.
  Lemma pso_pause_resume (R : U -> U -> Prop) cfg n m fuel s u r s' u' t :
    pso_unaffected R cfg ->
    pso_find_min (pso_set_stop_checker cfg (max_iterations (n + m))) fuel s u = (Ret (r, s'), u', t) ->
    exists r1 s1 u1 t1 u2 t2,
      pso_find_min (pso_set_stop_checker cfg (max_iterations n)) fuel s u = (Ret (r1, s1), u1, t1) /\
      pso_next_iterations (pso_set_stop_checker cfg (max_iterations (n + m))) fuel s1 u1
        = (Ret (r, s'), u2, t2) /\
      work t1 ++ work t2 = work t /\ R u' u2.
  Proof.
    intros Hc H.
    pose proof (pso_pause R cfg (fun a => n <=? as_iter a) (fun a => n + m <=? as_iter a) fuel s Hc) as G.
    assert (Hle : forall a : alg_state (list T), (n + m <=? as_iter a) = true -> (n <=? as_iter a) = true).
    { intros a Ha. apply Nat.leb_le in Ha. apply Nat.leb_le. lia. }
    specialize (G Hle u u (@Equivalence_Reflexive _ _ (proj1 Hc) u)).
    cbv beta in G.
    change (fun a => cret (n + m <=? as_iter a)) with (@max_iterations U (list T) (n + m)) in G.
    change (fun a => cret (n <=? as_iter a)) with (@max_iterations U (list T) n) in G.
    rewrite H in G. simpl in G. destruct G as [G1 [G2 G3]]; [discriminate|].
    specialize (G3 _ eq_refl). unfold mbind in *.
    destruct (pso_find_min (pso_set_stop_checker cfg (max_iterations n)) fuel s u) as [[[[r1 p1]| |] u1] t1]; simpl in *; try discriminate.
    destruct (pso_next_iterations (pso_set_stop_checker cfg (max_iterations (n + m))) fuel p1 u1) as [[o u2] t2] eqn:En; simpl in *.
    subst o. exists r1, p1, u1, t1, u2, t2. rewrite work_app in G2. auto.
  Qed.
End Pso.

(** ** Composite checkers (C50) *)
Section Composite.
  Context {U T : Type}.
  Implicit Types (cs : list (stop_checker U T)) (s : alg_state T) (u : U).
  Definition to_all cs s : list (comp U bool) := map (fun c => c s) cs.

  Lemma any_spec cs s u o u' : composite_any cs s u = (o, u') ->
    match o with
    | Ret true => exists pre c post, cs = pre ++ c :: post /\
        asked (to_all (pre ++ [c]) s) u (repeat false (length pre) ++ [true]) u'
    | Ret false => asked (to_all cs s) u (repeat false (length cs)) u'
    | _ => exists pre c post u1, cs = pre ++ c :: post /\
        asked (to_all pre s) u (repeat false (length pre)) u1 /\ c s u1 = (o, u')
    end.
  Proof.
    revert u. induction cs as [|c cs IH]; intros u H; simpl in H.
    - inversion H; subst. simpl. constructor.
    - unfold cbind in H. destruct (c s u) as [[[|]| |] u1] eqn:Ec.
      + inversion H; subst. exists [], c, cs. split; auto. simpl. econstructor; eauto. constructor.
      + apply IH in H. destruct o as [[|]| |].
        * destruct H as [pre [d [post [-> A]]]]. exists (c :: pre), d, post. split; auto.
          simpl. econstructor; eauto.
        * simpl. econstructor; eauto.
        * destruct H as [pre [d [post [u2 [-> [A B]]]]]]. exists (c :: pre), d, post, u2.
          split; auto. split; auto. simpl. econstructor; eauto.
        * destruct H as [pre [d [post [u2 [-> [A B]]]]]]. exists (c :: pre), d, post, u2.
          split; auto. split; auto. simpl. econstructor; eauto.
      + inversion H; subst. exists [], c, cs, u. split; auto. split; auto. constructor.
      + inversion H; subst. exists [], c, cs, u. split; auto. split; auto. constructor.
  Qed.

  Lemma all_spec cs s u o u' : composite_all cs s u = (o, u') ->
    match o with
    | Ret false => exists pre c post, cs = pre ++ c :: post /\
        asked (to_all (pre ++ [c]) s) u (repeat true (length pre) ++ [false]) u'
    | Ret true => asked (to_all cs s) u (repeat true (length cs)) u'
    | _ => exists pre c post u1, cs = pre ++ c :: post /\
        asked (to_all pre s) u (repeat true (length pre)) u1 /\ c s u1 = (o, u')
    end.
  Proof.
    revert u. induction cs as [|c cs IH]; intros u H; simpl in H.
    - inversion H; subst. simpl. constructor.
    - unfold cbind in H. destruct (c s u) as [[[|]| |] u1] eqn:Ec; simpl in H.
      + apply IH in H. destruct o as [[|]| |].
        * simpl. econstructor; eauto.
        * destruct H as [pre [d [post [-> A]]]]. exists (c :: pre), d, post. split; auto.
          simpl. econstructor; eauto.
        * destruct H as [pre [d [post [u2 [-> [A B]]]]]]. exists (c :: pre), d, post, u2.
          split; auto. split; auto. simpl. econstructor; eauto.
        * destruct H as [pre [d [post [u2 [-> [A B]]]]]]. exists (c :: pre), d, post, u2.
          split; auto. split; auto. simpl. econstructor; eauto.
      + inversion H; subst. exists [], c, cs. split; auto. simpl. econstructor; eauto. constructor.
      + inversion H; subst. exists [], c, cs, u. split; auto. split; auto. constructor.
      + inversion H; subst. exists [], c, cs, u. split; auto. split; auto. constructor.
  Qed.

  (** Checkers without state. *)
  Lemma any_pure (fs : list (alg_state T -> bool)) s u :
    composite_any (map (fun f s => cret (f s)) fs) s u = (Ret (existsb (fun f => f s) fs), u).
  Proof.
    induction fs as [|f fs IH]; simpl; auto. unfold cbind, cret at 1. destruct (f s); simpl; auto.
  Qed.
  Lemma all_pure (fs : list (alg_state T -> bool)) s u :
    composite_all (map (fun f s => cret (f s)) fs) s u = (Ret (forallb (fun f => f s) fs), u).
  Proof.
    induction fs as [|f fs IH]; simpl; auto. unfold cbind, cret at 1. destruct (f s); simpl; auto.
  Qed.
  Lemma any_decides (fs : list (alg_state T -> bool)) cs : Forall2 decides fs cs ->
    decides (fun s => existsb (fun f => f s) fs) (composite_any cs).
  Proof.
    induction 1 as [|f c fs cs H _ IH]; intros s u; simpl; auto. unfold cbind. rewrite H.
    destruct (f s); simpl; auto.
  Qed.
  Lemma all_decides (fs : list (alg_state T -> bool)) cs : Forall2 decides fs cs ->
    decides (fun s => forallb (fun f => f s) fs) (composite_all cs).
  Proof.
    induction 1 as [|f c fs cs H _ IH]; intros s u; simpl; auto. unfold cbind. rewrite H.
    destruct (f s); simpl; auto.
  Qed.
  Lemma new_spec cs : (cs = [] <-> composite_new cs = Panic) /\ (cs <> [] <-> composite_new cs = Ret cs).
  Proof. destruct cs; cbn; split; split; intros H; first [reflexivity|discriminate|now elim H|congruence]. Qed.
End Composite.

(** ** GoalNotChange (C51) *)
Lemma destruct_last {A} (l : list A) : (exists l' a, l = l' ++ [a]) \/ l = [].
Proof. destruct l as [|a l] using rev_ind; eauto. Qed.

Section GoalNotChange.
  Context {T : Type}.
  Variable np64 : nan_policy 53 1024.
  Variables (dbg : bool) (m : nat) (delta : f64).
  Notation checker := (@goal_not_change T np64 dbg m delta).
  Notation far := (differ np64 delta).
  Implicit Types (s : alg_state T) (ss : list (alg_state T)).

  Lemma best_goals_app ss1 ss2 : best_goals (ss1 ++ ss2) = best_goals ss1 ++ best_goals ss2.
  Proof. induction ss1 as [|s ss1 IH]; simpl; auto. destruct (as_best s) as [[x v]|]; simpl; congruence. Qed.

  Lemma reference_unique h r c : reference far h r c -> forall r' c', reference far h r' c' -> r' = r /\ c' = c.
  Proof.
    induction 1 as [|h r c i v H IH F|h r c i v H IH F]; intros r' c' H'.
    - inversion H'; auto; exfalso; eapply app_cons_not_nil; eauto.
    - inversion H' as [E|h0 r0 c0 i0 v0 H0 F0 E|h0 r0 c0 i0 v0 H0 F0 E].
      + exfalso. eapply app_cons_not_nil; eauto.
      + apply app_inj_tail in E. destruct E as [-> E]. inversion E; subst. auto.
      + apply app_inj_tail in E. destruct E as [-> E]. inversion E; subst.
        destruct (IH _ _ H0) as [-> ->]. congruence.
    - inversion H' as [E|h0 r0 c0 i0 v0 H0 F0 E|h0 r0 c0 i0 v0 H0 F0 E].
      + exfalso. eapply app_cons_not_nil; eauto.
      + apply app_inj_tail in E. destruct E as [-> E]. inversion E; subst.
        destruct (IH _ _ H0) as [-> ->]. congruence.
      + apply app_inj_tail in E. destruct E as [-> E]. inversion E; subst. auto.
  Qed.

  Lemma reference_le h r c : reference far h r c -> forall b, 0 <= b -> Forall (fun iv => fst iv <= b) h -> c <= b.
  Proof.
    induction 1 as [|h r c i v H IH F|h r c i v H IH F]; intros b Hb Hf; auto.
    - apply Forall_app in Hf. apply IH; auto. apply Hf.
    - apply Forall_app in Hf. destruct Hf as [_ Hf]. inversion Hf; auto.
  Qed.

  (** The checker after some questions. *)
  Lemma not_decreasing_app l i l' : not_decreasing (l ++ i :: l') -> Forall (fun j => j <= i) l.
  Proof.
    induction l as [|j l IH]; intros H; constructor.
    - destruct H as [H _]. apply Forall_app in H. destruct H as [_ H]. now inversion H.
    - apply IH, H.
  Qed.

  Lemma goals_iters ss b : Forall (fun j => j <= b) (map as_iter ss) ->
    Forall (fun iv => fst iv <= b) (best_goals ss).
  Proof.
    induction ss as [|s ss IH]; intros H; simpl; auto. inversion H; subst.
    destruct (as_best s) as [[x v]|]; auto.
  Qed.

  Definition gnc_says ss s (b : bool) : Prop :=
    b = true <-> as_best s <> None /\
      exists r c, reference far (best_goals (ss ++ [s])) r c /\ m < as_iter s - c.

  Lemma gnc_step ss s g : reference far (best_goals ss) (old_goal g) (change_iter g) ->
    Forall (fun j => j <= as_iter s) (map as_iter ss) ->
    exists b g', checker s g = (Ret b, g') /\
      reference far (best_goals (ss ++ [s])) (old_goal g') (change_iter g') /\ gnc_says ss s b.
  Proof.
    intros Hr Hi. unfold goal_not_change, gnc_says. rewrite best_goals_app. simpl.
    destruct (as_best s) as [[x v]|] eqn:Eb.
    - set (g' := if ltb delta (b_abs (b_sub np64 v (old_goal g))) then Gnc v (as_iter s) else g).
      assert (Hr' : reference far (best_goals ss ++ [(as_iter s, v)]) (old_goal g') (change_iter g')).
      { unfold g'. destruct (ltb delta (b_abs (b_sub np64 v (old_goal g)))) eqn:Ef; simpl.
        - eapply reference_taken; eauto.
        - eapply reference_kept; eauto. }
      assert (Hc : change_iter g' <= as_iter s).
      { eapply (reference_le _ _ _ Hr'); [lia|]. apply Forall_app. split.
        - now apply goals_iters.
        - constructor; auto. }
      exists (Z.of_nat m <? Z.of_nat (as_iter s) - Z.of_nat (change_iter g'))%Z, g'. split.
      { f_equal. unfold usize_sub. destruct (Z.leb_spec (Z.of_nat (change_iter g')) (Z.of_nat (as_iter s))); [reflexivity|lia]. }
      split; auto. rewrite Z.ltb_lt. split.
      + intros H. split; [discriminate|]. exists (old_goal g'), (change_iter g'). split; auto. lia.
      + intros [_ [r [c [H1 H2]]]]. destruct (reference_unique _ _ _ Hr' _ _ H1) as [_ ->]. lia.
    - exists false, g. split; auto. rewrite app_nil_r. split; auto. split; [discriminate|].
      intros [H _]. congruence.
  Qed.

  Lemma gnc_run ss : not_decreasing (map as_iter ss) ->
    exists bs g, asked (map checker ss) gnc_new bs g /\ length bs = length ss /\
      forall k s b, nth_error ss k = Some s -> nth_error bs k = Some b -> gnc_says (firstn k ss) s b.
  Proof.
    intros H.
    assert (G : forall todo done g, not_decreasing (map as_iter (done ++ todo)) ->
      reference far (best_goals done) (old_goal g) (change_iter g) ->
      exists bs g', asked (map checker todo) g bs g' /\ length bs = length todo /\
        forall k s b, nth_error todo k = Some s -> nth_error bs k = Some b ->
          gnc_says (done ++ firstn k todo) s b).
    { induction todo as [|s todo IH]; intros done g Hn Hr; simpl.
      - exists [], g. split; [constructor|]. split; auto. intros [|] s b E; discriminate.
      - destruct (gnc_step done s g Hr) as [b [g1 [E1 [R1 S1]]]].
        { rewrite map_app in Hn. simpl in Hn. eapply not_decreasing_app; eauto. }
        destruct (IH (done ++ [s]) g1) as [bs [g2 [A [L F]]]]; auto.
        { rewrite <- app_assoc. exact Hn. }
        exists (b :: bs), g2. split; [econstructor; eauto|]. split; [simpl; congruence|].
        intros [|k] s' b' E2 E3; simpl in *.
        + inversion E2; inversion E3; subst. now rewrite app_nil_r.
        + specialize (F k s' b' E2 E3). rewrite <- app_assoc in F. exact F. }
    apply (G ss [] gnc_new H). constructor.
  Qed.

  (** A quiet stretch: all goals since the reference was taken are near it. *)
  Lemma reference_quiet h r c : reference far h r c ->
    exists h1 h2, h = h1 ++ h2 /\ Forall (fun iv => far (snd iv) r = false) h2 /\
      (h1 = [] /\ r = f64_MAX /\ c = 0 \/ exists h0, h1 = h0 ++ [(c, r)]).
  Proof.
    induction 1 as [|h r c i v H IH F|h r c i v H IH F].
    - exists [], []. split; auto.
    - destruct IH as [h1 [h2 [-> [G1 G2]]]]. exists h1, (h2 ++ [(i, v)]). split; [now rewrite app_assoc|].
      split; auto. apply Forall_app. split; auto.
    - exists (h ++ [(i, v)]), []. split; [now rewrite app_nil_r|]. split; auto. right. eauto.
  Qed.

  (** A constant goal is noticed. *)
  Lemma reference_constant h v h2 r c i : far v v = false ->
    Forall (fun iv => snd iv = v) h2 ->
    Forall (fun iv => fst iv <= i) h -> reference far (h ++ (i, v) :: h2) r c -> c <= i.
  Proof.
    intros Hv Hf Hi H.
    assert (G : c <= i /\ far v r = false).
    { revert r c H. induction h2 as [|[j w] h2 IH] using rev_ind; intros r c H.
      - inversion H as [E|h0 r0 c0 i0 v0 H0 F0 E|h0 r0 c0 i0 v0 H0 F0 E].
        + exfalso. eapply app_cons_not_nil; eauto.
        + apply app_inj_tail in E. destruct E as [-> E]. inversion E; subst. split; auto.
          eapply reference_le; eauto. lia.
        + apply app_inj_tail in E. destruct E as [-> E]. inversion E; subst. auto.
      - apply Forall_app in Hf. destruct Hf as [Hf Hw]. inversion Hw as [|? ? Hw1 _]; subst. simpl in H.
        rewrite app_comm_cons, app_assoc in H.
        inversion H as [E|h0 r0 c0 i0 v0 H0 F0 E|h0 r0 c0 i0 v0 H0 F0 E].
        + exfalso. eapply app_cons_not_nil; eauto.
        + apply app_inj_tail in E. destruct E as [-> E]. inversion E; subst. apply IH; auto.
        + apply app_inj_tail in E. destruct E as [-> E]. inversion E; subst.
          destruct (IH Hf _ _ H0) as [_ G]. simpl in *. congruence. }
    apply G.
  Qed.

  Lemma same_not_far v : is_finite v = true -> leb (b_of_Z 0) delta = true -> far v v = false.
  Proof.
    intros Hv Hd. unfold differ.
    destruct (sub_correct np64 v v Hv Hv) as [F E].
    { rewrite Rminus_eq_0, round_0 by apply valid_rnd_round_mode. rewrite Rabs_R0. apply bpow_gt_0. }
    rewrite Rminus_eq_0, round_0 in E by apply valid_rnd_round_mode.
    destruct (b_sub np64 v v) as [s|s|s pl h|s m0 e h]; try discriminate.
    - destruct (ltb delta (b_abs (Binary.B754_zero s))) eqn:L; auto.
      apply ltb_key in L. apply leb_key in Hd. destruct L as [_ [_ L]], Hd as [_ [_ Hd]].
      assert (Z0 : (0 <= key delta)%R) by (eapply Rle_trans; [|exact Hd]; simpl; lra).
      simpl in L. lra.
    - exfalso. simpl in E. apply eq_0_F2R in E. destruct s; discriminate.
  Qed.

  (** Quiet for long enough: the goal is exactly [v] at this and the last
      questions, the first of which was more than [m] iterations ago. *)
  Lemma gnc_quiet ss1 s0 ss2 s v : is_finite v = true -> leb (b_of_Z 0) delta = true ->
    not_decreasing (map as_iter (ss1 ++ s0 :: ss2 ++ [s])) ->
    (forall q, In q (s0 :: ss2 ++ [s]) -> exists x, as_best q = Some (x, v)) ->
    m < as_iter s - as_iter s0 ->
    exists bs g, asked (map checker (ss1 ++ s0 :: ss2 ++ [s])) gnc_new (bs ++ [true]) g.
  Proof.
    intros Fv Hd Hn Hb Hm. destruct (gnc_run _ Hn) as [bs [g [A [L S]]]].
    set (all := ss1 ++ s0 :: ss2 ++ [s]) in *.
    assert (El : length all = length ss1 + 1 + length ss2 + 1).
    { unfold all. rewrite app_length. simpl. rewrite app_length. simpl. lia. }
    destruct (destruct_last bs) as [[bs' [b ->]]|E].
    2: { subst bs. simpl in L. lia. }
    rewrite app_length in L. simpl in L.
    assert (Es : all = (ss1 ++ s0 :: ss2) ++ [s]) by (unfold all; now rewrite <- app_assoc).
    assert (Ek : length bs' = length (ss1 ++ s0 :: ss2)).
    { rewrite app_length. simpl. lia. }
    assert (Eb : b = true).
    { assert (G : gnc_says (firstn (length bs') all) s b).
      { apply (S (length bs')).
        - rewrite Es, nth_error_app2, Ek, Nat.sub_diag by lia. reflexivity.
        - rewrite nth_error_app2, Nat.sub_diag by lia. reflexivity. }
      apply G.
      destruct (Hb s) as [x Ex]; [right; apply in_or_app; right; now left|]. split; [congruence|].
      assert (R : exists r c, reference far (best_goals (firstn (length bs') all ++ [s])) r c).
      { clear. generalize (best_goals (firstn (length bs') all ++ [s])). intros l.
        induction l as [|[i w] l IH] using rev_ind; [eexists _, _; constructor|].
        destruct IH as [r [c IH]]. destruct (far w r) eqn:E.
        - eexists _, _. eapply reference_taken; eauto.
        - eexists _, _. eapply reference_kept; eauto. }
      destruct R as [r [c R]]. exists r, c. split; auto.
      assert (Ec : c <= as_iter s0).
      { rewrite Es, Ek, firstn_app, firstn_all, Nat.sub_diag, app_nil_r in R. simpl in R.
        destruct (Hb s0) as [x0 E0]; [now left|].
        rewrite !best_goals_app in R. simpl in R. rewrite E0, Ex in R.
        rewrite <- app_assoc in R. cbn [app] in R.
        eapply reference_constant; [apply (same_not_far v Fv Hd)| | |exact R].
        - apply Forall_app. split; [|repeat constructor].
          assert (Hb2 : forall q, In q ss2 -> exists x, as_best q = Some (x, v)).
          { intros q Hq. apply Hb. right. apply in_or_app. now left. }
          clear - Hb2. induction ss2 as [|q l IH]; simpl; auto.
          destruct (Hb2 q (or_introl eq_refl)) as [y Ey]. rewrite Ey. constructor; auto.
          apply IH. intros q' Hq'. apply Hb2. now right.
        - apply goals_iters. unfold all in Hn. rewrite map_app in Hn. simpl in Hn. eapply not_decreasing_app; eauto. }
      lia. }
    subst b. eauto.
  Qed.
End GoalNotChange.
