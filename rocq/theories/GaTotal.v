(** * A genetic optimizer whose components fit together never panics *)

From Coq Require Import List Arith ZArith Bool Lia.
From Verif Require Import Base Logic FloatModel GaModel SpecGa SpecTotal TotalFacts GaBest.
Import ListNotations.

Section Total.
  Context {U T : Type}.
  Variables (N : Prop) (I : phase -> nat -> U -> Prop) (answers : alg_state T -> bool -> Prop)
            (born : T -> Prop) (fit : f64 -> Prop) (raw : T -> Prop) (k : nat) (cfg : ga_config U T).
  Hypothesis fits : ga_fits born fit I answers raw k cfg.
  Notation ok := (population_fits born fit).
  Lemma loggers_shown p : ok p -> exists p', population_fits born fit p' /\ pop_view p = ga_view p'.
  Proof. intros H. exists p. auto. Qed.
  Notation good := (fun i : individual T => alive i = true /\ individual_fits born fit i).

  Notation V := (@population_seen T born fit).
  Lemma seen_quiet (e : ga_event T) : shows e = None -> V e.
  Proof. destruct e; simpl; auto; discriminate. Qed.
  Hint Resolve seen_quiet : core.

  Lemma safe_append ph i p xs : Forall born xs -> Forall good (individuals p) ->
    safe N (I ph i) V (pop_append cfg p xs) (fun p' =>
      Forall good (individuals p') /\ length (individuals p') = length (individuals p) + length xs /\
      iteration p' = iteration p /\ best_individual p' = best_individual p).
  Proof.
    unfold pop_append. revert p. induction xs as [|x xs IH]; intros p Hx Hp; simpl.
    { apply safe_mret. split; [auto|]. split; [lia|]. auto. }
    inversion Hx as [|? ? B Bs]; subst. unfold pop_push at 1.
    eapply safe_mbind with (Q := fun p1 => Forall good (individuals p1) /\
      length (individuals p1) = length (individuals p) + 1 /\ iteration p1 = iteration p /\
      best_individual p1 = best_individual p).
    { eapply safe_mbind; [apply safe_call_goal_post; [auto|]; apply (gfit_goal _ _ _ _ _ _ _ fits ph i), B|]. intros v Fv.
      apply safe_mret. simpl. rewrite app_length. simpl. split; [|auto].
      apply Forall_app. split; auto. constructor; [|constructor]. simpl. split; auto. split; auto. }
    intros p1 [H1 [H2 [H3 H4]]]. eapply safe_conseq; [apply IH; auto|].
    simpl. intros p2 [K1 [K2 [K3 K4]]]. split; [auto|]. split; [lia|]. split; congruence.
  Qed.

  Lemma family_total p pair : ok p -> Forall (fun i => i < length (individuals p)) pair ->
    exists xs, family p pair = Ret xs /\ length xs = length pair /\ Forall born xs.
  Proof.
    intros [_ Hp] H. rewrite Forall_forall in Hp. induction H as [|i pair Hi H IH].
    - exists []. simpl. auto.
    - destruct IH as [xs [E [L B]]]. destruct (nth_error (individuals p) i) as [ind|] eqn:En.
      2:{ apply nth_error_None in En. lia. }
      exists (chromosomes ind :: xs). unfold family in *. simpl. unfold index at 1. rewrite En. simpl. rewrite E.
      simpl. split; [reflexivity|]. split; [congruence|]. constructor; auto.
      apply nth_error_In in En. apply (Hp ind En).
  Qed.

  Lemma safe_pairing p : ok p -> safe N (I Running (iteration p)) V (run_pairing cfg p) (Forall raw).
  Proof.
    intros Hp. unfold run_pairing.
    eapply safe_mbind; [apply safe_emit; simpl; auto|]. intros _ _.
    eapply safe_mbind; [apply safe_call_comp; [auto|]; apply (gfit_pairing _ _ _ _ _ _ _ fits), Hp|]. intros pairs Hpairs.
    rewrite Forall_forall in Hpairs.
    apply safe_mfold with (J := Forall raw); [|constructor]. intros cs pair Hcs Hin.
    destruct (Hpairs pair Hin) as [Lk Hi].
    destruct (family_total p pair Hp Hi) as [xs [E [Lx Bx]]].
    eapply safe_mbind with (Q := fun ys => ys = xs); [eapply safe_pure; eauto|]. intros ys ->.
    eapply safe_mbind; [apply safe_call_comp; [auto|]; apply (gfit_cross _ _ _ _ _ _ _ fits); auto; congruence|].
    intros children Hch. apply safe_mret. apply Forall_app. auto.
  Qed.

  Lemma remove_dead_ok p : some_survive born fit p -> ok (remove_dead p).
  Proof.
    intros [[i [Hi Ha]] Hf]. rewrite Forall_forall in Hf. split.
    - simpl. intros E. assert (K : In i (filter alive (individuals p))) by (apply filter_In; auto).
      rewrite E in K. destruct K.
    - apply Forall_forall. simpl. intros j Hj. apply filter_In in Hj. destruct Hj as [Hj Aj]. auto.
  Qed.

  Lemma safe_ga_iteration p : ok p -> leads N (I Running (iteration p)) V (ga_iteration cfg p)
    (fun p' u => (ok p' /\ iteration p' = iteration p + 1 /\
       exists b, best_individual p' = Some b /\ individual_fits born fit b) /\ I Running (iteration p') u).
  Proof.
    intros Hp. unfold ga_iteration.
    eapply leads_safe_bind; [apply safe_pairing, Hp|]. intros cs Hcs.
    eapply leads_safe_bind.
    { apply safe_mmapM with (Q := fun _ => raw). intros c Hc. rewrite Forall_forall in Hcs.
      apply safe_call_comp; [auto|]; apply (gfit_mutation _ _ _ _ _ _ _ fits). auto. }
    intros ms Hms. assert (Rm : Forall raw ms) by (clear - Hms; induction Hms; constructor; auto).
    eapply leads_safe_bind.
    { eapply safe_pipeline with (view := fun f => f p); [|apply (gfit_pre_births _ _ _ _ _ _ _ fits), Hp|exact Rm].
      intros f a R _ H. eapply safe_mbind; [apply safe_emit; simpl; auto|]. intros _ _. apply safe_call_comp; auto. }
    intros newborn Bn.
    eapply leads_safe_bind; [apply safe_append; [exact Bn|apply Hp]|]. intros p1 [G1 [L1 [I1 _]]].
    eapply leads_safe_bind with (Q := fun p2 => some_survive born fit p2 /\ iteration p2 = iteration p).
    { assert (S1 : ok p1).
      { split; auto. destruct Hp as [Hn _]. destruct (individuals p); [congruence|].
        destruct (individuals p1); [simpl in L1; lia|discriminate]. }
      pose proof (gfit_selections _ _ _ _ _ _ _ fits (iteration p)) as Hs. set (J := I Running (iteration p)) in *. clearbody J. rewrite <- I1.
      set (P := population_fits born fit) in *. clearbody P. clear - Hs S1.
      revert P S1 Hs. generalize (ga_selections cfg) as fs. intros fs. revert p1.
      induction fs as [|f fs IH]; intros p1 P S1 Hs; simpl in *; inversion Hs as [P0 H1|P0 R f0 fs0 H1 H2]; subst.
      - apply safe_mret. auto.
      - eapply safe_mbind with (Q := fun q => R q /\ iteration q = iteration p1).
        { eapply safe_mbind; [apply safe_emit; simpl; auto|]. intros _ _.
          eapply safe_mbind with (Q := fun l => R (set_individuals p1 l)).
          { apply safe_call_comp; [apply seen_quiet|]. intros u Hu. destruct (H1 p1 S1 u Hu) as [q [u' [E [Rq Hu']]]].
            unfold cbind, cret in E. destruct (f p1 u) as [[l| |] u1] eqn:Ef; try discriminate.
            injection E as <- <-. eauto. }
          intros l Rl. apply safe_mret. auto. }
        intros q [Rq Iq]. rewrite <- Iq. apply (IH q R); auto. }
    intros p2 [S2 I2]. apply remove_dead_ok in S2.
    destruct (update_best_worst_spec (remove_dead p2)) as [p3 [E3 [Li [It Ex]]]].
    eapply leads_safe_bind with (Q := fun q => q = p3); [eapply safe_pure; eauto|]. intros q ->. cbv zeta.
    assert (O4 : ok (pop_next_iteration p3)).
    { unfold population_fits. simpl. rewrite Li. exact S2. }
    assert (B4 : exists b, best_individual p3 = Some b /\ individual_fits born fit b).
    { destruct S2 as [Hn Hf]. unfold extremes in Ex. rewrite Forall_forall in Hf. rewrite Li in Ex.
      destruct (individuals (remove_dead p2)) as [|i l] eqn:El; [congruence|].
      destruct Ex as [[b [E1 Hb]] _].
      exists b. split; [exact E1|]. destruct Hb as [j [Hj _]]. apply nth_error_In in Hj.
      apply (Hf b). exact Hj. }
    assert (I4 : iteration (pop_next_iteration p3) = iteration p + 1) by (simpl; rewrite It; simpl; lia).
    apply leads_pre with (J := I Running (iteration (pop_next_iteration p3))).
    { intros u Hu. rewrite I4. now apply (gfit_age _ _ _ _ _ _ _ fits). }
    eapply leads_safe_bind.
    { apply safe_call_loggers; [auto|]. intros l Hl. exact (log_next _ _ _ (gfit_logging _ _ _ _ _ _ _ fits) l (pop_view _) Hl (loggers_shown _ O4)). }
    intros _ _. apply leads_mret. intros u Hu. split; [|exact Hu]. split; [exact O4|]. split; [exact I4|exact B4].
  Qed.

  Definition ga_enough (fuel : nat) (p : population T) : Prop :=
    N \/ exists k, stops_by k answers /\ k - iteration p < fuel.

  Lemma safe_ga_loop fuel p : ok p -> settled_best born fit p -> ga_enough fuel p ->
    leads N (I Running (iteration p)) V (ga_loop cfg fuel p)
    (fun p' u => (ok p' /\ settled_best born fit p' /\ answers (pop_view p') true /\
      forall k, stops_by k answers -> iteration p <= k -> iteration p' <= k) /\ I Running (iteration p') u).
  Proof.
    revert p. induction fuel as [|fuel IH]; intros p Hp Hs Hf; simpl.
    { apply leads_nofuel. destruct Hf as [HN|[j [_ Hk]]]; [auto|lia]. }
    eapply leads_safe_bind; [apply safe_call_stop; [intros b; split; assumption|]; apply (gfit_stop _ _ _ _ _ _ _ fits), Hp|]. intros b Hb.
    destruct b; [apply leads_mret; auto|].
    eapply leads_bind; [apply safe_ga_iteration, Hp|]. intros p1 [H1 [H2 [b [H3 H4]]]].
    assert (Lt : forall j, stops_by j answers -> iteration p < j).
    { intros j Hj. destruct (Nat.le_gt_cases j (iteration p)) as [K|K]; [|lia]. exfalso. exact (Hj (pop_view p) K Hb). }
    eapply leads_conseq; [apply IH; auto|].
    - unfold settled_best. rewrite H3. split; [lia|auto].
    - destruct Hf as [HN|[j [Hj Lj]]]; [now left|]. right. exists j. split; auto. apply Lt in Hj. lia.
    - simpl. intros p2 u [[K1 [K2 [K3 K4]]] K5]. split; [|auto]. split; [auto|]. split; [auto|]. split; [auto|].
      intros j Hj _. apply K4; auto. apply Lt in Hj. lia.
  Qed.

  Definition result_of (p : population T) : option (T * f64) :=
    match best_individual p with None => None | Some i => Some (chromosomes i, fitness i) end.

  Lemma safe_ga_next fuel p : ok p -> settled_best born fit p -> ga_enough fuel p ->
    leads N (I Resting (iteration p)) V (ga_next_iterations cfg fuel p)
    (fun r u => (ok (snd r) /\ settled_best born fit (snd r) /\ answers (pop_view (snd r)) true /\
      (forall k, stops_by k answers -> iteration p <= k -> iteration (snd r) <= k) /\
      fst r = result_of (snd r)) /\ I Running (iteration (snd r)) u).
  Proof.
    intros Hp Hs Hf. unfold ga_next_iterations.
    eapply leads_bind with (Q := fun _ => True) (J := fun _ => I Running (iteration p)).
    { eapply leads_conseq; [apply leads_loggers; [auto|]|simpl; intros a u Ha; split; [exact Logic.I|exact Ha]].
      intros u Hu. exact (log_resume _ _ _ (gfit_logging _ _ _ _ _ _ _ fits) (pop_view p) u (loggers_shown _ Hp) Hu). }
    intros _ _. eapply leads_bind; [apply safe_ga_loop; auto|]. intros p1 [H1 [H2 [H3 H4]]].
    eapply leads_safe_bind; [apply safe_call_loggers; [auto|]; intros l Hl;
      exact (log_finish _ _ _ (gfit_logging _ _ _ _ _ _ _ fits) l (pop_view _) Hl (loggers_shown _ H1))|].
    intros _ _. apply leads_mret. simpl. auto 6.
  Qed.

  Lemma safe_ga_find fuel p : (N \/ exists k, stops_by k answers /\ k < fuel) ->
    leads N (I Resting 0) V (ga_find_min cfg fuel p)
    (fun r u => (ok (snd r) /\ settled_best born fit (snd r) /\ answers (pop_view (snd r)) true /\
      (forall k, stops_by k answers -> iteration (snd r) <= k) /\ fst r = result_of (snd r)) /\
      I Running (iteration (snd r)) u).
  Proof.
    intros Hf. unfold ga_find_min. cbv zeta.
    eapply leads_safe_bind; [apply safe_call_comp; [auto|]; apply (gfit_creator _ _ _ _ _ _ _ fits)|]. intros xs [Hn Hx].
    eapply leads_safe_bind; [apply (safe_append _ _ _ _ Hx); constructor|].
    intros p1 [G1 [L1 [I1 B1]]]. simpl in *.
    assert (O1 : ok p1).
    { split; auto. destruct xs; [congruence|]. destruct (individuals p1); [simpl in L1; lia|discriminate]. }
    assert (S1 : settled_best born fit p1) by (unfold settled_best; now rewrite B1).
    rewrite <- I1.
    eapply leads_safe_bind; [apply safe_call_loggers; [auto|]; intros l Hl;
      exact (log_start _ _ _ (gfit_logging _ _ _ _ _ _ _ fits) l (pop_view _) Hl (loggers_shown _ O1))|].
    intros _ _. eapply leads_conseq.
    - apply safe_ga_next; auto. destruct Hf as [HN|[j [Hj Lj]]]; [now left|]. right. exists j. split; auto. lia.
    - simpl. intros r u [[K1 [K2 [K3 [K4 K5]]]] K6]. split; [|auto]. split; [auto|]. split; [auto|]. split; [auto|]. split; [|auto].
      intros j Hj. apply K4; auto. lia.
  Qed.
End Total.

Section Histories.
  Context {U T : Type}.
  Variables (born : T -> Prop) (fit : f64 -> Prop).
  Implicit Types (I : phase -> nat -> U -> Prop).

  Lemma ga_find_never_panics I answers raw k (cfg : ga_config U T) fuel p u :
    ga_fits born fit I answers raw k cfg -> I Resting 0 u -> fst (fst (ga_find_min cfg fuel p u)) <> Panic.
  Proof. intros H Hu. eapply leads_not_panic; [eapply (safe_ga_find True); [exact H|now left]|exact Hu]. Qed.
  Lemma ga_next_never_panics I answers raw k (cfg : ga_config U T) fuel p u :
    ga_fits born fit I answers raw k cfg -> I Resting (iteration p) u -> population_fits born fit p -> settled_best born fit p ->
    fst (fst (ga_next_iterations cfg fuel p u)) <> Panic.
  Proof. intros H Hu Hp Hs. eapply leads_not_panic; [eapply (safe_ga_next True); eauto; now left|exact Hu]. Qed.

  Lemma ga_find_fits I answers raw k (cfg : ga_config U T) fuel p u r p' u' t :
    ga_fits born fit I answers raw k cfg -> I Resting 0 u ->
    ga_find_min cfg fuel p u = (Ret (r, p'), u', t) ->
    population_fits born fit p' /\ settled_best born fit p' /\ answers (pop_view p') true /\ I Running (iteration p') u'.
  Proof.
    intros H Hu E.
    destruct (leads_post True (I Resting 0) _ _ _ u _ _ _ (safe_ga_find True I answers born fit raw k cfg H fuel p (or_introl Logic.I)) Hu E)
      as [[A [B [C _]]] F]. auto.
  Qed.
  Lemma ga_next_fits I answers raw k (cfg : ga_config U T) fuel p u r p' u' t :
    ga_fits born fit I answers raw k cfg -> I Resting (iteration p) u -> population_fits born fit p -> settled_best born fit p ->
    ga_next_iterations cfg fuel p u = (Ret (r, p'), u', t) ->
    population_fits born fit p' /\ settled_best born fit p' /\ answers (pop_view p') true /\ I Running (iteration p') u'.
  Proof.
    intros H Hu Hp Hs E.
    destruct (leads_post True (I Resting (iteration p)) _ _ _ u _ _ _
      (safe_ga_next True I answers born fit raw k cfg H fuel p Hp Hs (or_introl Logic.I)) Hu E)
      as [[A [B [C _]]] F]. auto.
  Qed.

  Lemma ga_find_seen I answers raw k (cfg : ga_config U T) fuel p u :
    ga_fits born fit I answers raw k cfg -> I Resting 0 u ->
    Forall (population_seen born fit) (snd (ga_find_min cfg fuel p u)).
  Proof.
    intros H Hu. exact (leads_events True (I Resting 0) _ _ _ u (safe_ga_find True I answers born fit raw k cfg H fuel p (or_introl Logic.I)) Hu).
  Qed.
  Lemma ga_next_seen I answers raw k (cfg : ga_config U T) fuel p u :
    ga_fits born fit I answers raw k cfg -> I Resting (iteration p) u -> population_fits born fit p -> settled_best born fit p ->
    Forall (population_seen born fit) (snd (ga_next_iterations cfg fuel p u)).
  Proof.
    intros H Hu Hp Hs.
    exact (leads_events True (I Resting (iteration p)) _ _ _ u (safe_ga_next True I answers born fit raw k cfg H fuel p Hp Hs (or_introl Logic.I)) Hu).
  Qed.

  (** With a bound on the generations the run returns. *)
  Lemma ga_find_returns I answers raw k (cfg : ga_config U T) n fuel p u :
    ga_fits born fit I answers raw k cfg -> stops_by n answers -> n < fuel -> I Resting 0 u ->
    exists r p' u' t, ga_find_min cfg fuel p u = (Ret (r, p'), u', t) /\
      population_fits born fit p' /\ iteration p' <= n /\ answers (pop_view p') true /\
      (r = None <-> iteration p' = 0) /\ (forall x v, r = Some (x, v) -> born x /\ fit v) /\ I Running (iteration p') u'.
  Proof.
    intros H Ek Hk Hu.
    destruct (leads_total (I Resting 0) _ _ _ u (safe_ga_find False I answers born fit raw k cfg H fuel p
                (or_intror (ex_intro _ n (conj Ek Hk)))) Hu) as [[r p'] [u' [t [E [[[A [B [C [F G]]]] D] _]]]]].
    exists r, p', u', t. simpl in *. split; [auto|]. split; [auto|]. split; [auto|]. split; [auto|].
    unfold settled_best in B. unfold result_of in G. subst r. destruct (best_individual p') as [b|].
    - destruct B as [B1 B2]. split; [split; [discriminate|congruence]|]. split; [|auto].
      intros x v K. injection K as <- <-. exact B2.
    - split; [tauto|]. split; [discriminate|auto].
  Qed.
  Lemma ga_next_returns I answers raw k (cfg : ga_config U T) n fuel p u :
    ga_fits born fit I answers raw k cfg -> stops_by n answers -> n - iteration p < fuel -> I Resting (iteration p) u ->
    population_fits born fit p -> settled_best born fit p ->
    exists r p' u' t, ga_next_iterations cfg fuel p u = (Ret (r, p'), u', t) /\
      population_fits born fit p' /\ (iteration p <= n -> iteration p' <= n) /\ answers (pop_view p') true /\
      (r = None <-> iteration p' = 0) /\ (forall x v, r = Some (x, v) -> born x /\ fit v) /\ I Running (iteration p') u'.
  Proof.
    intros H Ek Hk Hu Hp Hs.
    destruct (leads_total (I Resting (iteration p)) _ _ _ u (safe_ga_next False I answers born fit raw k cfg H fuel p Hp Hs
                (or_intror (ex_intro _ n (conj Ek Hk)))) Hu) as [[r p'] [u' [t [E [[[A [B [C [F G]]]] D] _]]]]].
    exists r, p', u', t. simpl in *. split; [auto|]. split; [auto|]. split; [auto|]. split; [auto|].
    unfold settled_best in B. unfold result_of in G. subst r. destruct (best_individual p') as [b|].
    - destruct B as [B1 B2]. split; [split; [discriminate|congruence]|]. split; [|auto].
      intros x v K. injection K as <- <-. exact B2.
    - split; [tauto|]. split; [discriminate|auto].
  Qed.
End Histories.
