(** * Invariants of the genetic optimizer that hold whatever the outcome of a run *)

From Coq Require Import List Arith ZArith Bool Lia.
From Verif Require Import Base Logic FloatModel GaModel SpecGa GaBest GaFacts.
Import ListNotations.

Section Trace.
  Context {T : Type}.
  Notation ev := (ga_event T).
  Implicit Types (h t : list ev) (p : population T).

  Lemma snoc_split {A} (l : list A) a l1 b l2 :
    l ++ [a] = l1 ++ b :: l2 ->
    (l2 = [] /\ l1 = l /\ b = a) \/ (exists l2', l2 = l2' ++ [a] /\ l = l1 ++ b :: l2').
  Proof.
    intros H. destruct (@exists_last _ (b :: l2) ltac:(discriminate)) as [m [z Hm]].
    rewrite Hm, app_assoc in H. apply app_inj_tail in H. destruct H as [H ->].
    destruct m as [|c m]; simpl in Hm.
    - inversion Hm; subst. left. rewrite app_nil_r. auto.
    - inversion Hm; subst. right. exists m. auto.
  Qed.

  Lemma own_value_app h t (i : individual T) : own_value h i -> own_value (h ++ t) i.
  Proof. unfold own_value, evaluated. intros. apply in_or_app; auto. Qed.

  Lemma population_valued_app h t p : population_valued h p -> population_valued (h ++ t) p.
  Proof. intros [H1 [H2 H3]]. repeat split; intros; apply own_value_app; auto. Qed.

  Lemma evals_app {S X} (a b : list (event T S X)) : evals (a ++ b) = evals a ++ evals b.
  Proof. induction a as [|[] a IH]; simpl; auto. now rewrite IH. Qed.

  (** What every observer has seen so far was in order. *)
  Definition seen_ok h : Prop :=
    observations_valued h /\
    (forall p, reported h p -> iteration p > 0 -> settled p) /\
    (forall x v, evaluated h x v -> In x (evals h)).

  Lemma seen_ok_plain h e : seen_ok h -> shows e = None ->
    (forall x v, e = EValue x v -> In x (evals h)) -> seen_ok (h ++ [e]).
  Proof.
    intros [H1 [H2 H3]] He Hv. split; [|split].
    - intros t1 e' t2 p E Hs. apply snoc_split in E.
      destruct E as [[-> [-> ->]]|[t2' [-> ->]]]; [congruence|]. eapply H1; eauto.
    - intros p [[b Hb]|[k [i Hb]]]; apply in_app_or in Hb; destruct Hb as [Hb|[->|[]]];
        try discriminate; apply H2; unfold reported; eauto.
    - intros x v Hx. apply in_app_or in Hx. rewrite evals_app. apply in_or_app.
      destruct Hx as [Hx|[->|[]]]; left; eauto.
  Qed.

  Lemma seen_ok_show h e p : seen_ok h -> shows e = Some p -> population_valued h p ->
    (iteration p > 0 -> (exists s, e = ESee s) \/ settled p) -> seen_ok (h ++ [e]).
  Proof.
    intros [H1 [H2 H3]] He Hv Hset. split; [|split].
    - intros t1 e' t2 q E Hs. apply snoc_split in E.
      destruct E as [[-> [-> ->]]|[t2' [-> ->]]]; [congruence|]. eapply H1; eauto.
    - intros q [[b Hb]|[k [i Hb]]] Hq; apply in_app_or in Hb; destruct Hb as [Hb|[->|[]]];
        try (apply H2; auto; unfold reported; eauto; fail);
        simpl in He; inversion He; subst; destruct (Hset Hq) as [[s Es]|]; auto; discriminate.
    - intros x v Hx. apply in_app_or in Hx. rewrite evals_app. apply in_or_app.
      destruct Hx as [Hx|[->|[]]]; [left; eauto|discriminate].
  Qed.

  Lemma seen_ok_nil : seen_ok [].
  Proof.
    split; [|split].
    - intros [|] ? ? ? E; discriminate.
    - intros p [[? []]|[? [? []]]].
    - intros ? ? [].
  Qed.
End Trace.

Section Safety.
  Context {U T : Type}.
  Variable cfg : ga_config U T.
  Notation ev := (ga_event T).
  Implicit Types (h t : list ev) (p : population T) (u : U).

  Definition ok_trace h (u : U) : Prop := seen_ok h.
  (** The population of the optimizer between two steps of an iteration. *)
  Definition ok_pop p h (u : U) : Prop := seen_ok h /\ population_valued h p.
  (** ... and between two iterations. *)
  Definition ok_rest p h (u : U) : Prop :=
    seen_ok h /\ population_valued h p /\ (iteration p > 0 -> settled p).

  Lemma ok_call_comp {A} p (rec : A -> ga_call T) (c : comp U A) :
    hoare (ok_pop p) (call_comp rec c)
      (fun a h u => ok_pop p h u /\ exists u1 u2, c u1 = (Ret a, u2)) ok_trace.
  Proof.
    unfold call_comp. eapply hoare_mbind.
    - apply hoare_call with (Q := fun a h u => ok_pop p h u /\ exists u1 u2, c u1 = (Ret a, u2)).
      + intros h u a u' H Hc. split; [exact H|eauto].
      + intros ? ? ? [H _] _; exact H.
    - intros a. eapply hoare_mbind.
      + eapply hoare_pre.
        * apply (hoare_emit _ (fun _ h u => ok_pop p h u /\ exists u1 u2, c u1 = (Ret a, u2))).
        * intros h u [[H1 H2] H3]. split; auto. split.
          -- apply seen_ok_plain; auto; discriminate.
          -- now apply population_valued_app.
      + intros ?x. apply (hoare_mret a (fun a h u => ok_pop p h u /\ exists u1 u2, c u1 = (Ret a, u2))).
  Qed.

  Lemma ok_see p : hoare (ok_pop p) (emit (ESee p)) (fun _ => ok_pop p) ok_trace.
  Proof.
    eapply hoare_pre; [apply (hoare_emit _ (fun _ => ok_pop p))|].
    intros h u [H1 H2]. split.
    - eapply seen_ok_show; eauto. reflexivity.
    - now apply population_valued_app.
  Qed.

  Lemma ok_loggers k p :
    hoare (ok_rest p) (call_loggers pop_view k (ga_loggers cfg) p) (fun _ => ok_rest p) ok_trace.
  Proof.
    unfold call_loggers. apply hoare_mfor. intros [i l] _. eapply hoare_mbind.
    - eapply hoare_pre; [apply (hoare_emit _ (fun _ => ok_rest p))|].
      intros h u [H1 [H2 H3]]. split; [|split]; auto.
      + eapply seen_ok_show; eauto. reflexivity.
      + now apply population_valued_app.
    - intros ?x. apply hoare_call.
      + intros ? ? ? ? H ?; exact H.
      + intros ? ? ? [H _] _; exact H.
  Qed.

  Lemma ok_push p x : hoare (ok_pop p) (pop_push cfg p x) (fun p' => ok_pop p') ok_trace.
  Proof.
    unfold pop_push, call_goal.
    eapply hoare_mbind with (R := fun v h u => ok_pop p h u /\ evaluated h x v).
    - eapply hoare_mbind with (R := fun _ h u => ok_pop p h u /\ In x (evals h)).
      + eapply hoare_pre; [apply (hoare_emit _ (fun _ h u => ok_pop p h u /\ In x (evals h)))|].
        intros h u [H1 H2]. split; [split|].
        { apply seen_ok_plain; auto; discriminate. }
        { now apply population_valued_app. }
        rewrite evals_app. apply in_or_app. right. now left.
      + intros ?x. eapply hoare_mbind with (R := fun v h u => ok_pop p h u /\ In x (evals h)).
        * apply hoare_call.
          -- intros ? ? ? ? H ?; exact H.
          -- intros ? ? ? [[H _] _] _; exact H.
        * intros v. eapply hoare_mbind with (R := fun _ h u => ok_pop p h u /\ evaluated h x v).
          -- eapply hoare_pre; [apply (hoare_emit _ (fun _ h u => ok_pop p h u /\ evaluated h x v))|].
             intros h u [[H1 H2] H3]. split; [split|].
             ++ apply seen_ok_plain; auto. intros x' v' E. now inversion E; subst.
             ++ now apply population_valued_app.
             ++ apply in_or_app. right. now left.
          -- intros ?x. apply (hoare_mret v (fun v h u => ok_pop p h u /\ evaluated h x v)).
    - intros v. eapply hoare_pre; [apply (hoare_mret _ (fun p' => ok_pop p'))|].
      intros h u [[H1 [H2 [H3 H4]]] Hv]. split; auto. repeat split; simpl; auto.
      intros i Hi. apply in_app_or in Hi. destruct Hi as [Hi|[<-|[]]]; auto.
  Qed.

  Lemma ok_append p xs : hoare (ok_pop p) (pop_append cfg p xs) (fun p' => ok_pop p') ok_trace.
  Proof. unfold pop_append. apply hoare_mfold. intros q x _. apply ok_push. Qed.

  (** Anything that neither touches nor shows the population. *)
  Lemma ok_fold_aside {A S} p (f : S -> A -> M U ev S) l s :
    (forall s x, In x l -> hoare (ok_pop p) (f s x) (fun _ => ok_pop p) ok_trace) ->
    hoare (ok_pop p) (mfold f l s) (fun _ => ok_pop p) ok_trace.
  Proof.
    intros H. apply (hoare_mfold f l (fun _ => ok_pop p) ok_trace s). auto.
  Qed.

  Lemma ok_comp {A} p (rec : A -> ga_call T) (c : comp U A) :
    hoare (ok_pop p) (call_comp rec c) (fun _ => ok_pop p) ok_trace.
  Proof. eapply hoare_conseq; [apply (ok_call_comp p)|..]; auto. intros a h u [H _]. exact H. Qed.

  Lemma ok_pairing p : hoare (ok_pop p) (run_pairing cfg p) (fun _ => ok_pop p) ok_trace.
  Proof.
    unfold run_pairing. eapply hoare_mbind; [apply ok_see|]. intros ?x.
    eapply hoare_mbind; [apply ok_comp|]. intros pairs. simpl.
    apply ok_fold_aside. intros s pair _.
    eapply hoare_mbind with (R := fun _ => ok_pop p).
    - apply hoare_pure; [auto|]. intros h u [H _]. exact H.
    - intros fam. eapply hoare_mbind; [apply ok_comp|]. intros cs. simpl.
      apply (hoare_mret _ (fun _ => ok_pop p)).
  Qed.

  Lemma settled_update p p' : update_best_worst p = Ret p' -> settled p'.
  Proof.
    intros H. destruct (update_best_worst_spec p) as [q [E [Hi [Hit He]]]].
    rewrite H in E. inversion E; subst q. unfold extremes in He. intros Hne.
    destruct (individuals p') as [|i l] eqn:El; [congruence|]. exact He.
  Qed.

  Lemma valued_update h p p' :
    update_best_worst p = Ret p' -> population_valued h p -> population_valued h p'.
  Proof.
    intros H [H1 [H2 H3]]. destruct (update_best_worst_spec p) as [q [E [Hi [Hit He]]]].
    rewrite H in E. inversion E; subst q.
    repeat split.
    - rewrite Hi. auto.
    - intros i Hb. unfold extremes in He. destruct (individuals p') as [|j l] eqn:El.
      + destruct He as [He _]. apply H2. congruence.
      + destruct He as [[b [Eb [k [Hk _]]]] _]. rewrite Hb in Eb. inversion Eb; subst.
        apply H1. rewrite <- Hi. eapply nth_error_In; eauto.
    - intros i Hb. unfold extremes in He. destruct (individuals p') as [|j l] eqn:El.
      + destruct He as [_ He]. apply H3. congruence.
      + destruct He as [_ [b [Eb [k [Hk _]]]]]. rewrite Hb in Eb. inversion Eb; subst.
        apply H1. rewrite <- Hi. eapply nth_error_In; eauto.
  Qed.

  Hypothesis legal : Forall selection_copies (ga_selections cfg).

  Lemma ok_selection q s : selection_copies s ->
    hoare (ok_pop q) (emit (ESee q) ;;;
                      l <- call_comp (CSelect q) (s q) ;;
                      mret (set_individuals q l)) (fun q' => ok_pop q') ok_trace.
  Proof.
    intros Hs. eapply hoare_mbind; [apply ok_see|]. intros ?x.
    eapply hoare_mbind; [apply ok_call_comp|]. intros l.
    eapply hoare_pre; [apply (hoare_mret _ (fun q' => ok_pop q'))|].
    intros h u [[H1 [H2 [H3 H4]]] [u1 [u2 Hc]]]. split; auto. repeat split; simpl; auto.
    intros i Hi. destruct (Hs _ _ _ _ Hc i Hi) as [j [Hj [E1 E2]]].
    unfold own_value. rewrite E1, E2. destruct Hj as [Hj|[Hj|Hj]]; [apply H2|apply H3|apply H4]; auto.
  Qed.

  Lemma ok_iteration p : hoare (ok_rest p) (ga_iteration cfg p) (fun p' => ok_rest p') ok_trace.
  Proof.
    unfold ga_iteration.
    eapply hoare_mbind with (R := fun _ => ok_pop p).
    { eapply hoare_pre; [apply ok_pairing|]. intros h u [H1 [H2 _]]. split; auto. }
    intros cs. eapply hoare_mbind with (R := fun _ => ok_pop p).
    { eapply hoare_conseq; [apply (hoare_mmapM _ cs (ok_pop p) (fun _ _ => True) ok_trace)|..]; auto.
      - intros x _. eapply hoare_conseq; [apply (ok_comp p)|..]; auto.
      - intros a h u [H _]. exact H. }
    intros ms. eapply hoare_mbind with (R := fun _ => ok_pop p).
    { apply ok_fold_aside. intros s pb _. eapply hoare_mbind; [apply ok_see|]. intros ?x. apply ok_comp. }
    intros born. eapply hoare_mbind; [apply ok_append|]. intros p1. simpl.
    eapply hoare_mbind with (R := fun p2 => ok_pop p2).
    { apply hoare_mfold with (I := fun p2 => ok_pop p2).
      intros q s Hs. apply ok_selection. rewrite Forall_forall in legal. auto. }
    intros p2. eapply hoare_mbind with (R := fun p3 => fun h u => ok_pop p3 h u /\ settled p3).
    { apply hoare_pure; [|intros h u [H _]; exact H]. intros h u p3 [H1 H2] E.
      split; [split; auto|].
      - eapply valued_update; eauto. destruct H2 as [H2 [H3 H4]]. repeat split; simpl; auto.
        intros i Hi. apply filter_In in Hi. destruct Hi. auto.
      - eapply settled_update; eauto. }
    intros p3. cbn zeta. eapply hoare_mbind with (R := fun _ => ok_rest (pop_next_iteration p3)).
    { eapply hoare_pre; [apply ok_loggers|]. intros h u [[H1 H2] H3].
      split; [|split]; auto. }
    intros ?x. apply (hoare_mret _ (fun p' => ok_rest p')).
  Qed.

  Lemma ok_loop fuel p : hoare (ok_rest p) (ga_loop cfg fuel p) (fun p' => ok_rest p') ok_trace.
  Proof.
    revert p. induction fuel as [|fuel IH]; intros p; simpl.
    - eapply hoare_pre; [apply hoare_nofuel|]. intros h u [H _]. exact H.
    - eapply hoare_mbind with (R := fun _ => ok_rest p).
      + unfold call_stop. eapply hoare_mbind with (R := fun _ => ok_rest p).
        * apply hoare_call; [auto|]. intros ? ? ? [H _] _; exact H.
        * intros b. eapply hoare_mbind with (R := fun _ => ok_rest p).
          -- eapply hoare_pre; [apply (hoare_emit _ (fun _ => ok_rest p))|].
             intros h u [H1 [H2 H3]]. split; [|split]; auto.
             ++ eapply seen_ok_show; eauto. reflexivity.
             ++ now apply population_valued_app.
          -- intros ?x. apply (hoare_mret b (fun _ => ok_rest p)).
      + intros [|].
        * apply (hoare_mret p (fun p' => ok_rest p')).
        * eapply hoare_mbind; [apply ok_iteration|]. intros p'. apply IH.
  Qed.

  Lemma ok_next fuel p :
    hoare (ok_rest p) (ga_next_iterations cfg fuel p)
      (fun r h u => ok_rest (snd r) h u /\ fst r = solution (snd r)) ok_trace.
  Proof.
    unfold ga_next_iterations. eapply hoare_mbind; [apply ok_loggers|]. intros ?x.
    eapply hoare_mbind; [apply ok_loop|]. intros p'.
    eapply hoare_mbind; [apply ok_loggers|]. intros ?x.
    eapply hoare_pre; [apply hoare_mret|]. intros h u H. simpl. auto.
  Qed.

  Lemma ok_find fuel p :
    hoare (fun h _ => h = []) (ga_find_min cfg fuel p)
      (fun r h u => ok_rest (snd r) h u /\ fst r = solution (snd r)) ok_trace.
  Proof.
    unfold ga_find_min. cbn zeta.
    eapply hoare_mbind with (R := fun _ => ok_pop (pop_reset p)).
    { eapply hoare_pre; [apply ok_comp|]. intros h u ->. split; [apply seen_ok_nil|].
      repeat split; simpl; intros; try contradiction; discriminate. }
    intros xs.
    eapply hoare_mbind with (R := fun p1 h u => ok_pop p1 h u /\ iteration p1 = 0).
    { intros h u H. pose proof (ok_append (pop_reset p) xs h u H) as Ha.
      destruct (pop_append cfg (pop_reset p) xs u) as [[[p1| |] u'] t] eqn:Ep; auto.
      split; auto. apply pop_append_ret in Ep. destruct Ep as [vs [_ [-> _]]]. reflexivity. }
    intros p1. eapply hoare_mbind with (R := fun _ => ok_rest p1).
    { eapply hoare_pre; [apply ok_loggers|]. intros h u [[H1 H2] H3].
      split; [|split]; auto. intros; lia. }
    intros ?x. apply ok_next.
  Qed.
End Safety.
