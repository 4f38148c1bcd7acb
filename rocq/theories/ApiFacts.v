(** * Components that hold individuals, and selections written as programs *)

From Coq Require Import List Arith ZArith Bool Lia.
From Verif Require Import Base Logic FloatModel GaModel PsoModel SpecGa SpecRun ApiModel SpecApi GaBest GaFacts GaSafety GaTheorems.
Import ListNotations.

Section Copies.
  Context {T : Type}.
  Implicit Types l : list (individual T).

  Lemma copies_refl l (P : individual T -> Prop) : (forall i, In i l -> P i) -> copies l P.
  Proof. intros H i Hi. exists i. auto. Qed.
  Lemma copies_impl l (P Q : individual T -> Prop) : (forall i, P i -> Q i) -> copies l P -> copies l Q.
  Proof. intros H H1 i Hi. destruct (H1 i Hi) as [j [Hj E]]. eauto. Qed.
  Lemma copies_trans l l1 (P : individual T -> Prop) : copies l (fun j => In j l1) -> copies l1 P -> copies l P.
  Proof.
    intros H1 H2 i Hi. destruct (H1 i Hi) as [j [Hj [E1 E2]]]. destruct (H2 j Hj) as [k [Hk [E3 E4]]].
    exists k. split; [exact Hk|]. split; congruence.
  Qed.
  Lemma copies_app l1 l2 (P : individual T -> Prop) : copies l1 P -> copies l2 P -> copies (l1 ++ l2) P.
  Proof. intros H1 H2 i Hi. apply in_app_or in Hi. destruct Hi; auto. Qed.
  Lemma copies_own h l (P : individual T -> Prop) : copies l P -> (forall j, P j -> own_value h j) ->
    forall i, In i l -> own_value h i.
  Proof. intros H HP i Hi. destruct (H i Hi) as [j [Hj [E1 E2]]]. unfold own_value. rewrite E1, E2. now apply HP. Qed.
End Copies.

Section Honest.
  Context {U T : Type}.
  Variable held : U -> list (individual T).
  Variable cfg : ga_config U T.
  Hypothesis H : honest held cfg.
  Notation ev := (ga_event T).
  Implicit Types (h t : list ev) (p : population T) (u : U).

  Definition held_ok h u : Prop := forall i, In i (held u) -> own_value h i.
  Definition h_pop p h u : Prop := seen_ok h /\ population_valued h p /\ held_ok h u.
  Definition h_rest p h u : Prop := h_pop p h u /\ (iteration p > 0 -> settled p).
  Definition h_trace h (u : U) : Prop := seen_ok h.

  Lemma held_ok_app h t u : held_ok h u -> held_ok (h ++ t) u.
  Proof. intros Hh i Hi. now apply own_value_app, Hh. Qed.
  Lemma known_own h p j : population_valued h p -> known p j -> own_value h j.
  Proof. intros [H1 [H2 H3]] [Hj|[Hj|Hj]]; auto. Qed.
  Lemma learns_ok {A} h p (c : comp U A) u : learns_from held p c -> population_valued h p -> held_ok h u ->
    held_ok h (snd (c u)).
  Proof.
    intros Hc Hp Hh. refine (copies_own h _ _ (Hc u) _). intros j [Hj|Hj]; [now apply Hh|]. eapply known_own; eauto.
  Qed.
  Lemma nothing_from {A} p (c : comp U A) : learns_nothing held c -> learns_from held p c.
  Proof. intros Hc u. eapply copies_impl; [|apply Hc]. intros i Hi. now left. Qed.

  Lemma h_comp {A} p (rec : A -> ga_call T) (c : comp U A) : learns_from held p c ->
    hoare (h_pop p) (call_comp rec c) (fun _ => h_pop p) h_trace.
  Proof.
    intros Hc. unfold call_comp. eapply hoare_mbind with (R := fun _ => h_pop p).
    - apply hoare_call.
      + intros h u a u' [H1 [H2 H3]] E. split; [exact H1|]. split; [exact H2|].
        pose proof (learns_ok h p c u Hc H2 H3) as G. now rewrite E in G.
      + intros h u ? [H1 _] _. exact H1.
    - intros a. eapply hoare_mbind with (R := fun _ => h_pop p).
      + eapply hoare_pre; [apply (hoare_emit _ (fun _ => h_pop p))|].
        intros h u [H1 [H2 H3]]. split; [apply seen_ok_plain; auto; discriminate|].
        split; [now apply population_valued_app|now apply held_ok_app].
      + intros ?x. apply (hoare_mret a (fun _ => h_pop p)).
  Qed.
  Lemma h_see p : hoare (h_pop p) (emit (ESee p)) (fun _ => h_pop p) h_trace.
  Proof.
    eapply hoare_pre; [apply (hoare_emit _ (fun _ => h_pop p))|].
    intros h u [H1 [H2 H3]]. split; [eapply seen_ok_show; eauto; reflexivity|].
    split; [now apply population_valued_app|now apply held_ok_app].
  Qed.

  Lemma h_loggers k p :
    hoare (h_rest p) (call_loggers pop_view k (ga_loggers cfg) p) (fun _ => h_rest p) h_trace.
  Proof.
    unfold call_loggers. apply hoare_mfor. intros [i l] Hin. eapply hoare_mbind with (R := fun _ => h_rest p).
    - eapply hoare_pre; [apply (hoare_emit _ (fun _ => h_rest p))|].
      intros h u [[H1 [H2 H3]] H4]. split; [|exact H4]. split; [eapply seen_ok_show; eauto; reflexivity|].
      split; [now apply population_valued_app|now apply held_ok_app].
    - intros ?x. assert (Hl : In l (ga_loggers cfg)).
      { unfold enumerate in Hin. apply in_combine_r in Hin. exact Hin. }
      apply hoare_call.
      + intros h u a u' [[H1 [H2 H3]] H4] E. split; [|exact H4]. split; [exact H1|]. split; [exact H2|].
        pose proof (learns_ok h p _ u (nothing_from p _ (honest_loggers _ _ H l k (pop_view p) Hl)) H2 H3) as G.
        replace (told_by k l (pop_view p)) with (lg_method k l (pop_view p)) in G by (destruct k; reflexivity).
        cbn [snd] in E. now rewrite E in G.
      + intros h u ? [[H1 _] _] _. exact H1.
  Qed.

  Lemma h_push p x : hoare (h_pop p) (pop_push cfg p x) (fun p' => h_pop p') h_trace.
  Proof.
    unfold pop_push, call_goal.
    eapply hoare_mbind with (R := fun v h u => h_pop p h u /\ evaluated h x v).
    - eapply hoare_mbind with (R := fun _ h u => h_pop p h u /\ In x (evals h)).
      + eapply hoare_pre; [apply (hoare_emit _ (fun _ h u => h_pop p h u /\ In x (evals h)))|].
        intros h u [H1 [H2 H3]]. split; [split; [|split]|].
        { apply seen_ok_plain; auto; discriminate. }
        { now apply population_valued_app. }
        { now apply held_ok_app. }
        rewrite evals_app. apply in_or_app. right. now left.
      + intros ?x. eapply hoare_mbind with (R := fun v h u => h_pop p h u /\ In x (evals h)).
        * apply hoare_call.
          -- intros h u v u' [[H1 [H2 H3]] H4] E. split; [|exact H4]. split; [exact H1|]. split; [exact H2|].
             pose proof (learns_ok h p _ u (nothing_from p _ (honest_goal _ _ H x)) H2 H3) as G. now rewrite E in G.
          -- intros ? ? ? [[H1 _] _] _; exact H1.
        * intros v. eapply hoare_mbind with (R := fun _ h u => h_pop p h u /\ evaluated h x v).
          -- eapply hoare_pre; [apply (hoare_emit _ (fun _ h u => h_pop p h u /\ evaluated h x v))|].
             intros h u [[H1 [H2 H3]] H4]. split; [split; [|split]|].
             ++ apply seen_ok_plain; auto. intros x' v' E. now inversion E; subst.
             ++ now apply population_valued_app.
             ++ now apply held_ok_app.
             ++ apply in_or_app. right. now left.
          -- intros ?x. apply (hoare_mret v (fun v h u => h_pop p h u /\ evaluated h x v)).
    - intros v. eapply hoare_pre; [apply (hoare_mret _ (fun p' => h_pop p'))|].
      intros h u [[H1 [[H2 [H3 H4]] H5]] Hv]. split; [exact H1|]. split; [|exact H5]. repeat split; simpl; auto.
      intros i Hi. apply in_app_or in Hi. destruct Hi as [Hi|[<-|[]]]; auto.
  Qed.
  Lemma h_append p xs : hoare (h_pop p) (pop_append cfg p xs) (fun p' => h_pop p') h_trace.
  Proof. unfold pop_append. apply hoare_mfold. intros q x _. apply h_push. Qed.

  Lemma h_fold_aside {A S} p (f : S -> A -> M U ev S) l s :
    (forall s x, In x l -> hoare (h_pop p) (f s x) (fun _ => h_pop p) h_trace) ->
    hoare (h_pop p) (mfold f l s) (fun _ => h_pop p) h_trace.
  Proof. intros Hf. apply (hoare_mfold f l (fun _ => h_pop p) h_trace s). auto. Qed.

  Lemma h_pairing p : hoare (h_pop p) (run_pairing cfg p) (fun _ => h_pop p) h_trace.
  Proof.
    unfold run_pairing. eapply hoare_mbind; [apply h_see|]. intros ?x.
    eapply hoare_mbind; [apply h_comp, H|]. intros pairs. cbv beta.
    apply h_fold_aside. intros s pair _.
    eapply hoare_mbind with (R := fun _ => h_pop p).
    - apply hoare_pure; [auto|]. intros h u [H1 _]. exact H1.
    - intros fam. eapply hoare_mbind; [apply h_comp, nothing_from, H|]. intros cs. cbv beta.
      apply (hoare_mret _ (fun _ => h_pop p)).
  Qed.

  Lemma h_selection q s : In s (ga_selections cfg) ->
    hoare (h_pop q) (emit (ESee q) ;;;
                     l <- call_comp (CSelect q) (s q) ;;
                     mret (set_individuals q l)) (fun q' => h_pop q') h_trace.
  Proof.
    intros Hs. destruct (honest_selections _ _ H s q Hs) as [Hl Hc].
    eapply hoare_mbind; [apply h_see|]. intros ?x.
    eapply hoare_mbind with (R := fun l h u => h_pop q h u /\ forall i, In i l -> own_value h i).
    - unfold call_comp. eapply hoare_mbind with (R := fun l h u => h_pop q h u /\ forall i, In i l -> own_value h i).
      + apply hoare_call.
        * intros h u l u' [H1 [H2 H3]] E. split.
          -- split; [exact H1|]. split; [exact H2|]. pose proof (learns_ok h q _ u Hl H2 H3) as G. now rewrite E in G.
          -- refine (copies_own h _ _ (Hc u l u' E) _). intros j [Hj|Hj]; [now apply H3|]. eapply known_own; eauto.
        * intros h u ? [H1 _] _. exact H1.
      + intros l. eapply hoare_mbind with (R := fun _ h u => h_pop q h u /\ forall i, In i l -> own_value h i).
        * eapply hoare_pre; [apply (hoare_emit _ (fun _ h u => h_pop q h u /\ forall i, In i l -> own_value h i))|].
          intros h u [[H1 [H2 H3]] H4]. split.
          -- split; [apply seen_ok_plain; auto; discriminate|]. split; [now apply population_valued_app|now apply held_ok_app].
          -- intros i Hi. now apply own_value_app, H4.
        * intros ?x. apply (hoare_mret l (fun l h u => h_pop q h u /\ forall i, In i l -> own_value h i)).
    - intros l. eapply hoare_pre; [apply (hoare_mret _ (fun q' => h_pop q'))|].
      intros h u [[H1 [[H2 [H3 H4]] H5]] H6]. split; [exact H1|]. split; [|exact H5]. repeat split; simpl; auto.
  Qed.

  Lemma h_iteration p : hoare (h_rest p) (ga_iteration cfg p) (fun p' => h_rest p') h_trace.
  Proof.
    unfold ga_iteration.
    eapply hoare_mbind with (R := fun _ => h_pop p).
    { eapply hoare_pre; [apply h_pairing|]. intros h u [H1 _]. exact H1. }
    intros cs. eapply hoare_mbind with (R := fun _ => h_pop p).
    { eapply hoare_conseq; [apply (hoare_mmapM _ cs (h_pop p) (fun _ _ => True) h_trace)|..]; auto.
      - intros x _. eapply hoare_conseq; [apply (h_comp p), nothing_from, H|..]; auto.
      - intros a h u [H1 _]. exact H1. }
    intros ms. eapply hoare_mbind with (R := fun _ => h_pop p).
    { apply h_fold_aside. intros s pb Hpb. eapply hoare_mbind; [apply h_see|]. intros ?x. apply h_comp. now apply H. }
    intros born. eapply hoare_mbind; [apply h_append|]. intros p1. cbv beta.
    eapply hoare_mbind with (R := fun p2 => h_pop p2).
    { apply hoare_mfold with (I := fun p2 => h_pop p2). intros q s Hs. now apply h_selection. }
    intros p2. eapply hoare_mbind with (R := fun p3 => fun h u => h_pop p3 h u /\ settled p3).
    { apply hoare_pure; [|intros h u [H1 _]; exact H1]. intros h u p3 [H1 [H2 H3]] E.
      split; [split; [exact H1|split; [|exact H3]]|].
      - eapply valued_update; eauto. destruct H2 as [H2 [H4 H5]]. repeat split; simpl; auto.
        intros i Hi. apply filter_In in Hi. destruct Hi. auto.
      - eapply settled_update; eauto. }
    intros p3. cbn zeta. eapply hoare_mbind with (R := fun _ => h_rest (pop_next_iteration p3)).
    { eapply hoare_pre; [apply h_loggers|]. intros h u [[H1 [H2 H3]] H4].
      split; [split; [exact H1|split; [exact H2|exact H3]]|auto]. }
    intros ?x. apply (hoare_mret _ (fun p' => h_rest p')).
  Qed.

  Lemma h_loop fuel p : hoare (h_rest p) (ga_loop cfg fuel p) (fun p' => h_rest p') h_trace.
  Proof.
    revert p. induction fuel as [|fuel IH]; intros p; simpl.
    - eapply hoare_pre; [apply hoare_nofuel|]. intros h u [[H1 _] _]. exact H1.
    - eapply hoare_mbind with (R := fun _ => h_rest p).
      + unfold call_stop. eapply hoare_mbind with (R := fun _ => h_rest p).
        * apply hoare_call.
          -- intros h u b u' [[H1 [H2 H3]] H4] E. split; [|exact H4]. split; [exact H1|]. split; [exact H2|].
             pose proof (learns_ok h p _ u (nothing_from p _ (honest_stop _ _ H (pop_view p))) H2 H3) as G. now rewrite E in G.
          -- intros ? ? ? [[H1 _] _] _; exact H1.
        * intros b. eapply hoare_mbind with (R := fun _ => h_rest p).
          -- eapply hoare_pre; [apply (hoare_emit _ (fun _ => h_rest p))|].
             intros h u [[H1 [H2 H3]] H4]. split; [|exact H4]. split; [eapply seen_ok_show; eauto; reflexivity|].
             split; [now apply population_valued_app|now apply held_ok_app].
          -- intros ?x. apply (hoare_mret b (fun _ => h_rest p)).
      + intros [|].
        * apply (hoare_mret p (fun p' => h_rest p')).
        * eapply hoare_mbind; [apply h_iteration|]. intros p'. apply IH.
  Qed.

  Lemma h_next fuel p :
    hoare (h_rest p) (ga_next_iterations cfg fuel p)
      (fun r h u => h_rest (snd r) h u /\ fst r = solution (snd r)) h_trace.
  Proof.
    unfold ga_next_iterations. eapply hoare_mbind; [apply h_loggers|]. intros ?x.
    eapply hoare_mbind; [apply h_loop|]. intros p'.
    eapply hoare_mbind; [apply h_loggers|]. intros ?x.
    eapply hoare_pre; [apply hoare_mret|]. intros h u H1. simpl. auto.
  Qed.

  Lemma h_find fuel p :
    hoare (h_rest p) (ga_find_min cfg fuel p)
      (fun r h u => h_rest (snd r) h u /\ fst r = solution (snd r)) h_trace.
  Proof.
    unfold ga_find_min. cbn zeta.
    eapply hoare_mbind with (R := fun _ => h_pop (pop_reset p)).
    { eapply hoare_pre; [apply h_comp, nothing_from, H|]. intros h u [[H1 [H2 H3]] _].
      split; [exact H1|]. split; [|exact H3]. repeat split; simpl; intros; try contradiction; discriminate. }
    intros xs.
    eapply hoare_mbind with (R := fun p1 h u => h_pop p1 h u /\ iteration p1 = 0).
    { intros h u H1. pose proof (h_append (pop_reset p) xs h u H1) as Ha.
      destruct (pop_append cfg (pop_reset p) xs u) as [[[p1| |] u'] t] eqn:Ep; auto.
      split; auto. apply pop_append_ret in Ep. destruct Ep as [vs [_ [-> _]]]. reflexivity. }
    intros p1. eapply hoare_mbind with (R := fun _ => h_rest p1).
    { eapply hoare_pre; [apply h_loggers|]. intros h u [H1 H2].
      split; [exact H1|]. intros; lia. }
    intros ?x. apply h_next.
  Qed.
End Honest.

Section Life.
  Context {U T : Type}.
  Variable held : U -> list (individual T).
  Variable ok : ga_config U T -> Prop.
  Hypothesis Hok : forall cfg, ok cfg -> honest held cfg.

  Lemma life_rest p u h : ga_life held ok p u h -> h_rest held p h u.
  Proof.
    induction 1 as [u Hu|cfg fuel p u h r p' u' t Hc Hl IH E|cfg fuel p u h r p' u' t Hc Hl IH E|p u h u' Hl IH Hc].
    - split; [split; [apply seen_ok_nil|split]|]; simpl; [|intros i Hi; rewrite Hu in Hi; destruct Hi|lia].
      repeat split; simpl; intros; try contradiction; discriminate.
    - pose proof (h_find held cfg (Hok _ Hc) fuel p h u IH) as G. rewrite E in G. apply G.
    - pose proof (h_next held cfg (Hok _ Hc) fuel p h u IH) as G. rewrite E in G. apply G.
    - destruct IH as [[H1 [H2 H3]] H4]. split; [|exact H4]. split; [exact H1|]. split; [exact H2|].
      refine (copies_own h _ _ Hc _). exact H3.
  Qed.

  Lemma life_observed p u h cfg fuel o u' t : ga_life held ok p u h -> ok cfg ->
    ga_find_min cfg fuel p u = (o, u', t) \/ ga_next_iterations cfg fuel p u = (o, u', t) ->
    observed_well (h ++ t).
  Proof.
    intros Hl Hc Hr. pose proof (life_rest _ _ _ Hl) as I.
    assert (S : seen_ok (h ++ t)).
    { destruct Hr as [E|E].
      - pose proof (h_find held cfg (Hok _ Hc) fuel p h u I) as G. rewrite E in G. destruct o; try exact G. apply G.
      - pose proof (h_next held cfg (Hok _ Hc) fuel p h u I) as G. rewrite E in G. destruct o; try exact G. apply G. }
    destruct S as [S1 [S2 _]]. split; [exact S1|exact S2].
  Qed.

  Lemma life_result p u h cfg fuel x v p' u' t : ga_life held ok p u h -> ok cfg ->
    ga_find_min cfg fuel p u = (Ret (Some (x, v), p'), u', t) \/
    ga_next_iterations cfg fuel p u = (Ret (Some (x, v), p'), u', t) ->
    evaluated (h ++ t) x v.
  Proof.
    intros Hl Hc Hr. pose proof (life_rest _ _ _ Hl) as I.
    assert (S : population_valued (h ++ t) p' /\ Some (x, v) = solution p').
    { destruct Hr as [E|E].
      - pose proof (h_find held cfg (Hok _ Hc) fuel p h u I) as G. rewrite E in G. cbn [fst snd] in G. split; apply G.
      - pose proof (h_next held cfg (Hok _ Hc) fuel p h u I) as G. rewrite E in G. cbn [fst snd] in G. split; apply G. }
    destruct S as [S1 S2]. eapply solution_valued; eauto.
  Qed.
End Life.

(** ** Programs *)
Section Programs.
  Context {U T : Type}.
  Variable L : lens U (list (individual T)).
  Hypothesis HL : lens_ok L.
  Implicit Types (p q : population T).

  Lemma store_ret p n i q : pop_store p n i = Ret q -> exists l, update (individuals p) n i = Ret l /\ q = set_individuals p l.
  Proof.
    unfold pop_store. destruct (update (individuals p) n i) as [l| |]; try discriminate. cbn [obind]. intros E.
    injection E as <-. eauto.
  Qed.
  Lemma store_known p n i q (P : individual T -> Prop) : pop_store p n i = Ret q ->
    copies (i :: individuals p) P -> copies (individuals q) P.
  Proof.
    intros E Hc. destruct (store_ret _ _ _ _ E) as [l [El ->]]. intros j Hj. apply Hc. cbn [individuals set_individuals] in Hj.
    clear - El Hj. revert n l El Hj. induction (individuals p) as [|a t IH]; intros [|n] l El Hj; simpl in El; try discriminate.
    - injection El as <-. destruct Hj; simpl; auto.
    - destruct (update t n i) as [l'| |] eqn:E'; try discriminate. injection El as <-. destruct Hj as [<-|Hj]; [simpl; auto|].
      destruct (IH n l' E' Hj) as [<-|G]; simpl; auto.
  Qed.
  Lemma index_in {A} (l : list A) n a : index l n = Ret a -> In a l.
  Proof. intros E. apply index_ret in E. eapply nth_error_In; eauto. Qed.
  Lemma rest_of_store p n i q : pop_store p n i = Ret q -> best_individual q = best_individual p /\ worst_individual q = worst_individual p.
  Proof. intros E. destruct (store_ret _ _ _ _ E) as [l [_ ->]]. auto. Qed.

  Lemma swap_ret p n m q : pop_swap p n m = Ret q -> exists i j r, index (individuals p) n = Ret i /\ index (individuals p) m = Ret j /\
    pop_store p n j = Ret r /\ pop_store r m i = Ret q.
  Proof.
    unfold pop_swap, pop_index. destruct (index (individuals p) n) as [i| |] eqn:Ei; try discriminate. cbn [obind].
    destruct (index (individuals p) m) as [j| |] eqn:Ej; try discriminate. cbn [obind].
    destruct (pop_store p n j) as [r| |] eqn:Er; try discriminate. cbn [obind]. intros E. exists i, j, r. auto.
  Qed.
  Lemma pkill_ret p n q : pop_kill p n = Ret q -> exists i, index (individuals p) n = Ret i /\ pop_store p n (kill i) = Ret q.
  Proof.
    unfold pop_kill, pop_index. destruct (index (individuals p) n) as [i| |] eqn:Ei; try discriminate. cbn [obind]. eauto.
  Qed.

  (** Everything a program holds or leaves comes from where it may come from. *)
  Definition fed (P : individual T -> Prop) p u : Prop :=
    copies (lget L u) P /\ copies (individuals p) P /\ copies (opt_list (best_individual p)) P /\ copies (opt_list (worst_individual p)) P.

  Lemma fed_store P p n i q u : pop_store p n i = Ret q -> (exists j, P j /\ chromosomes i = chromosomes j /\ fitness i = fitness j) ->
    fed P p u -> fed P q u.
  Proof.
    intros E Hi [F1 [F2 [F3 F4]]]. destruct (rest_of_store _ _ _ _ E) as [B W]. unfold fed. rewrite B, W.
    split; [exact F1|]. split; [|auto]. eapply store_known; eauto. intros j [<-|Hj]; auto.
  Qed.
  Lemma fed_remember P p l u : fed P p u -> copies l P -> fed P p (snd (remember L l u)).
  Proof.
    intros [F1 F] Hl. unfold fed, remember. cbn [snd]. rewrite (lens_get_put _ HL). split; [|exact F]. now apply copies_app.
  Qed.

  Lemma exec_fed P s : tidy L s -> forall p u, fed P p u ->
    copies (lget L (snd (sel_exec L s p u))) P /\
    forall q u', sel_exec L s p u = (Ret q, u') -> fed P q u'.
  Proof.
    induction s as [|n k IH|n m k IH|n k IH|k IH|k IH|n j k IH|j k IH|k IH|A c k IH]; intros Ht p u F; cbn [sel_exec tidy] in *.
    - split; [apply F|]. intros q u' E. injection E as <- <-. exact F.
    - unfold cbind, cpure. destruct (pop_kill p n) as [q| |] eqn:E; [|split; [apply F|discriminate]..].
      apply IH; [exact Ht|]. destruct (pkill_ret _ _ _ E) as [i [Ei Es]]. eapply fed_store; eauto.
      destruct F as [_ [F2 _]]. destruct (F2 i (index_in _ _ _ Ei)) as [j' Hj]. exists j'. exact Hj.
    - unfold cbind, cpure. destruct (pop_swap p n m) as [q| |] eqn:E; [|split; [apply F|discriminate]..].
      apply IH; [exact Ht|]. destruct (swap_ret _ _ _ _ E) as [i [j' [r [Ei [Ej [Er Eq]]]]]].
      pose proof F as [_ [F2 _]]. eapply fed_store; [exact Eq|apply F2; eapply index_in; eauto|].
      eapply fed_store; [exact Er|apply F2; eapply index_in; eauto|exact F].
    - unfold cbind at 1 3, cpure, pop_index. destruct (index (individuals p) n) as [i| |] eqn:E; [|split; [apply F|discriminate]..].
      unfold cbind. cbn [remember]. apply (IH Ht p (lput L (lget L u ++ [i]) u)). apply (fed_remember P p [i] u F).
      intros i' [<-|[]]. destruct F as [_ [F2 _]]. apply F2. eapply index_in; eauto.
    - unfold cbind. cbn [remember]. apply (IH Ht p (lput L (lget L u ++ opt_list (best_individual p)) u)).
      apply (fed_remember P p _ u F). apply F.
    - unfold cbind. cbn [remember]. apply (IH Ht p (lput L (lget L u ++ opt_list (worst_individual p)) u)).
      apply (fed_remember P p _ u F). apply F.
    - unfold cbind, cpure. destruct (index (lget L u) j) as [i| |] eqn:Ei; [|split; [apply F|discriminate]..].
      destruct (pop_store p n i) as [q| |] eqn:E; [|split; [apply F|discriminate]..].
      apply IH; [exact Ht|]. eapply fed_store; eauto. destruct F as [F1 _]. apply F1. eapply index_in; eauto.
    - apply IH; [exact Ht|]. destruct F as [F1 F]. split; [|exact F]. rewrite (lens_get_put _ HL).
      intros i Hi. apply F1. rewrite <- (firstn_skipn j (lget L u)). apply in_or_app. now left.
    - apply IH; [apply Ht|exact F].
    - destruct Ht as [Hc Ht]. unfold cbind. specialize (Hc u). destruct (c u) as [[a| |] u1] eqn:E; cbn [snd] in Hc.
      + apply IH; [apply Ht|]. unfold fed. rewrite Hc. exact F.
      + split; [cbn [snd]; rewrite Hc; apply F|discriminate].
      + split; [cbn [snd]; rewrite Hc; apply F|discriminate].
  Qed.

  Lemma fed_start p u : fed (fun j => In j (lget L u) \/ known p j) p u.
  Proof.
    split; [apply copies_refl; auto|]. split; [apply copies_refl; intros i Hi; right; now left|].
    split; apply copies_refl; intros i Hi.
    - destruct (best_individual p) as [b|] eqn:E; [|destruct Hi]. destruct Hi as [<-|[]]. right. right. now left.
    - destruct (worst_individual p) as [b|] eqn:E; [|destruct Hi]. destruct Hi as [<-|[]]. right. right. now right.
  Qed.

  Lemma programs_honest s p : tidy L s ->
    learns_from (lget L) p (selection_of L s p) /\ leaves_copies (lget L) p (selection_of L s p).
  Proof.
    intros Ht. split.
    - intros u. destruct (exec_fed _ s Ht p u (fed_start p u)) as [G _]. unfold selection_of, cbind.
      destruct (sel_exec L s p u) as [[q| |] u1]; exact G.
    - intros u l u' E. destruct (exec_fed _ s Ht p u (fed_start p u)) as [_ G]. unfold selection_of, cbind in E.
      destruct (sel_exec L s p u) as [[q| |] u1] eqn:E1; try discriminate. injection E as <- <-. apply (G _ _ eq_refl).
  Qed.

  (** Without the saved individuals it is one of the selections of the other theorems. *)
  Lemma forgetful_exec P s : forgetful s -> forall p u, copies (individuals p) P ->
    forall q u', sel_exec L s p u = (Ret q, u') -> copies (individuals q) P.
  Proof.
    induction s as [|n k IH|n m k IH|n k IH|k IH|k IH|n j k IH|j k IH|k IH|A c k IH]; intros Ht p u F q u' E; cbn [sel_exec forgetful] in *;
      unfold cbind, cpure, pop_index in E.
    - injection E as <- _. exact F.
    - destruct (pop_kill p n) as [q1| |] eqn:E1; try discriminate. eapply IH; [exact Ht| |exact E].
      destruct (pkill_ret _ _ _ E1) as [i [Ei Es]]. eapply store_known; [exact Es|]. intros j [<-|Hj]; [|now apply F].
      destruct (F i (index_in _ _ _ Ei)) as [j' Hj]. exists j'. exact Hj.
    - destruct (pop_swap p n m) as [q1| |] eqn:E1; try discriminate. eapply IH; [exact Ht| |exact E].
      destruct (swap_ret _ _ _ _ E1) as [i [j' [r [Ei [Ej [Er Eq]]]]]].
      assert (Fr : copies (individuals r) P).
      { eapply store_known; [exact Er|]. intros b [<-|Hb]; [apply F; eapply index_in; eauto|now apply F]. }
      eapply store_known; [exact Eq|]. intros a [<-|Ha]; [apply F; eapply index_in; eauto|now apply Fr].
    - destruct (index (individuals p) n) as [i| |]; try discriminate. eapply IH; [exact Ht|exact F|exact E].
    - eapply IH; [exact Ht|exact F|exact E].
    - eapply IH; [exact Ht|exact F|exact E].
    - destruct Ht.
    - eapply IH; [exact Ht|exact F|exact E].
    - eapply IH; [apply Ht|exact F|exact E].
    - destruct (c u) as [[a| |] u1]; try discriminate. eapply IH; [apply Ht|exact F|exact E].
  Qed.
  Lemma forgetful_copies s : forgetful s -> selection_copies (selection_of L s).
  Proof.
    intros Hf p u l u' E. unfold selection_of, cbind in E.
    destruct (sel_exec L s p u) as [[q| |] u1] eqn:E1; try discriminate. injection E as <- <-.
    eapply forgetful_exec; eauto. apply copies_refl. intros i Hi. now left.
  Qed.

  Lemma store_kills p n i q : index (individuals p) n = Ret i -> pop_store p n (kill i) = Ret q ->
    Forall2 killed_from (individuals p) (individuals q).
  Proof.
    intros Ei Es. destruct (store_ret _ _ _ _ Es) as [l [El ->]]. cbn [individuals set_individuals]. apply index_ret in Ei.
    clear - Ei El. revert n l Ei El.
    assert (R : forall t : list (individual T), Forall2 killed_from t t) by (induction t; constructor; [split; [|split]; auto|auto]).
    induction (individuals p) as [|a t IH]; intros [|n] l Ei El; simpl in *; try discriminate.
    - injection Ei as <-. injection El as <-. constructor; [|apply R]. split; [|split]; simpl; auto; discriminate.
    - destruct (update t n (kill i)) as [l'| |] eqn:E; try discriminate. injection El as <-. constructor; [split; [|split]; auto|]. eauto.
  Qed.
  Lemma killed_trans (l1 l2 l3 : list (individual T)) :
    Forall2 killed_from l1 l2 -> Forall2 killed_from l2 l3 -> Forall2 killed_from l1 l3.
  Proof.
    intros H1. revert l3. induction H1 as [|a b l1 l2 [A1 [A2 A3]] H1 IH]; intros l3 H2; inversion H2 as [|b' c l2' l3' [B1 [B2 B3]] H3]; subst; constructor; [|auto].
    split; [|split]; try congruence. auto.
  Qed.
  Lemma just_kills_exec s : just_kills s -> forall p u q u', sel_exec L s p u = (Ret q, u') -> Forall2 killed_from (individuals p) (individuals q).
  Proof.
    assert (R : forall t : list (individual T), Forall2 killed_from t t) by (induction t; constructor; [split; [|split]; auto|auto]).
    induction s as [|n k IH|n m k IH|n k IH|k IH|k IH|n j k IH|j k IH|k IH|A c k IH]; intros Ht p u q u' E; cbn [sel_exec just_kills] in *;
      unfold cbind, cpure, pop_index in E.
    - injection E as <- _. apply R.
    - destruct (pop_kill p n) as [q1| |] eqn:E1; try discriminate. destruct (pkill_ret _ _ _ E1) as [i [Ei Es]].
      eapply killed_trans; [eapply store_kills; eauto|]. eapply IH; [exact Ht|exact E].
    - destruct Ht.
    - destruct (index (individuals p) n) as [i| |]; try discriminate. eapply IH; [exact Ht|exact E].
    - eapply IH; [exact Ht|exact E].
    - eapply IH; [exact Ht|exact E].
    - destruct Ht.
    - eapply IH; [exact Ht|exact E].
    - eapply IH; [apply Ht|exact E].
    - destruct (c u) as [[a| |] u1]; try discriminate. eapply IH; [apply Ht|exact E].
  Qed.
  Lemma just_kills_kills s : just_kills s -> selection_kills (selection_of L s).
  Proof.
    intros Hf p u l u' E. unfold selection_of, cbind in E.
    destruct (sel_exec L s p u) as [[q| |] u1] eqn:E1; try discriminate. injection E as <- <-. eapply just_kills_exec; eauto.
  Qed.
End Programs.

(** ** Accessors *)
Lemma push_all {A} (l acc : list A) : fold_left (fun a i => a ++ [i]) l acc = acc ++ l.
Proof. revert acc. induction l as [|x l IH]; intros acc; simpl; [now rewrite app_nil_r|]. rewrite IH, <- app_assoc. reflexivity. Qed.
Lemma pop_agents {T} (p : population T) : pop_get_agents p = individuals p.
Proof. apply push_all. Qed.
Lemma swarm_agents {T} (s : swarm T) : swarm_get_agents s = particles s.
Proof. apply push_all. Qed.
