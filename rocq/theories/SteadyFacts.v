(** * Runs while a condition on the world holds: proofs *)

From Coq Require Import List Arith ZArith Bool Lia.
From Verif Require Import Base Logic FloatModel Rng GaModel SpecGa SpecClosed SpecSteady GaBest GaFacts GaMore ClosedFacts.
Import ListNotations.

Section While.
  Context {U T : Type}.
  Variable cfg : ga_config U T.
  Variable K : U -> Prop.
  Variable S : T -> Prop.
  Hypothesis HK : all_steady K cfg.
  Hypothesis HC : closed_while K S cfg.
  Notation ev := (ga_event T).
  Implicit Types (h t : list ev) (p : population T) (u : U).

  Notation fine := (fine S).
  Definition every h (u : U) : Prop := Forall fine h /\ K u.
  Definition every_at p h (u : U) : Prop := every h u /\ inside S p.

  Lemma c_emit e : fine e -> hoare every (emit e) (fun _ => every) every.
  Proof. intros He h u [H1 H2]. simpl. split; [apply Forall_app; auto|exact H2]. Qed.
  Notation fine_see := (fine_see S).
  Notation fine_call := (fine_call S).

  Lemma k_keeps {A} (c : comp U A) u o u' : steady K c -> K u -> c u = (o, u') -> K u'.
  Proof. intros H Hu E. specialize (H u Hu). now rewrite E in H. Qed.
  Lemma k_call {A} (c : comp U A) (R : A -> Prop) : steady K c -> (forall a u u', K u -> c u = (Ret a, u') -> R a) ->
    hoare every (call c) (fun a h u => every h u /\ R a) every.
  Proof.
    intros HS HR. apply hoare_call.
    - intros h u a u' [H1 H2] E. split; [split; [exact H1|exact (k_keeps c u _ u' HS H2 E)]|exact (HR a u u' H2 E)].
    - intros h u u' [H1 H2] E. split; [exact H1|]. destruct E as [E|E]; exact (k_keeps c u _ u' HS H2 E).
  Qed.
  Lemma k_step e h u : fine e -> every h u -> every (h ++ [e]) u.
  Proof. intros He [H1 H2]. split; [|exact H2]. apply Forall_app. split; [exact H1|]. constructor; [exact He|constructor]. Qed.
  Lemma c_call {A} (rec : A -> ga_call T) (c : comp U A) (R : A -> Prop) : steady K c ->
    (forall a u u', K u -> c u = (Ret a, u') -> R a) ->
    hoare every (call_comp rec c) (fun a h u => every h u /\ R a) every.
  Proof.
    intros HS HR. unfold call_comp.
    eapply hoare_mbind with (R := fun a h u => every h u /\ R a); [now apply k_call|].
    intros a. eapply hoare_mbind with (R := fun _ h u => every h u /\ R a).
    - intros h u [H1 H2]. simpl. split; auto. apply k_step; [apply fine_call|exact H1].
    - intros ?x. apply (hoare_mret a (fun a h u => every h u /\ R a)).
  Qed.

  Lemma c_goal x : S x -> hoare every (call_goal (ga_goal cfg) x) (fun _ => every) every.
  Proof.
    intros Hx. unfold call_goal. eapply hoare_mbind; [apply c_emit; split; [exact Hx|intros s E; discriminate E]|].
    intros ?x. eapply hoare_mbind with (R := fun v h u => every h u /\ True).
    - apply k_call; [apply HK|auto].
    - intros v h0 u0 [H0 _]. revert h0 u0 H0.
      match goal with |- forall h u, every h u -> match ?m u with _ => _ end => change (hoare every m (fun _ => every) every) end.
      eapply hoare_mbind with (R := fun _ => every).
      + apply c_emit. split; [exact I|intros s E; discriminate E].
      + intros ?x. apply (hoare_mret v (fun _ => every)).
  Qed.

  Lemma c_append p xs : Forall S xs -> inside S p -> hoare every (pop_append cfg p xs) (fun p' => every_at p') every.
  Proof.
    intros HS W. unfold pop_append. eapply hoare_pre.
    - apply (hoare_mfold _ _ (fun p' => every_at p')). intros q x Hx. rewrite Forall_forall in HS. specialize (HS x Hx).
      unfold pop_push. intros h u [H Wq].
      assert (G : hoare every (v <- call_goal (ga_goal cfg) x ;; mret (set_individuals q (individuals q ++ [Individual x v true])))
        (fun p' => every_at p') every).
      { eapply hoare_mbind; [apply c_goal; exact HS|]. intros v.
        eapply hoare_pre; [apply (hoare_mret _ (fun p' => every_at p'))|]. intros h' u' H'. split; [exact H'|].
        intros i Hi. cbn [set_individuals individuals best_individual worst_individual] in Hi.
        destruct Hi as [Hi|Hi]; [|apply Wq; now right]. apply in_app_or in Hi. destruct Hi as [Hi|[<-|[]]]; [apply Wq; now left|exact HS]. }
      exact (G h u H).
    - intros h u H. split; auto.
  Qed.

  Lemma c_loggers k p : hoare (every_at p) (call_loggers pop_view k (ga_loggers cfg) p) (fun _ => every_at p) every.
  Proof.
    intros h0 u0 [H0 W].
    assert (G : hoare every (call_loggers pop_view k (ga_loggers cfg) p) (fun _ => every) every).
    { unfold call_loggers. apply hoare_mfor. intros [i l] Hil. eapply hoare_mbind.
      - apply c_emit. apply (fine_see p); [exact W|reflexivity].
      - intros ?x. destruct HK as (_ & _ & _ & _ & _ & _ & _ & KL).
        assert (Hl : In l (ga_loggers cfg)) by exact (in_combine_r _ _ _ _ Hil).
        destruct (KL l (pop_view p) Hl) as (S1 & S2 & S3 & S4).
        intros h u H. pose proof (k_call (lg_method k l (pop_view p)) (fun _ => True) ltac:(destruct k; assumption) (fun _ _ _ _ _ => I) h u H) as G.
        cbn [snd]. destruct (call (lg_method k l (pop_view p)) u) as [[[z| |] u'] t]; [apply G|exact G|exact G]. }
    specialize (G h0 u0 H0). destruct (call_loggers _ _ _ _ u0) as [[[z| |] u'] t]; auto. split; auto.
  Qed.

  Lemma family_inside p pair : inside S p -> forall fam, family p pair = Ret fam -> Forall S fam.
  Proof.
    intros W. unfold family. induction pair as [|i pair IH]; intros fam E; cbn [omap] in E; [injection E as <-; constructor|].
    destruct (index (individuals p) i) as [ind| |] eqn:Ei; cbn in E; try discriminate E.
    match type of E with (let! _ := ?o in _) = _ => destruct o as [rest| |] eqn:Er end; cbn in E; try discriminate E.
    injection E as <-. constructor; [|now apply IH]. apply W. left. apply index_ret in Ei. eapply nth_error_In; eauto.
  Qed.

  Lemma c_iteration p : hoare (every_at p) (ga_iteration cfg p) (fun p' => every_at p') every.
  Proof.
    intros h0 u0 [H0 W]. revert h0 u0 H0.
    match goal with |- forall h u, every h u -> match ?m u with _ => _ end =>
      change (hoare every m (fun p' => every_at p') every) end.
    destruct HC as [C1 [C2 [C3 C4]]]. destruct HK as (KG & KS & KP & KC & KM & KB & KE & KL). unfold ga_iteration.
    eapply hoare_mbind with (R := fun cs h u => every h u /\ Forall S cs).
    { unfold run_pairing. eapply hoare_mbind; [apply c_emit; apply (fine_see p); [exact W|reflexivity]|]. intros ?x.
      eapply hoare_mbind; [apply (c_call _ _ (fun _ => True)); [apply KP|auto]|]. intros pairs. simpl.
      eapply hoare_pre.
      - apply (hoare_mfold _ _ (fun cs h u => every h u /\ Forall S cs)). intros acc pair _.
        eapply hoare_mbind with (R := fun fam h u => (every h u /\ Forall S acc) /\ Forall S fam).
        { apply hoare_pure; [|intros h u [H _]; auto]. intros h u fam H E. split; [exact H|].
          exact (family_inside p pair W fam E). }
        intros fam. eapply hoare_mbind with (R := fun kids h u => (every h u /\ Forall S acc) /\ Forall S kids).
        { intros h u [[H Ha] Hf]. pose proof (c_call (CCross fam) (ga_cross cfg fam) (Forall S) (KC fam) (fun a u u' Hu => C1 fam u a u' Hu Hf) h u H) as G.
          destruct (call_comp _ _ u) as [[[z| |] u'] t]; tauto. }
        intros kids. eapply hoare_pre; [apply (hoare_mret _ (fun cs h u => every h u /\ Forall S cs))|].
        intros h u [[H Ha] Hk]. split; [exact H|]. apply Forall_app. auto.
      - intros h u [H _]. split; [exact H|constructor]. }
    intros cs. eapply hoare_mbind with (R := fun ms h u => every h u /\ Forall S ms).
    { intros h u [H Hc]. rewrite Forall_forall in Hc.
      pose proof (hoare_mmapM (fun c => call_comp (CMutate c) (ga_mutation cfg c)) cs every (fun _ y => S y) every
        (fun x Hx => c_call (CMutate x) (ga_mutation cfg x) S (KM x) (fun a u u' Hu => C2 x u a u' Hu (Hc x Hx))) h u H) as G.
      destruct (mmapM _ _ u) as [[[z| |] u'] t]; auto. destruct G as [G1 G2]. split; auto.
      clear - G2. induction G2; constructor; auto. }
    intros ms. eapply hoare_mbind with (R := fun born h u => every h u /\ Forall S born).
    { apply (hoare_mfold _ _ (fun cs h u => every h u /\ Forall S cs)). intros xs pb Hpb h u [H Hx].
      assert (G : hoare every (emit (ESee p) ;;; call_comp (CPreBirth p xs) (pb p xs)) (fun ys h u => every h u /\ Forall S ys) every).
      { eapply hoare_mbind; [apply c_emit; apply (fine_see p); [exact W|reflexivity]|]. intros ?x.
        apply c_call; [now apply KB|]. intros a u1 u' Hu Ha. exact (C3 pb p xs u1 a u' Hpb Hu W Hx Ha). }
      exact (G h u H). }
    intros born. eapply hoare_mbind with (R := fun p1 => every_at p1).
    { intros h u [H1 H2]. now apply c_append. }
    intros p1. eapply hoare_mbind with (R := fun p2 => every_at p2).
    { apply (hoare_mfold _ _ (fun q => every_at q)). intros q s Hs h u [H Wq].
      assert (G : hoare every (emit (ESee q) ;;; l <- call_comp (CSelect q) (s q) ;; mret (set_individuals q l)) (fun q' => every_at q') every).
      { eapply hoare_mbind; [apply c_emit; apply (fine_see q); [exact Wq|reflexivity]|]. intros ?x.
        eapply hoare_mbind; [apply (c_call _ _ (Forall (fun i => S (chromosomes i)))); [now apply KE|]; intros l u1 u' Hu E; exact (C4 s q u1 l u' Hs Hu Wq E)|].
        intros l. eapply hoare_pre; [apply (hoare_mret _ (fun q' => every_at q'))|]. intros h1 u1 [H1 Hl]. split; [exact H1|].
        intros i Hi. cbn [set_individuals individuals best_individual worst_individual] in Hi.
        destruct Hi as [Hi|Hi]; [|apply Wq; now right]. rewrite Forall_forall in Hl. now apply Hl. }
      exact (G h u H). }
    intros p2. eapply hoare_mbind with (R := fun p3 => every_at p3).
    { apply hoare_pure; [|intros h u [H _]; auto]. intros h u p3 [H W2] E. split; [exact H|].
      destruct (update_best_worst_spec (remove_dead p2)) as [q [Eq [Ei [_ Ex]]]]. rewrite E in Eq. injection Eq as <-.
      assert (A : forall i, In i (filter alive (individuals p2)) -> S (chromosomes i)) by (intros i Hi; apply filter_In in Hi; apply W2; left; apply Hi).
      intros i Hi. unfold extremes in Ex. change (individuals (remove_dead p2)) with (filter alive (individuals p2)) in Ei.
      rewrite Ei in *. destruct Hi as [Hi|Hi]; [now apply A|].
      destruct (filter alive (individuals p2)) as [|i0 l0].
      - destruct Ex as [E1 E2]. rewrite E1, E2 in Hi. apply W2. right. exact Hi.
      - destruct Ex as [[b [Eb [kb [Kb _]]]] [w [Ew [kw [Kw _]]]]]. apply nth_error_In in Kb, Kw.
        destruct Hi as [Hi|Hi]; [rewrite Eb in Hi|rewrite Ew in Hi]; injection Hi as <-; now apply A. }
    intros p3. cbn zeta. eapply hoare_mbind with (R := fun _ => every_at (pop_next_iteration p3)).
    { intros h u [H W3]. apply c_loggers. split; [exact H|exact W3]. }
    intros ?x. apply (hoare_mret _ (fun p' => every_at p')).
  Qed.

  Lemma c_next fuel p : hoare (every_at p) (ga_next_iterations cfg fuel p)
    (fun r h u => every_at (snd r) h u /\ forall x v, fst r = Some (x, v) -> S x) every.
  Proof.
    unfold ga_next_iterations. eapply hoare_mbind; [apply c_loggers|]. intros ?x.
    eapply hoare_mbind with (R := fun p' => every_at p').
    - revert p. induction fuel as [|fuel IH]; intros p; simpl.
      + eapply hoare_pre; [apply hoare_nofuel|]. intros h u [H _]. exact H.
      + eapply hoare_mbind with (R := fun _ => every_at p).
        * unfold call_stop. eapply hoare_mbind with (R := fun b => every_at p).
          -- destruct HK as (_ & KS & _). intros h u [H1 H2].
             pose proof (k_call (ga_stop cfg (pop_view p)) (fun _ => True) (KS _) (fun _ _ _ _ _ => I) h u H1) as G.
             unfold call in *. destruct (ga_stop cfg (pop_view p) u) as [[b| |] u']; [|exact G|exact G]. split; [apply G|exact H2].
          -- intros b. eapply hoare_mbind with (R := fun _ => every_at p).
             ++ intros h u [H1 H2]. simpl. split; auto. apply k_step; [apply (fine_see p); [exact H2|reflexivity]|exact H1].
             ++ intros ?x. apply (hoare_mret _ (fun _ => every_at p)).
        * intros [|]; [apply (hoare_mret _ (fun p' => every_at p'))|].
          eapply hoare_mbind; [apply c_iteration|]. intros p'. apply IH.
    - intros p'. eapply hoare_mbind; [apply c_loggers|]. intros ?x.
      eapply hoare_pre; [apply (hoare_mret (_, p') (fun r h u => every_at (snd r) h u /\ forall x v, fst r = Some (x, v) -> S x))|].
      intros h u H. split; [exact H|]. cbn [fst]. intros y v E. destruct (best_individual p') as [b|] eqn:Eb; [|discriminate E].
      injection E as <- _. apply (proj2 H). right. left. exact Eb.
  Qed.

  Lemma while_next fuel p u o u' t : K u -> inside S p -> ga_next_iterations cfg fuel p u = (o, u', t) ->
    lived_in S t /\ K u' /\ forall r p', o = Ret (r, p') -> inside S p' /\ forall x v, r = Some (x, v) -> S x.
  Proof.
    intros Hu W H. pose proof (c_next fuel p [] u (conj (conj (Forall_nil _) Hu) W)) as G. rewrite H in G. cbn [app] in G.
    destruct o as [[r p']| |].
    - destruct G as [[[G1 G0] G2] G3]. split; [now apply every_lived|]. split; [exact G0|]. intros r' p'' E. injection E as <- <-. auto.
    - split; [apply every_lived; exact (proj1 G)|]. split; [exact (proj2 G)|]. intros r p' E. discriminate E.
    - split; [apply every_lived; exact (proj1 G)|]. split; [exact (proj2 G)|]. intros r p' E. discriminate E.
  Qed.

  Lemma while_find fuel p u o u' t xs u1 : ga_creator cfg u = (Ret xs, u1) -> Forall S xs -> K u1 ->
    ga_find_min cfg fuel p u = (o, u', t) ->
    lived_in S t /\ K u' /\ forall r p', o = Ret (r, p') -> inside S p' /\ forall x v, r = Some (x, v) -> S x.
  Proof.
    intros Hc HS Hu H.
    assert (G : hoare (fun h v => Forall fine h /\ v = u) (ga_find_min cfg fuel p)
      (fun r h u => every_at (snd r) h u /\ forall x v, fst r = Some (x, v) -> S x) every).
    { unfold ga_find_min. cbv zeta.
      eapply hoare_mbind with (R := fun xs h u => every h u /\ Forall S xs).
      { intros h v [H0 ->]. unfold call_comp, mbind, call, emit, mret. rewrite Hc. cbn.
        split; [|exact HS]. split; [|exact Hu]. apply Forall_app. split; [exact H0|]. constructor; [apply fine_call|constructor]. }
      intros ys. eapply hoare_mbind with (R := fun p1 => every_at p1).
      { intros h v [H1 H2]. apply c_append; [exact H2| |exact H1].
        intros i [Hi|[Hi|Hi]]; cbn in Hi; [destruct Hi|discriminate Hi|discriminate Hi]. }
      intros p1. eapply hoare_mbind; [apply c_loggers|]. intros ?x. apply c_next. }
    specialize (G [] u (conj (Forall_nil _) eq_refl)). rewrite H in G. cbn [app] in G.
    destruct o as [[r p']| |].
    - destruct G as [[[G1 G0] G2] G3]. split; [now apply every_lived|]. split; [exact G0|]. intros r' p'' E. injection E as <- <-. auto.
    - split; [apply every_lived; exact (proj1 G)|]. split; [exact (proj2 G)|]. intros r p' E. discriminate E.
    - split; [apply every_lived; exact (proj1 G)|]. split; [exact (proj2 G)|]. intros r p' E. discriminate E.
  Qed.
End While.
