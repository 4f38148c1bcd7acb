(** * The genetic optimizer: search box, best so far, survivors *)

From Coq Require Import List Arith ZArith Bool Lia Reals Lra.
From Verif Require Import Base Logic FloatModel GaModel GaComponents SpecGa FloatFacts GaBest GaFacts
  GaSafety GaTheorems.
Import ListNotations.

Lemma hoare_mfold_snoc {U E A S} (f : S -> A -> M U E S) l z s
  (I : list E -> U -> Prop) (Q : S -> list E -> U -> Prop) X :
  (forall s x, In x l -> hoare I (f s x) (fun _ => I) X) ->
  (forall s, hoare I (f s z) Q X) ->
  hoare I (mfold f (l ++ [z]) s) Q X.
Proof.
  revert s. induction l as [|x l IH]; intros s H Hz; simpl.
  - eapply hoare_mbind; [apply Hz|]. intros s'. apply (hoare_mret s' Q).
  - eapply hoare_mbind; [apply H; now left|]. intros s'. apply IH; auto.
    intros s0 y Hy. apply H. now right.
Qed.

(** ** Search box (C27) *)
Section Box.
  Context {U T : Type}.
  Variable S : T -> Prop.
  Notation ev := (ga_event T).
  Implicit Types (cfg : ga_config U T).

  Definition boxed (h : list ev) (u : U) : Prop := Forall S (evals h).

  Lemma boxed_emit (e : ev) : (forall x, e <> EEval x) ->
    hoare boxed (emit e) (fun _ => boxed) boxed.
  Proof.
    intros He. eapply hoare_pre; [apply (hoare_emit e (fun _ => boxed))|].
    intros h u H. unfold boxed in *. rewrite evals_app. apply Forall_app. split; auto.
    destruct e; simpl; auto. exfalso. eapply He; eauto.
  Qed.

  Lemma boxed_call {A} (rec : A -> ga_call T) (c : comp U A) (R : A -> Prop) :
    (forall a u u', c u = (Ret a, u') -> R a) ->
    hoare boxed (call_comp rec c) (fun a h u => boxed h u /\ R a) boxed.
  Proof.
    intros Hc. unfold call_comp.
    eapply hoare_mbind with (R := fun a h u => boxed h u /\ R a).
    - apply hoare_call; eauto.
    - intros a. eapply hoare_mbind with (R := fun _ h u => boxed h u /\ R a).
      + intros h u [H1 H2]. simpl. split; auto.
        unfold boxed in *. rewrite evals_app. apply Forall_app. simpl. auto.
      + intros ?x. apply (hoare_mret a (fun a h u => boxed h u /\ R a)).
  Qed.

  Lemma boxed_call' {A} (rec : A -> ga_call T) (c : comp U A) :
    hoare boxed (call_comp rec c) (fun _ => boxed) boxed.
  Proof.
    eapply hoare_conseq; [apply (boxed_call rec c (fun _ => True))|..]; auto. intros a h u [H _]. auto.
  Qed.

  Lemma boxed_append cfg p xs : Forall S xs ->
    hoare boxed (pop_append cfg p xs) (fun _ => boxed) boxed.
  Proof.
    intros HS. unfold pop_append. apply (hoare_mfold _ _ (fun _ => boxed)). intros q x Hx.
    rewrite Forall_forall in HS. specialize (HS x Hx).
    unfold pop_push, call_goal. eapply hoare_mbind with (R := fun _ => boxed).
    - eapply hoare_mbind with (R := fun _ => boxed).
      + intros h u H. simpl. unfold boxed in *. rewrite evals_app. apply Forall_app. simpl. auto.
      + intros ?x. eapply hoare_mbind with (R := fun _ => boxed); [apply hoare_call; auto|].
        intros v. eapply hoare_mbind; [apply boxed_emit; discriminate|].
        intros ?x. apply (hoare_mret _ (fun _ => boxed)).
    - intros v. apply (hoare_mret _ (fun _ => boxed)).
  Qed.

  Lemma boxed_loggers cfg k p :
    hoare boxed (call_loggers pop_view k (ga_loggers cfg) p) (fun _ => boxed) boxed.
  Proof.
    unfold call_loggers. apply hoare_mfor. intros [i l] _. eapply hoare_mbind.
    - apply boxed_emit. discriminate.
    - intros ?x. apply hoare_call; auto.
  Qed.

  Lemma boxed_iteration cfg p : stays_in S cfg ->
    hoare boxed (ga_iteration cfg p) (fun _ => boxed) boxed.
  Proof.
    intros [_ [earlier [last [Epb Hlast]]]]. unfold ga_iteration.
    eapply hoare_mbind with (R := fun _ => boxed).
    { unfold run_pairing. eapply hoare_mbind; [apply boxed_emit; discriminate|]. intros ?x.
      eapply hoare_mbind; [apply boxed_call'|]. intros pairs. simpl.
      apply (hoare_mfold _ _ (fun _ => boxed)). intros acc pair _.
      eapply hoare_mbind with (R := fun _ => boxed); [apply hoare_pure; auto|].
      intros fam. eapply hoare_mbind; [apply boxed_call'|]. intros cs.
      apply (hoare_mret _ (fun _ => boxed)). }
    intros cs. eapply hoare_mbind with (R := fun _ => boxed).
    { eapply hoare_conseq; [apply (hoare_mmapM _ cs boxed (fun _ _ => True) boxed)|..]; auto.
      - intros c _. eapply hoare_conseq; [apply boxed_call'|..]; auto.
      - intros a h u [H _]. exact H. }
    intros ms. eapply hoare_mbind with (R := fun born h u => boxed h u /\ Forall S born).
    { rewrite Epb. apply hoare_mfold_snoc.
      - intros s pb _. eapply hoare_mbind; [apply boxed_emit; discriminate|]. intros ?x.
        apply boxed_call'.
      - intros s. eapply hoare_mbind; [apply boxed_emit; discriminate|]. intros ?x.
        apply boxed_call. intros a u u' Ha. eapply Hlast; eauto. }
    intros born. eapply hoare_mbind with (R := fun _ => boxed).
    { intros h u [H1 H2]. apply boxed_append; auto. }
    intros p1. eapply hoare_mbind with (R := fun _ => boxed).
    { apply (hoare_mfold _ _ (fun _ => boxed)). intros q s Hs.
      eapply hoare_mbind; [apply boxed_emit; discriminate|]. intros ?x.
      eapply hoare_mbind; [apply boxed_call'|]. intros l.
      apply (hoare_mret _ (fun _ => boxed)). }
    intros p2. eapply hoare_mbind with (R := fun _ => boxed); [apply hoare_pure; auto|].
    intros p3. cbn zeta. eapply hoare_mbind; [apply boxed_loggers|]. intros ?x.
    apply (hoare_mret _ (fun _ => boxed)).
  Qed.

  Lemma boxed_next cfg fuel p : stays_in S cfg ->
    hoare boxed (ga_next_iterations cfg fuel p) (fun _ => boxed) boxed.
  Proof.
    intros Hs. unfold ga_next_iterations. eapply hoare_mbind; [apply boxed_loggers|]. intros ?x.
    eapply hoare_mbind with (R := fun _ => boxed).
    - revert p. induction fuel as [|fuel IH]; intros p; simpl; [apply hoare_nofuel|].
      eapply hoare_mbind with (R := fun _ => boxed).
      + unfold call_stop. eapply hoare_mbind with (R := fun _ => boxed); [apply hoare_call; auto|].
        intros b. eapply hoare_mbind; [apply boxed_emit; discriminate|].
        intros ?x. apply (hoare_mret _ (fun _ => boxed)).
      + intros [|]; [apply (hoare_mret _ (fun _ => boxed))|].
        eapply hoare_mbind; [apply boxed_iteration; auto|]. intros p'. apply IH.
    - intros p'. eapply hoare_mbind; [apply boxed_loggers|]. intros ?x.
      apply (hoare_mret _ (fun _ => boxed)).
  Qed.

  Lemma boxed_find cfg fuel p : stays_in S cfg ->
    hoare boxed (ga_find_min cfg fuel p) (fun _ => boxed) boxed.
  Proof.
    intros Hs. unfold ga_find_min.
    eapply hoare_mbind; [apply (boxed_call _ _ (Forall S)); destruct Hs as [Hs _]; intros; eapply Hs; eauto|]. intros xs. simpl.
    eapply hoare_mbind with (R := fun _ => boxed).
    { intros h u [H1 H2]. apply boxed_append; auto. }
    intros p1. eapply hoare_mbind; [apply boxed_loggers|]. intros ?x. now apply boxed_next.
  Qed.

  Lemma valued_inside (h : list ev) p :
    (forall x v, evaluated h x v -> In x (evals h)) -> Forall S (evals h) ->
    population_valued h p -> inside S p.
  Proof.
    intros He HS [H1 [H2 H3]] i Hi. rewrite Forall_forall in HS. apply HS.
    apply (He _ (fitness i)). destruct Hi as [Hi|[Hi|Hi]]; auto.
    - now apply H1.
    - now apply H2.
    - now apply H3.
  Qed.

  (** Everything shown along a trace is inside. *)
  Lemma seen_inside (t : list ev) : seen_ok t -> Forall S (evals t) ->
    forall e p, In e t -> shows e = Some p -> inside S p.
  Proof.
    intros [Ho [_ He]] HS e p Hin Hp. apply in_split in Hin. destruct Hin as [t1 [t2 ->]].
    pose proof (Ho t1 e t2 p eq_refl Hp) as [H1 [H2 H3]].
    rewrite Forall_forall in HS.
    assert (G : forall i, own_value t1 i -> S (chromosomes i)).
    { intros i Hi. apply HS. apply (He _ (fitness i)). unfold own_value, evaluated in *.
      apply in_or_app. auto. }
    intros i [Hi|[Hi|Hi]]; apply G; auto.
  Qed.

  Lemma reach_boxed (ok : ga_config U T -> Prop) p h :
    (forall cfg, ok cfg -> stays_in S cfg) -> ga_reach ok p h -> Forall S (evals h).
  Proof.
    intros Hok. induction 1 as [|cfg fuel u p h r p' u' t Hc Hr IH H|cfg fuel u p h r p' u' t Hc Hr IH H].
    - constructor.
    - apply (hoare_any _ _ boxed [] u _ u' t (boxed_find cfg fuel p (Hok _ Hc))) in H; auto.
      constructor.
    - apply (hoare_any _ _ boxed h u _ u' t (boxed_next cfg fuel p (Hok _ Hc))) in H; auto.
  Qed.
End Box.

(** ** Best so far (C09) *)
Section BestSoFar.
  Context {U T : Type}.
  Notation ev := (ga_event T).
  Implicit Types (cfg : ga_config U T) (h : list ev) (p : population T).

  Lemma leb_trans {prec emax} (a b c : bfloat prec emax) :
    leb a b = true -> leb b c = true -> leb a c = true.
  Proof.
    intros H1 H2. apply leb_key in H1, H2. apply leb_key.
    destruct H1 as [? [? ?]], H2 as [? [? ?]]. repeat split; auto. lra.
  Qed.

  Lemma leb_refl_finite {prec emax} (a : bfloat prec emax) :
    is_finite a = true -> leb a a = true.
  Proof. intros H. apply finite_not_nan in H. apply leb_key. repeat split; auto. lra. Qed.

  (** Some live individual is at least as good as every finite value so far. *)
  Definition covered p h : Prop :=
    forall x v, evaluated h x v -> is_finite v = true ->
      exists i, In i (individuals p) /\ alive i = true /\ is_finite (fitness i) = true /\
                leb (fitness i) v = true.
  Definition best_covers p h : Prop :=
    forall x v, evaluated h x v -> is_finite v = true ->
      exists b, best_individual p = Some b /\ leb (fitness b) v = true.

  Lemma evaluated_snoc h e x v : (forall x v, e <> EValue x v) -> evaluated (h ++ [e]) x v -> evaluated h x v.
  Proof.
    intros He H. apply in_app_or in H. destruct H as [H|[->|[]]]; auto. exfalso. eapply He; eauto.
  Qed.

  Definition bsf_trace h (u : U) : Prop := best_so_far h.
  Definition bsf_pop p h (u : U) : Prop := best_so_far h /\ covered p h.
  Definition bsf_rest p h (u : U) : Prop :=
    best_so_far h /\ covered p h /\ (iteration p > 0 -> best_covers p h).

  Lemma bsf_snoc h e : best_so_far h ->
    (forall p, reported [e] p -> iteration p > 0 -> best_covers p h) -> best_so_far (h ++ [e]).
  Proof.
    intros H He t1 e' t2 p E Hr Hp x v Hx Hv. apply snoc_split in E.
    destruct E as [[-> [-> ->]]|[t2' [-> ->]]]; [eapply He; eauto|]. eapply H; eauto.
  Qed.

  Lemma covered_snoc p h e : (forall x v, e <> EValue x v) -> covered p h -> covered p (h ++ [e]).
  Proof. intros He H x v Hx. apply (H x v). eapply evaluated_snoc; eauto. Qed.
  Lemma best_covers_snoc p h e : (forall x v, e <> EValue x v) -> best_covers p h -> best_covers p (h ++ [e]).
  Proof. intros He H x v Hx. apply (H x v). eapply evaluated_snoc; eauto. Qed.

  Definition unreported (e : ev) : Prop :=
    match e with EStop _ _ | ELog _ _ _ => False | _ => True end.
  Lemma unreported_spec e p : unreported e -> ~ reported [e] p.
  Proof. intros He [[b [->|[]]]|[k [i [->|[]]]]]; exact He. Qed.

  Lemma bsf_emit p (e : ev) : unreported e -> (forall x v, e <> EValue x v) ->
    hoare (bsf_pop p) (emit e) (fun _ => bsf_pop p) bsf_trace.
  Proof.
    intros H1 H2. eapply hoare_pre; [apply (hoare_emit e (fun _ => bsf_pop p))|].
    intros h u [Ha Hb]. split.
    - apply bsf_snoc; auto. intros q Hq. exfalso. eapply unreported_spec; eauto.
    - now apply covered_snoc.
  Qed.

  Lemma bsf_call {A} p (rec : A -> ga_call T) (c : comp U A) :
    hoare (bsf_pop p) (call_comp rec c)
      (fun a h u => bsf_pop p h u /\ exists u1 u2, c u1 = (Ret a, u2)) bsf_trace.
  Proof.
    unfold call_comp.
    eapply hoare_mbind with (R := fun a h u => bsf_pop p h u /\ exists u1 u2, c u1 = (Ret a, u2)).
    - apply hoare_call; eauto. intros h u u' [H _] _. exact H.
    - intros a. eapply hoare_mbind with (R := fun _ h u => bsf_pop p h u /\ exists u1 u2, c u1 = (Ret a, u2)).
      + intros h u [H1 H2]. split; auto. apply (bsf_emit p (ECall (rec a)) I); [discriminate|auto].
      + intros ?x. apply (hoare_mret a (fun a h u => bsf_pop p h u /\ exists u1 u2, c u1 = (Ret a, u2))).
  Qed.

  Lemma bsf_call' {A} p (rec : A -> ga_call T) (c : comp U A) :
    hoare (bsf_pop p) (call_comp rec c) (fun _ => bsf_pop p) bsf_trace.
  Proof. eapply hoare_conseq; [apply (bsf_call p)|..]; auto. intros a h u [H _]. exact H. Qed.

  Lemma bsf_append cfg p xs :
    hoare (bsf_pop p) (pop_append cfg p xs) (fun p' => bsf_pop p') bsf_trace.
  Proof.
    unfold pop_append. apply hoare_mfold. clear p. intros p x _.
    unfold pop_push, call_goal.
    eapply hoare_mbind with
      (R := fun v h u => bsf_pop (set_individuals p (individuals p ++ [Individual x v true])) h u).
    - eapply hoare_mbind; [apply (bsf_emit p); simpl; auto; discriminate|]. intros ?x.
      eapply hoare_mbind with (R := fun _ => bsf_pop p).
      { apply hoare_call; auto. intros h u u' [H _] _. exact H. }
      intros v. eapply hoare_mbind.
      + eapply hoare_pre.
        * apply (hoare_emit _ (fun _ h u =>
            bsf_pop (set_individuals p (individuals p ++ [Individual x v true])) h u)).
        * intros h u [H1 H2]. split.
          -- apply bsf_snoc; auto. intros q Hq. exfalso. eapply unreported_spec; eauto. exact I.
          -- intros y w Hy Hw. simpl. apply in_app_or in Hy. destruct Hy as [Hy|[Hy|[]]].
             ++ destruct (H2 y w Hy Hw) as [i [Hi Hr]]. exists i. split; auto. apply in_or_app. auto.
             ++ inversion Hy; subst. eexists. split; [apply in_or_app; right; left; reflexivity|].
                simpl. repeat split; auto. now apply leb_refl_finite.
      + intros ?x. apply (hoare_mret v (fun v h u =>
          bsf_pop (set_individuals p (individuals p ++ [Individual x v true])) h u)).
    - intros v. apply (hoare_mret _ (fun p' => bsf_pop p')).
  Qed.

  Lemma bsf_loggers cfg k p :
    hoare (bsf_rest p) (call_loggers pop_view k (ga_loggers cfg) p) (fun _ => bsf_rest p) bsf_trace.
  Proof.
    unfold call_loggers. apply hoare_mfor. intros [i l] _. eapply hoare_mbind.
    - eapply hoare_pre; [apply (hoare_emit _ (fun _ => bsf_rest p))|].
      intros h u [H1 [H2 H3]]. split; [|split].
      + apply bsf_snoc; auto. intros q [[b [E|[]]]|[k' [j [E|[]]]]]; inversion E; subst; auto.
      + apply covered_snoc; auto. discriminate.
      + intros Hp. apply best_covers_snoc; auto. discriminate.
    - intros ?x. apply hoare_call; auto. intros h u u' [H _] _. exact H.
  Qed.

  Lemma bsf_selection q s : keeps_best s ->
    hoare (bsf_pop q) (emit (ESee q) ;;;
                      l <- call_comp (CSelect q) (s q) ;;
                      mret (set_individuals q l)) (fun q' => bsf_pop q') bsf_trace.
  Proof.
    intros Hs. eapply hoare_mbind; [apply (bsf_emit q); simpl; auto; discriminate|]. intros ?x.
    eapply hoare_mbind; [apply bsf_call|]. intros l.
    eapply hoare_pre; [apply (hoare_mret _ (fun q' => bsf_pop q'))|].
    intros h u [[H1 H2] [u1 [u2 Hc]]]. split; auto. intros x0 v Hx Hv.
    destruct (H2 x0 v Hx Hv) as [i [Hi [Ha [Hf Hl]]]].
    destruct (Hs _ _ _ _ Hc i Hi Ha Hf) as [j [Hj [Hja [Hjf Hjl]]]].
    exists j. simpl. repeat split; auto. eapply leb_trans; eauto.
  Qed.

  Lemma covers_update p p' h : update_best_worst p = Ret p' -> covered p h ->
    covered p' h /\ best_covers p' h.
  Proof.
    intros H Hc. destruct (update_best_worst_spec p) as [q [E [Hi [Hit He]]]].
    rewrite H in E. inversion E; subst q. split.
    - intros x v Hx Hv. rewrite Hi. eapply Hc; eauto.
    - intros x v Hx Hv. destruct (Hc x v Hx Hv) as [i [Hin [Ha [Hf Hl]]]]. rewrite <- Hi in Hin.
      unfold extremes in He. destruct (individuals p') as [|j l]; [contradiction|].
      destruct He as [[b [Eb [k [_ [Hb _]]]]] _]. exists b. split; auto.
      destruct (Hb i Hin) as [Hn|[_ Hle]].
      + apply finite_not_nan in Hf. congruence.
      + eapply leb_trans; eauto.
  Qed.

  Lemma bsf_iteration cfg p : Forall keeps_best (ga_selections cfg) ->
    hoare (bsf_rest p) (ga_iteration cfg p) (fun p' => bsf_rest p') bsf_trace.
  Proof.
    intros legal. unfold ga_iteration.
    eapply hoare_mbind with (R := fun _ => bsf_pop p).
    { unfold run_pairing. eapply hoare_mbind with (R := fun _ => bsf_pop p).
      { eapply hoare_pre; [apply (bsf_emit p); simpl; auto; discriminate|].
        intros h u [H1 [H2 _]]. split; auto. }
      intros ?x. eapply hoare_mbind; [apply bsf_call'|]. intros pairs. simpl.
      apply (hoare_mfold _ _ (fun _ => bsf_pop p)). intros acc pair _.
      eapply hoare_mbind with (R := fun _ => bsf_pop p).
      { apply hoare_pure; auto. intros h u [H _]. exact H. }
      intros fam. eapply hoare_mbind; [apply bsf_call'|]. intros cs.
      apply (hoare_mret _ (fun _ => bsf_pop p)). }
    intros cs. eapply hoare_mbind with (R := fun _ => bsf_pop p).
    { eapply hoare_conseq; [apply (hoare_mmapM _ cs (bsf_pop p) (fun _ _ => True) bsf_trace)|..]; auto.
      - intros c _. eapply hoare_conseq; [apply (bsf_call' p)|..]; auto.
      - intros a h u [H _]. exact H. }
    intros ms. eapply hoare_mbind with (R := fun _ => bsf_pop p).
    { apply (hoare_mfold _ _ (fun _ => bsf_pop p)). intros s pb _.
      eapply hoare_mbind; [apply (bsf_emit p); simpl; auto; discriminate|]. intros ?x. apply bsf_call'. }
    intros born. eapply hoare_mbind; [apply bsf_append|]. intros p1. simpl.
    eapply hoare_mbind with (R := fun p2 => bsf_pop p2).
    { apply hoare_mfold with (I := fun p2 => bsf_pop p2).
      intros q s Hs. apply bsf_selection. rewrite Forall_forall in legal. auto. }
    intros p2. eapply hoare_mbind with (R := fun p3 => fun h u => bsf_pop p3 h u /\ best_covers p3 h).
    { apply hoare_pure; [|intros h u [H _]; exact H]. intros h u p3 [H1 H2] E.
      destruct (covers_update (remove_dead p2) p3 h E) as [G1 G2].
      - intros x v Hx Hv. destruct (H2 x v Hx Hv) as [i [Hi [Ha Hr]]]. exists i. split; auto.
        simpl. apply filter_In. auto.
      - split; [split|]; auto. }
    intros p3. cbn zeta. eapply hoare_mbind with (R := fun _ => bsf_rest (pop_next_iteration p3)).
    { eapply hoare_pre; [apply bsf_loggers|]. intros h u [[H1 H2] H3]. split; [|split]; auto. }
    intros ?x. apply (hoare_mret _ (fun p' => bsf_rest p')).
  Qed.

  Lemma bsf_next cfg fuel p : Forall keeps_best (ga_selections cfg) ->
    hoare (bsf_rest p) (ga_next_iterations cfg fuel p)
      (fun r h u => bsf_rest (snd r) h u /\ fst r = solution (snd r)) bsf_trace.
  Proof.
    intros legal. unfold ga_next_iterations. eapply hoare_mbind; [apply bsf_loggers|]. intros ?x.
    eapply hoare_mbind with (R := fun p' => bsf_rest p').
    - revert p. induction fuel as [|fuel IH]; intros p; simpl.
      + eapply hoare_pre; [apply hoare_nofuel|]. intros h u [H _]. exact H.
      + eapply hoare_mbind with (R := fun _ => bsf_rest p).
        * unfold call_stop. eapply hoare_mbind with (R := fun _ => bsf_rest p).
          { apply hoare_call; auto. intros h u u' [H _] _. exact H. }
          intros b. eapply hoare_mbind with (R := fun _ => bsf_rest p).
          { eapply hoare_pre; [apply (hoare_emit _ (fun _ => bsf_rest p))|].
            intros h u [H1 [H2 H3]]. split; [|split].
            - apply bsf_snoc; auto. intros q [[b' [E|[]]]|[k' [j [E|[]]]]]; inversion E; subst; auto.
            - apply covered_snoc; auto. discriminate.
            - intros Hp. apply best_covers_snoc; auto. discriminate. }
          intros ?x. apply (hoare_mret _ (fun _ => bsf_rest p)).
        * intros [|]; [apply (hoare_mret p (fun p' => bsf_rest p'))|].
          eapply hoare_mbind; [apply bsf_iteration; auto|]. intros p'. apply IH.
    - intros p'. eapply hoare_mbind; [apply bsf_loggers|]. intros ?x.
      eapply hoare_pre; [apply hoare_mret|]. intros h u H. simpl. auto.
  Qed.

  Lemma bsf_find cfg fuel p : Forall keeps_best (ga_selections cfg) ->
    hoare (fun h _ => h = []) (ga_find_min cfg fuel p)
      (fun r h u => bsf_rest (snd r) h u /\ fst r = solution (snd r)) bsf_trace.
  Proof.
    intros legal. unfold ga_find_min. cbn zeta.
    eapply hoare_mbind with (R := fun _ => bsf_pop (pop_reset p)).
    { eapply hoare_pre; [apply bsf_call'|]. intros h u ->. split.
      - intros [|] ? ? ? E; discriminate.
      - intros x v []. }
    intros xs.
    eapply hoare_mbind with (R := fun p1 h u => bsf_pop p1 h u /\ iteration p1 = 0).
    { intros h u H. pose proof (bsf_append cfg (pop_reset p) xs h u H) as Ha.
      destruct (pop_append cfg (pop_reset p) xs u) as [[[p1| |] u'] t] eqn:Ep; auto.
      split; auto. apply pop_append_ret in Ep. destruct Ep as [vs [_ [-> _]]]. reflexivity. }
    intros p1. eapply hoare_mbind with (R := fun _ => bsf_rest p1).
    { eapply hoare_pre; [apply bsf_loggers|]. intros h u [[H1 H2] H3].
      split; [|split]; auto. intros; lia. }
    intros ?x. now apply bsf_next.
  Qed.

  (** The value returned by [find_min] is the least finite value of the run. *)
  Lemma find_min_least cfg fuel p u x v p' u' t : Forall keeps_best (ga_selections cfg) ->
    ga_find_min cfg fuel p u = (Ret (Some (x, v), p'), u', t) ->
    forall y w, evaluated t y w -> is_finite w = true -> leb v w = true.
  Proof.
    intros Hk H y w Hy Hw.
    pose proof (bsf_find cfg fuel p Hk [] u eq_refl) as G. rewrite H in G. simpl in G.
    destruct G as [[_ [Hc Hb]] Hs].
    assert (Hit : iteration p' > 0).
    { apply ga_find_min_ret in H. destruct H as [_ [xs [vs [gens [t1 [_ [Hg _]]]]]]].
      destruct (generations_iterations _ _ _ _ _ _ _ Hg) as [E _]. simpl in E.
      destruct gens; simpl in E; [|lia]. inversion Hg; subst. discriminate. }
    destruct (Hb Hit y w Hy Hw) as [b [Eb Hl]].
    unfold solution in Hs. rewrite Eb in Hs. inversion Hs; subst. exact Hl.
  Qed.

  (** From one report to a later one the best does not get worse. *)
  Lemma find_min_monotone cfg fuel p u o u' t :
    legal cfg -> Forall keeps_best (ga_selections cfg) ->
    ga_find_min cfg fuel p u = (o, u', t) ->
    forall t1 e1 t2 e2 t3 p1 p2 b1,
      t = t1 ++ e1 :: t2 ++ e2 :: t3 -> reported [e1] p1 -> reported [e2] p2 ->
      best_individual p1 = Some b1 -> is_finite (fitness b1) = true -> iteration p2 > 0 ->
      exists b2, best_individual p2 = Some b2 /\ leb (fitness b2) (fitness b1) = true.
  Proof.
    intros Hl Hk H t1 e1 t2 e2 t3 p1 p2 b1 -> Hr1 Hr2 Eb Hf Hit.
    assert (Hsh : forall e p, reported [e] p -> @shows T (population T) (ga_call T) e = Some p).
    { intros e q [[b [->|[]]]|[k [i [->|[]]]]]; reflexivity. }
    pose proof (bsf_find cfg fuel p Hk [] u eq_refl) as G. rewrite H in G.
    pose proof (ok_find cfg Hl fuel p [] u eq_refl) as G'. rewrite H in G'.
    assert (HB : best_so_far (t1 ++ e1 :: t2 ++ e2 :: t3)).
    { destruct o; [destruct G as [[G _] _]| |]; exact G. }
    assert (HO : observations_valued (t1 ++ e1 :: t2 ++ e2 :: t3)).
    { destruct o; [destruct G' as [[G' _] _]| |]; apply G'. }
    destruct (HO t1 e1 _ p1 eq_refl (Hsh _ _ Hr1)) as [_ [Hb _]].
    specialize (Hb _ Eb). unfold own_value in Hb.
    eapply (HB (t1 ++ e1 :: t2) e2 t3 p2).
    - rewrite <- app_assoc. reflexivity.
    - auto.
    - auto.
    - apply in_or_app. left. exact Hb.
    - auto.
  Qed.
End BestSoFar.

(** ** Survivors (C07) *)
Section Survivors.
  Context {U T : Type}.
  Implicit Types (cfg : ga_config U T) (p : population T).

  Lemma killed_refl (l : list (individual T)) : Forall2 killed_from l l.
  Proof. induction l; constructor; auto. unfold killed_from. auto. Qed.

  Lemma killed_trans (l1 l2 l3 : list (individual T)) :
    Forall2 killed_from l1 l2 -> Forall2 killed_from l2 l3 -> Forall2 killed_from l1 l3.
  Proof.
    intros H. revert l3. induction H; intros l3 H3; inversion H3; subst; constructor; auto.
    destruct H as [E1 [E2 E3]], H4 as [F1 [F2 F3]]. unfold killed_from. intuition congruence.
  Qed.

  Lemma selections_killed cfg p n l t l' : Forall selection_kills (ga_selections cfg) ->
    selections p n l t l' -> Forall (genuine cfg) t -> Forall2 killed_from l l'.
  Proof.
    intros Hk. induction 1 as [l|n l l1 l2 t q El _ _ _ H IH]; intros Hg.
    - apply killed_refl.
    - inversion Hg as [|? ? _ Hg']; subst. inversion Hg' as [|? ? Hs Hg'']; subst.
      eapply killed_trans; [|apply IH; auto].
      simpl in Hs. destruct Hs as [s [u [u' [Hin Hs]]]]. rewrite Forall_forall in Hk.
      eapply Hk; eauto.
  Qed.

  (** The survivors are the members of [l] at the positions still alive in [l']. *)
  Lemma survivors_mask (l l' : list (individual T)) : Forall2 killed_from l l' ->
    filter (fun i => alive i) l' =
    map fst (filter (fun ij => alive (snd ij)) (combine l l')).
  Proof.
    induction 1 as [|i j l l' [E1 [E2 E3]] H IH]; simpl; auto.
    destruct (alive j) eqn:Ej; simpl; rewrite IH; auto. f_equal.
    destruct i, j; simpl in *. rewrite E1, E2, E3; auto. congruence.
  Qed.

  Lemma genuine_iteration_trace cfg p u o u' t :
    ga_iteration cfg p u = (o, u', t) -> Forall (genuine cfg) t.
  Proof.
    intros H. apply (hoare_any _ _ (all_genuine cfg) [] u o u' t (genuine_iteration cfg p)); auto.
    constructor.
  Qed.
End Survivors.

Lemma kill_fitness_nan_keeps_best {U T} :
  @keeps_best U T (fun p => cret (kill_fitness_nan p)).
Proof.
  intros p u l u' H i Hi Ha Hf. inversion H; subst. exists i. repeat split; auto.
  - unfold kill_fitness_nan. apply in_map_iff. exists i. rewrite Hf. auto.
  - now apply leb_refl_finite.
Qed.
