(** * Facts about runs of the genetic optimizer *)

From Coq Require Import List Arith ZArith Bool Lia.
From Verif Require Import Base Logic FloatModel GaModel SpecGa GaBest.
Import ListNotations.

(** ** Shared by both optimizers *)
Section Calls.
  Context {U T S X : Type}.

  Lemma call_goal_ret (goal : T -> comp U f64) x u v u' (t : list (event T S X)) :
    call_goal goal x u = (Ret v, u', t) ->
    goal x u = (Ret v, u') /\ t = [EEval x; EValue x v].
  Proof. unfold call_goal. intros H. minv H. auto. Qed.

  Lemma call_stop_ret view (stop : alg_state T -> comp U bool) (s : S) u b u' (t : list (event T S X)) :
    call_stop view stop s u = (Ret b, u', t) ->
    stop (view s) u = (Ret b, u') /\ t = [EStop s b].
  Proof. unfold call_stop. intros H. minv H. auto. Qed.

  Lemma call_comp_ret {A} (rec : A -> X) (c : comp U A) u a u' (t : list (event T S X)) :
    call_comp rec c u = (Ret a, u', t) -> c u = (Ret a, u') /\ t = [ECall (rec a)].
  Proof. unfold call_comp. intros H. minv H. auto. Qed.

  Lemma call_loggers_ret view k (ls : list (logger U T)) (s : S) u r u' (t : list (event T S X)) :
    call_loggers view k ls s u = (Ret r, u', t) -> t = log_events k (length ls) s.
  Proof.
    unfold call_loggers, log_events, enumerate. generalize 0. intros n. revert n u t.
    induction ls as [|l ls IH]; intros n u t H; simpl in *.
    - minv H. reflexivity.
    - minv H. simpl. f_equal. eapply IH; eauto.
  Qed.

  Lemma eval_events_app xs1 xs2 vs1 vs2 : length vs1 = length xs1 ->
    @eval_events T S X (xs1 ++ xs2) (vs1 ++ vs2) = eval_events xs1 vs1 ++ eval_events xs2 vs2.
  Proof.
    unfold eval_events. revert vs1. induction xs1 as [|x xs1 IH]; intros [|v vs1] H; simpl in *;
      try discriminate; auto.
    rewrite IH by lia. reflexivity.
  Qed.
End Calls.

Ltac callinv :=
  repeat match goal with
  | h : call_goal _ _ _ = (Ret _, _, _) |- _ =>
      apply call_goal_ret in h; destruct h as [h ?]; subst
  | h : call_stop _ _ _ _ = (Ret _, _, _) |- _ =>
      apply call_stop_ret in h; destruct h as [h ?]; subst
  | h : call_comp _ _ _ = (Ret _, _, _) |- _ =>
      apply call_comp_ret in h; destruct h as [h ?]; subst
  | h : call_loggers _ _ _ _ _ = (Ret _, _, _) |- _ =>
      apply call_loggers_ret in h; subst
  end.

Lemma newborns_app {T} (xs1 xs2 : list T) vs1 vs2 : length vs1 = length xs1 ->
  newborns (xs1 ++ xs2) (vs1 ++ vs2) = newborns xs1 vs1 ++ newborns xs2 vs2.
Proof.
  unfold newborns. revert vs1. induction xs1 as [|x xs1 IH]; intros [|v vs1] H; simpl in *;
    try discriminate; auto.
  rewrite IH by lia. reflexivity.
Qed.

Section Runs.
  Context {U T : Type}.
  Variable cfg : ga_config U T.
  Notation npre := (length (ga_pre_births cfg)).
  Notation nsel := (length (ga_selections cfg)).
  Notation nlog := (length (ga_loggers cfg)).

  Lemma pop_append_ret p xs u p' u' t :
    pop_append cfg p xs u = (Ret p', u', t) ->
    exists vs, length vs = length xs /\
      p' = set_individuals p (individuals p ++ newborns xs vs) /\ t = eval_events xs vs.
  Proof.
    unfold pop_append. revert p u t.
    induction xs as [|x xs IH]; intros p u t H; simpl in H.
    - minv H. exists []. repeat split. simpl. rewrite app_nil_r. now destruct p'.
    - unfold pop_push in H at 1. minv H.
      callinv.
      apply IH in H. destruct H as [vs [Hl [-> ->]]].
      exists (a0 :: vs). repeat split; simpl; auto.
      unfold set_individuals. simpl. f_equal. rewrite <- app_assoc. reflexivity.
  Qed.

  Lemma family_ret (p : population T) pair fam :
    family p pair = Ret fam <-> is_family p pair fam.
  Proof.
    unfold family, is_family. rewrite omap_ret. split; intros H.
    - eapply Forall2_impl; [|exact H]. intros i x Hx. simpl in Hx.
      apply obind_ret in Hx. destruct Hx as [ind [E1 E2]]. apply index_ret in E1.
      inversion E2; subst. eauto.
    - eapply Forall2_impl; [|exact H]. intros i x [ind [E1 E2]]. simpl.
      apply obind_ret. exists ind. split; [now apply index_ret|]. now subst.
  Qed.

  Lemma run_pairing_ret p u cs u' t :
    run_pairing cfg p u = (Ret cs, u', t) ->
    exists pairs families children,
      Forall2 (is_family p) pairs families /\ length children = length families /\
      cs = concat children /\
      t = [ESee p; ECall (CPairs p pairs)]
          ++ map (fun fc => ECall (CCross (fst fc) (snd fc))) (combine families children).
  Proof.
    unfold run_pairing. intros H. minv H.
    callinv.
    assert (G : forall pairs acc u cs u' t,
      mfold (fun new_chromosomes pair =>
             cross_chromosomes <- pure (family p pair) ;;
             children <- call_comp (CCross cross_chromosomes) (ga_cross cfg cross_chromosomes) ;;
             mret (new_chromosomes ++ children)) pairs acc u = (Ret cs, u', t) ->
      exists families children,
      Forall2 (is_family p) pairs families /\ length children = length families /\
      cs = acc ++ concat children /\
      t = map (fun fc => @ECall T (population T) _ (CCross (fst fc) (snd fc))) (combine families children)).
    { clear. induction pairs as [|pair pairs IH]; intros acc u cs u' t H; simpl in H.
      - minv H. exists [], []. simpl. rewrite app_nil_r. auto.
      - minv H. callinv.
        apply IH in H. destruct H as [fams [chs [Hf [Hl [-> ->]]]]].
        match goal with h : family _ _ = _ |- _ => apply family_ret in h end.
        eexists (_ :: fams), (_ :: chs). simpl. repeat split; eauto.
        rewrite <- app_assoc. reflexivity. }
    apply G in H. destruct H as [fams [chs [Hf [Hl [-> ->]]]]].
    exists a0, fams, chs. auto.
  Qed.

  Lemma mutations_ret cs u ms u' t :
    mmapM (fun c => call_comp (CMutate c) (ga_mutation cfg c)) cs u = (Ret ms, u', t) ->
    length ms = length cs /\
    t = map (fun cm => @ECall T (population T) _ (CMutate (fst cm) (snd cm))) (combine cs ms).
  Proof.
    revert u ms t. induction cs as [|c cs IH]; intros u ms t H; simpl in H.
    - minv H. auto.
    - minv H. callinv.
      apply IH in H1. destruct H1 as [Hl ->]. simpl. rewrite ?app_nil_r. auto.
  Qed.

  Lemma prebirths_ret p (pbs : list (population T -> list T -> comp U (list T))) cs u cs' u' t :
    mfold (fun cs pre_birth =>
             emit (ESee p) ;;;
             call_comp (CPreBirth p cs) (pre_birth p cs)) pbs cs u = (Ret cs', u', t) ->
    @prebirths T p (length pbs) cs t cs'.
  Proof.
    revert cs u t. induction pbs as [|pb pbs IH]; intros cs u t H; simpl in H.
    - minv H. constructor.
    - minv H. callinv. simpl.
      constructor. eapply IH; eauto.
  Qed.

  Lemma selections_ret (sels : list (population T -> comp U (list (individual T)))) q u q' u' t :
    mfold (fun q selection =>
             emit (ESee q) ;;;
             l <- call_comp (CSelect q) (selection q) ;;
             mret (set_individuals q l)) sels q u = (Ret q', u', t) ->
    @selections T q (length sels) (individuals q) t (individuals q') /\
    q' = set_individuals q (individuals q').
  Proof.
    intros H.
    assert (G : forall sels q0 p0 u t,
       best_individual q0 = best_individual p0 -> worst_individual q0 = worst_individual p0 ->
       iteration q0 = iteration p0 ->
       mfold (fun q (selection : population T -> comp U (list (individual T))) =>
             emit (ESee q) ;;;
             l <- call_comp (CSelect q) (selection q) ;;
             mret (set_individuals q l)) sels q0 u = (Ret q', u', t) ->
       @selections T p0 (length sels) (individuals q0) t (individuals q') /\
       q' = set_individuals p0 (individuals q')).
    { clear. induction sels as [|s sels IH]; intros q0 p0 u t E1 E2 E3 H; simpl in H.
      - minv H. split; [constructor|]. destruct q'; unfold set_individuals; simpl in *; congruence.
      - minv H. callinv. simpl.
        apply IH with (p0 := p0) in H; auto. destruct H as [H Hq]. split; auto.
        econstructor; eauto. }
    eapply G; eauto.
  Qed.

  Lemma selections_base (p q : population T) n l t l' :
    best_individual q = best_individual p -> worst_individual q = worst_individual p ->
    iteration q = iteration p -> selections q n l t l' -> selections p n l t l'.
  Proof.
    intros E1 E2 E3 H. induction H; [constructor|]. econstructor; eauto; congruence.
  Qed.

  Lemma extremes_base (p q p' p'' : population T) :
    best_individual q = best_individual p -> worst_individual q = worst_individual p ->
    individuals p'' = individuals p' -> best_individual p'' = best_individual p' ->
    worst_individual p'' = worst_individual p' ->
    extremes q p' -> extremes p p''.
  Proof. unfold extremes. intros -> -> -> -> ->. auto. Qed.

  (** ** One generation *)
  Lemma ga_iteration_ret p u p' u' g :
    ga_iteration cfg p u = (Ret p', u', g) ->
    exists born vals after, generation npre nsel nlog p g p' born vals after.
  Proof.
    unfold ga_iteration. intros H. minv H. rename a0 into mutants.
    apply run_pairing_ret in H0. destruct H0 as [pairs [fams [chs [Hf [Hc [-> ->]]]]]].
    apply mutations_ret in H1. destruct H1 as [Hm ->].
    apply prebirths_ret in H2.
    apply pop_append_ret in H3. destruct H3 as [vals [Hv [-> ->]]].
    apply selections_ret in H4. destruct H4 as [Hs Hq].
    callinv.
    destruct (update_best_worst_spec (remove_dead a3)) as [p3 [E3 [Hi [Hit He]]]].
    rewrite H5 in E3. inversion E3; subst p3.
    exists a1, vals, (individuals a3). econstructor; eauto.
    - eapply selections_base; [..|exact Hs]; reflexivity.
    - simpl. rewrite Hq in Hit. simpl in Hit. congruence.
    - eapply extremes_base; [..|exact He]; try reflexivity; rewrite Hq; reflexivity.
    - rewrite <- !app_assoc. simpl. rewrite ?app_nil_r. reflexivity.
  Qed.

  Lemma ga_loop_ret fuel p u p' u' t :
    ga_loop cfg fuel p u = (Ret p', u', t) ->
    exists gens, generations npre nsel nlog p t p' gens.
  Proof.
    revert p u t. induction fuel as [|fuel IH]; intros p u t H; simpl in H; [discriminate|].
    minv H. callinv.
    destruct a.
    - minv H. exists []. constructor.
    - minv H. match goal with h : ga_iteration _ _ _ = _ |- _ => rename h into Hi end.
      apply ga_iteration_ret in Hi. destruct Hi as [born [vals [after Hg]]].
      apply IH in H. destruct H as [gens H]. exists (combine born vals :: gens).
      simpl. econstructor; eauto.
  Qed.

  (** ** The whole trace of [next_iterations] and [find_min] *)
  Definition solution (p : population T) : option (T * f64) :=
    match best_individual p with
    | None => None
    | Some i => Some (chromosomes i, fitness i)
    end.

  Lemma ga_next_ret fuel p u r p' u' t :
    ga_next_iterations cfg fuel p u = (Ret (r, p'), u', t) ->
    r = solution p' /\
    exists gens t1, generations npre nsel nlog p t1 p' gens /\
      t = log_events LResume nlog p ++ t1 ++ log_events LFinish nlog p'.
  Proof.
    unfold ga_next_iterations. intros H. minv H.
    callinv.
    match goal with h : ga_loop _ _ _ _ = _ |- _ => rename h into Hl end.
    apply ga_loop_ret in Hl. destruct Hl as [gens Hl].
    inversion H; subst. split; auto.
    exists gens. eexists. split; [exact Hl|]. now rewrite app_nil_r.
  Qed.

  Lemma ga_find_min_ret fuel p u r p' u' t :
    ga_find_min cfg fuel p u = (Ret (r, p'), u', t) ->
    r = solution p' /\
    exists xs vs gens t1, length vs = length xs /\
      let p1 := Population (newborns xs vs) None None 0 in
      generations npre nsel nlog p1 t1 p' gens /\
      t = ECall (CCreate xs) :: eval_events xs vs ++ log_events LStart nlog p1
          ++ log_events LResume nlog p1 ++ t1 ++ log_events LFinish nlog p'.
  Proof.
    unfold ga_find_min. intros H. minv H.
    callinv.
    apply pop_append_ret in H1. destruct H1 as [vs [Hv [-> ->]]].
    apply ga_next_ret in H. destruct H as [-> [gens [t1 [Hg ->]]]].
    split; auto. exists a, vs, gens, t1. split; auto.
  Qed.
End Runs.
