(** * What the loggers are told *)

From Coq Require Import List Arith ZArith Bool Lia.
From Verif Require Import Base Logic FloatModel GaModel PsoModel SpecGa SpecPso SpecRun SpecLog
  GaFacts PsoFacts PsoRuns LoopFacts StopProofs RunRel.
Import ListNotations.

Section Told.
  Context {T S X : Type}.
  Notation ev := (event T S X).
  Lemma told_app i (a b : list ev) : told i (a ++ b) = told i a ++ told i b.
  Proof.
    induction a as [|e a IH]; simpl; auto. destruct e; auto. destruct (i0 =? i); auto. simpl. now rewrite IH.
  Qed.
  Lemma told_loggers {U} (view : S -> alg_state T) k (ls : list (logger U T)) s i u a u' t :
    i < length ls -> @call_loggers U T S X view k ls s u = (Ret a, u', t) -> told i t = [(k, s)].
  Proof.
    unfold call_loggers, enumerate.
    assert (G : forall n u a u' (t : list ev),
      mfor (fun il => emit (ELog k (fst il) s) ;;; call (lg_method k (snd il) (view s)))
        (combine (seq n (length ls)) ls) u = (Ret a, u', t) ->
      told i t = if (n <=? i) && (i <? n + length ls) then [(k, s)] else []).
    { clear. induction ls as [|l ls IH]; intros n u a u' t H; simpl in H.
      - minv H. simpl. rewrite Nat.add_0_r. destruct (n <=? i) eqn:E1, (i <? n) eqn:E2; auto.
        apply Nat.leb_le in E1. apply Nat.ltb_lt in E2. lia.
      - minv H. apply IH in H. simpl. rewrite H. simpl. destruct (n =? i) eqn:E.
        + apply Nat.eqb_eq in E. subst. rewrite Nat.leb_refl.
          replace (i <? i + Datatypes.S (length ls)) with true by (symmetry; apply Nat.ltb_lt; lia).
          replace (match i with 0 => false | Datatypes.S m' => i <=? m' end) with false; auto.
          destruct i; auto. symmetry. apply Nat.leb_gt. lia.
        + apply Nat.eqb_neq in E.
          replace (match i with 0 => false | Datatypes.S m' => n <=? m' end) with (n <=? i).
          * replace (n + Datatypes.S (length ls)) with (Datatypes.S (n + length ls)) by lia. reflexivity.
          * destruct i; [destruct n; auto; congruence|].
            destruct (n <=? i) eqn:E2; [apply Nat.leb_le in E2; apply Nat.leb_le; lia|].
            apply Nat.leb_gt in E2. apply Nat.leb_gt. lia. }
    intros Hi H. apply G in H. rewrite H. simpl.
    now replace (i <? length ls) with true by (symmetry; now apply Nat.ltb_lt).
  Qed.
  Lemma consulted_stops (t : list ev) : consulted t = map fst (stops t).
  Proof. induction t as [|[] t IH]; simpl; auto. now rewrite IH. Qed.
End Told.

Section Loop.
  Context {U T S X : Type}.
  Notation ev := (event T S X).
  Variable view : S -> alg_state T.
  Variable step : S -> M U ev S.
  Variable ls : list (logger U T).
  Variable i : nat.
  Hypothesis Hi : i < length ls.
  Hypothesis Hstep : forall s u s' u' t, step s u = (Ret s', u', t) -> told i t = [(LNext, s')] /\ stops t = [].

  Lemma gloop_told stop fuel s u s' u' t :
    gloop view step stop fuel s u = (Ret s', u', t) ->
    exists ms, consulted t = s :: ms /\ told i t = map (pair LNext) ms /\ s' = last ms s.
  Proof.
    revert s u t. induction fuel as [|fuel IH]; intros s u t H; simpl in H; [discriminate|].
    unfold call_stop in H. minv H. destruct a.
    - minv H. exists []. simpl. auto.
    - minv H. match goal with h : step _ _ = _ |- _ => apply Hstep in h; destruct h as [E1 E2] end.
      apply IH in H. destruct H as [ms [A1 [A2 A3]]]. exists (a :: ms). simpl.
      rewrite consulted_stops, stops_app, E2, told_app, E1, A2. simpl.
      rewrite <- consulted_stops, A1. split; auto. split; auto. rewrite A3. destruct ms as [|b ms]; auto.
      clear. revert b. induction ms as [|c ms IHm]; intros b; auto. exact (IHm c).
  Qed.
  Lemma stops_loggers k s u a u' t : @call_loggers U T S X view k ls s u = (Ret a, u', t) -> stops t = [].
  Proof.
    unfold call_loggers. generalize (enumerate ls) as l. intros l. revert u a u' t.
    induction l as [|x l IH]; intros u a u' t H; simpl in H; minv H; simpl; eauto.
  Qed.
  Lemma gnext_told stop fuel s u r s' u' t :
    gnext view step ls stop fuel s u = (Ret (r, s'), u', t) ->
    exists ms, consulted t = s :: ms /\ told i t = resumed s ms /\ s' = last ms s /\ r = as_best (view s').
  Proof.
    unfold gnext. intros H. minv H.
    repeat match goal with h : call_loggers _ _ _ _ _ = _ |- _ =>
      pose proof (stops_loggers _ _ _ _ _ _ h); apply (told_loggers _ _ _ _ _ _ _ _ _ Hi) in h end.
    match goal with h : gloop _ _ _ _ _ _ = _ |- _ => apply gloop_told in h; destruct h as [ms [A1 [A2 A3]]] end.
    exists ms. rewrite consulted_stops in *. rewrite !stops_app, !told_app.
    repeat match goal with h : stops _ = [] |- _ => rewrite h; clear h end.
    repeat match goal with h : told i _ = _ |- _ => rewrite h; clear h end.
    simpl. rewrite app_nil_r. unfold resumed. subst. injection H as <- <-. auto.
  Qed.
  Lemma gfind_told init stop fuel u r s' u' t :
    (forall u s u' t, init u = (Ret s, u', t) -> told i t = [] /\ stops t = []) ->
    gfind view step ls init stop fuel u = (Ret (r, s'), u', t) ->
    exists s ms, consulted t = s :: ms /\ told i t = (LStart, s) :: resumed s ms /\ s' = last ms s /\
      r = as_best (view s').
  Proof.
    intros Hin H. unfold gfind in H. minv H.
    match goal with h : init _ = _ |- _ => apply Hin in h; destruct h as [E1 E2] end.
    match goal with h : call_loggers _ _ _ _ _ = _ |- _ =>
      pose proof (stops_loggers _ _ _ _ _ _ h) as E3; apply (told_loggers _ _ _ _ _ _ _ _ _ Hi) in h end.
    apply gnext_told in H. destruct H as [ms [A1 [A2 [A3 A4]]]].
    exists a, ms. rewrite consulted_stops in *. rewrite !stops_app, !told_app, E1, E2, E3, A2.
    match goal with h : told i _ = [(LStart, _)] |- _ => rewrite h end. simpl. auto.
  Qed.
End Loop.

(** The states the stop checker sees are numbered consecutively. *)
Section Numbered.
  Context {U T S X : Type}.
  Notation ev := (event T S X).
  Variable view : S -> alg_state T.
  Variable step : S -> M U ev S.
  Variable ls : list (logger U T).
  Notation num s := (as_iter (view s)).
  Hypothesis Hstep : forall s u s' u' t, step s u = (Ret s', u', t) -> stops t = [] /\ num s' = num s + 1.
  Definition numbered n (s' : S) (t : list ev) : Prop :=
    n <= num s' /\ map (fun s => num s) (consulted t) = seq n (Datatypes.S (num s' - n)).
  Lemma gloop_numbered stop fuel s u s' u' t :
    gloop view step stop fuel s u = (Ret s', u', t) -> numbered (num s) s' t.
  Proof.
    revert s u t. induction fuel as [|fuel IH]; intros s u t H; simpl in H; [discriminate|].
    unfold call_stop in H. minv H. unfold numbered. rewrite consulted_stops. destruct a.
    - minv H. simpl. split; auto. now rewrite Nat.sub_diag.
    - minv H. match goal with h : step _ _ = _ |- _ => apply Hstep in h; destruct h as [E1 E2] end.
      apply IH in H. destruct H as [A B]. simpl. rewrite stops_app, E1. simpl.
      rewrite consulted_stops in B. rewrite B, E2. split; [lia|].
      replace (num s' - num s) with (Datatypes.S (num s' - (num s + 1))) by lia.
      rewrite Nat.add_1_r. reflexivity.
  Qed.
  Lemma gnext_numbered stop fuel s u r s' u' t :
    gnext view step ls stop fuel s u = (Ret (r, s'), u', t) -> numbered (num s) s' t.
  Proof.
    unfold gnext. intros H. minv H.
    repeat match goal with h : call_loggers _ _ _ _ _ = _ |- _ => apply stops_loggers in h end.
    match goal with h : gloop _ _ _ _ _ _ = _ |- _ => apply gloop_numbered in h; rename h into G1 end.
    injection H as <- <-. unfold numbered in *. rewrite consulted_stops in *. rewrite !stops_app.
    repeat match goal with h : stops _ = [] |- _ => rewrite h; clear h end.
    simpl. rewrite app_nil_r. exact G1.
  Qed.
  Lemma gfind_numbered init stop fuel u r s' u' t :
    (forall u s u' t, init u = (Ret s, u', t) -> stops t = [] /\ num s = 0) ->
    gfind view step ls init stop fuel u = (Ret (r, s'), u', t) -> numbered 0 s' t.
  Proof.
    intros Hin H. unfold gfind in H. minv H.
    match goal with h : init _ = _ |- _ => apply Hin in h; destruct h as [E1 E2] end.
    match goal with h : call_loggers _ _ _ _ _ = _ |- _ => apply stops_loggers in h; rename h into E3 end.
    apply gnext_numbered in H. rewrite E2 in H. unfold numbered in *. rewrite consulted_stops in *.
    rewrite !stops_app, E1, E3. exact H.
  Qed.
End Numbered.

(** ** Both optimizers *)
Section Ga.
  Context {U T : Type}.
  Implicit Types (cfg : ga_config U T) (p : population T).
  Notation bare i := (fun (t : list (ga_event T)) (_ _ : U) => told i t = [] /\ stops t = []).
  Lemma bare_app {S X} (i : nat) (t1 t2 : list (event T S X)) (u u1 u2 : U) :
    (told i t1 = [] /\ stops t1 = []) -> (told i t2 = [] /\ stops t2 = []) ->
    told i (t1 ++ t2) = [] /\ stops (t1 ++ t2) = [].
  Proof. intros [A B] [C D]. now rewrite told_app, stops_app, A, B, C, D. Qed.
  (** Not counting the stop checker. *)
  Definition ga_unstopped cfg := ga_set_stop_checker cfg (fun _ => @cpanic U bool).
  Lemma ga_rel_bare i cfg : ga_rel (bare i) (ga_unstopped cfg).
  Proof.
    unfold ga_rel, ga_unstopped. simpl.
    repeat match goal with |- _ /\ _ => split end; intros; simpl; auto; discriminate.
  Qed.
  Lemma ga_body_bare i cfg p u p' u' t : ga_body cfg p u = (Ret p', u', t) -> told i t = [] /\ stops t = [].
  Proof.
    intros H. change (ga_body cfg p) with (ga_body (ga_unstopped cfg) p) in H.
    eapply (mrel_ga_body (bare i)) in H; auto.
    - intros. eapply bare_app; eauto.
    - apply ga_rel_bare.
  Qed.
  Lemma ga_step_told i cfg p u p' u' t : i < length (ga_loggers cfg) ->
    ga_iteration cfg p u = (Ret p', u', t) -> told i t = [(LNext, p')] /\ stops t = [].
  Proof.
    intros Hi H. rewrite ga_iteration_body in H. minv H.
    match goal with h : ga_body _ _ _ = _ |- _ => apply (ga_body_bare i) in h; destruct h as [E1 E2] end.
    match goal with h : call_loggers _ _ _ _ _ = _ |- _ =>
      pose proof (stops_loggers _ _ _ _ _ _ _ _ h) as E3; apply (told_loggers _ _ _ _ _ _ _ _ _ Hi) in h; rename h into E4 end.
    rewrite !told_app, !stops_app, E1, E2, E3, E4. auto.
  Qed.
  Lemma ga_init_bare i cfg p u p' u' t : ga_init cfg p u = (Ret p', u', t) -> told i t = [] /\ stops t = [].
  Proof.
    intros H. change (ga_init cfg p) with (ga_init (ga_unstopped cfg) p) in H.
    eapply (mrel_ga_init (bare i)) in H; auto.
    - intros. eapply bare_app; eauto.
    - apply ga_rel_bare.
  Qed.

  Theorem ga_next_told i cfg fuel p u r p' u' t : i < length (ga_loggers cfg) ->
    ga_next_iterations cfg fuel p u = (Ret (r, p'), u', t) ->
    exists ms, consulted t = p :: ms /\ told i t = resumed p ms /\ p' = last ms p /\ r = as_best (pop_view p').
  Proof.
    intros Hi H. rewrite ga_next_gnext in H. eapply gnext_told in H; eauto.
    intros. eapply ga_step_told; eauto.
  Qed.
  Theorem ga_find_told i cfg fuel p u r p' u' t : i < length (ga_loggers cfg) ->
    ga_find_min cfg fuel p u = (Ret (r, p'), u', t) ->
    exists q ms, consulted t = q :: ms /\ told i t = (LStart, q) :: resumed q ms /\ p' = last ms q /\
      r = as_best (pop_view p').
  Proof.
    intros Hi H. rewrite ga_find_gfind in H. eapply gfind_told in H; eauto.
    - intros. eapply ga_step_told; eauto.
    - intros. eapply ga_init_bare; eauto.
  Qed.

  Theorem ga_next_numbered cfg fuel p u r p' u' t : ga_next_iterations cfg fuel p u = (Ret (r, p'), u', t) ->
    iteration p <= iteration p' /\
    map (fun q => iteration q) (consulted t) = seq (iteration p) (Datatypes.S (iteration p' - iteration p)).
  Proof.
    intros H. rewrite ga_next_gnext in H. apply gnext_numbered in H; auto.
    intros. split; [eapply ga_step_silent|eapply ga_step_num]; eauto.
  Qed.
  Theorem ga_find_numbered cfg fuel p u r p' u' t : ga_find_min cfg fuel p u = (Ret (r, p'), u', t) ->
    map (fun q => iteration q) (consulted t) = seq 0 (Datatypes.S (iteration p')).
  Proof.
    intros H. rewrite ga_find_gfind in H. apply gfind_numbered in H.
    - destruct H as [_ H]. now rewrite Nat.sub_0_r in H.
    - intros. split; [eapply ga_step_silent|eapply ga_step_num]; eauto.
    - intros v q v' s E. split; [eapply (ga_init_bare 0); eauto|eapply ga_init_zero; eauto].
  Qed.

  (** *** A logger object goes through exactly the calls it is told *)
  Lemma fed_app {G} (l : logger G T) a b g1 g2 g3 : fed l a g1 g2 -> fed l b g2 g3 -> fed l (a ++ b) g1 g3.
  Proof. induction 1; intros; simpl; auto. econstructor; eauto. Qed.
  Lemma attached_method {G} (L : lens U G) (l : logger G T) k s u u' : lens_ok L ->
    lg_method k (attached L l) s u = (Ret tt, u') -> lg_method k l s (lget L u) = (Ret tt, lget L u').
  Proof.
    intros HL. destruct k; simpl; unfold zoom;
      match goal with |- (let (_, _) := ?c in _) = _ -> _ => destruct c as [o g] eqn:E end;
      intros H; inversion H; subst; now rewrite (lens_get_put L HL).
  Qed.
  Notation following i L l := (fun (t : list (ga_event T)) u u' =>
    fed l (map (fun ks => (fst ks, pop_view (snd ks))) (told i t)) (lget L u) (lget L u')).
  Lemma keeps_ret {G A} (get : U -> G) (c : comp U A) u a u' : keeps get c -> c u = (Ret a, u') -> get u' = get u.
  Proof. intros H E. specialize (H u). now rewrite E in H. Qed.
  Lemma ga_rel_follow {G} i (L : lens U G) (l : logger G T) cfg : lens_ok L ->
    nth_error (ga_loggers cfg) i = Some (attached L l) -> ga_others_keep i (lget L) cfg ->
    ga_rel (following i L l) cfg /\ ga_logs (following i L l) cfg.
  Proof.
    intros HL Hl H. pose proof H as [Hg [Hst [Hc [Hp [Hx [Hm [Hs [Hb Ho]]]]]]]]. split.
    - unfold ga_rel. repeat match goal with |- _ /\ _ => split end; intros; simpl;
        try (match goal with h : ?c ?u = (Ret _, ?u') |- _ =>
          replace (lget L u') with (lget L u) by (symmetry; eapply (keeps_ret (lget L)); [|exact h]; eauto) end); constructor.
    - intros k j l0 p u u' Hn E. simpl. destruct (j =? i) eqn:Ej; simpl.
      + apply Nat.eqb_eq in Ej. subst. rewrite Hl in Hn. injection Hn as <-.
        apply attached_method in E; auto. econstructor; [exact E|constructor].
      + apply Nat.eqb_neq in Ej. replace (lget L u') with (lget L u); [constructor|].
        symmetry. eapply (keeps_ret (lget L)); [|exact E]. eauto.
  Qed.
  Lemma follow_app {G} i (L : lens U G) (l : logger G T) t1 t2 u u1 u2 :
    following i L l t1 u u1 -> following i L l t2 u1 u2 -> following i L l (t1 ++ t2) u u2.
  Proof. intros A B. cbv beta in *. rewrite told_app, map_app. eapply fed_app; eauto. Qed.

  Theorem ga_next_fed {G} i (L : lens U G) (l : logger G T) cfg fuel p u r p' u' t : lens_ok L ->
    nth_error (ga_loggers cfg) i = Some (attached L l) -> ga_others_keep i (lget L) cfg ->
    ga_next_iterations cfg fuel p u = (Ret (r, p'), u', t) ->
    fed l (map (fun ks => (fst ks, pop_view (snd ks))) (told i t)) (lget L u) (lget L u').
  Proof.
    intros HL Hl H E. destruct (ga_rel_follow i L l cfg HL Hl H) as [R1 R2].
    eapply (mrel_ga_next (following i L l)); eauto; [intros; constructor|].
    intros. eapply follow_app; eauto.
  Qed.
  Theorem ga_find_fed {G} i (L : lens U G) (l : logger G T) cfg fuel p u r p' u' t : lens_ok L ->
    nth_error (ga_loggers cfg) i = Some (attached L l) -> ga_others_keep i (lget L) cfg ->
    ga_find_min cfg fuel p u = (Ret (r, p'), u', t) ->
    fed l (map (fun ks => (fst ks, pop_view (snd ks))) (told i t)) (lget L u) (lget L u').
  Proof.
    intros HL Hl H E. destruct (ga_rel_follow i L l cfg HL Hl H) as [R1 R2].
    eapply (mrel_ga_find (following i L l)); eauto; [intros; constructor|].
    intros. eapply follow_app; eauto.
  Qed.
End Ga.

Section Pso.
  Context {U T : Type} {FT : FloatTrait T}.
  Implicit Types (cfg : pso_config U T) (s : swarm T).
  Notation bare i := (fun (t : list (pso_event T)) (_ _ : U) => told i t = [] /\ stops t = []).
  Definition pso_unstopped cfg := pso_set_stop_checker cfg (fun _ => @cpanic U bool).
  Lemma pso_rel_bare i cfg : pso_rel (bare i) (pso_unstopped cfg).
  Proof.
    unfold pso_rel, pso_unstopped. simpl.
    repeat match goal with |- _ /\ _ => split end; intros; simpl; auto; discriminate.
  Qed.
  Lemma pso_body_bare i cfg s u s' u' t : pso_body cfg s u = (Ret s', u', t) -> told i t = [] /\ stops t = [].
  Proof.
    intros H. change (pso_body cfg s) with (pso_body (pso_unstopped cfg) s) in H.
    eapply (mrel_pso_body (bare i)) in H; auto.
    - intros. eapply bare_app; eauto.
    - apply pso_rel_bare.
  Qed.
  Lemma pso_step_told i cfg s u s' u' t : i < length (pso_loggers cfg) ->
    pso_iteration cfg s u = (Ret s', u', t) -> told i t = [(LNext, s')] /\ stops t = [].
  Proof.
    intros Hi H. rewrite pso_iteration_body in H. minv H.
    match goal with h : pso_body _ _ _ = _ |- _ => apply (pso_body_bare i) in h; destruct h as [E1 E2] end.
    match goal with h : call_loggers _ _ _ _ _ = _ |- _ =>
      pose proof (stops_loggers _ _ _ _ _ _ _ _ h) as E3; apply (told_loggers _ _ _ _ _ _ _ _ _ Hi) in h; rename h into E4 end.
    rewrite !told_app, !stops_app, E1, E2, E3, E4. auto.
  Qed.
  Lemma pso_init_bare i cfg s u s' u' t : renew_swarm cfg s u = (Ret s', u', t) -> told i t = [] /\ stops t = [].
  Proof.
    intros H. change (renew_swarm cfg s) with (renew_swarm (pso_unstopped cfg) s) in H.
    eapply (mrel_pso_init (bare i)) in H; auto.
    - intros. eapply bare_app; eauto.
    - apply pso_rel_bare.
  Qed.
  Theorem pso_next_told i cfg fuel s u r s' u' t : i < length (pso_loggers cfg) ->
    pso_next_iterations cfg fuel s u = (Ret (r, s'), u', t) ->
    exists ms, consulted t = s :: ms /\ told i t = resumed s ms /\ s' = last ms s /\ r = as_best (swarm_view s').
  Proof.
    intros Hi H. rewrite pso_next_gnext in H. eapply gnext_told in H; eauto.
    intros. eapply pso_step_told; eauto.
  Qed.
  Theorem pso_find_told i cfg fuel s u r s' u' t : i < length (pso_loggers cfg) ->
    pso_find_min cfg fuel s u = (Ret (r, s'), u', t) ->
    exists q ms, consulted t = q :: ms /\ told i t = (LStart, q) :: resumed q ms /\ s' = last ms q /\
      r = as_best (swarm_view s').
  Proof.
    intros Hi H. rewrite pso_find_gfind in H. eapply gfind_told in H; eauto.
    - intros. eapply pso_step_told; eauto.
    - intros. eapply pso_init_bare; eauto.
  Qed.

  Theorem pso_next_numbered cfg fuel s u r s' u' t : pso_next_iterations cfg fuel s u = (Ret (r, s'), u', t) ->
    sw_iteration s <= sw_iteration s' /\
    map (fun q => sw_iteration q) (consulted t) = seq (sw_iteration s) (Datatypes.S (sw_iteration s' - sw_iteration s)).
  Proof.
    intros H. rewrite pso_next_gnext in H. apply gnext_numbered in H; auto.
    intros. split; [eapply pso_step_silent|eapply pso_step_num]; eauto.
  Qed.
  Theorem pso_find_numbered cfg fuel s u r s' u' t : pso_find_min cfg fuel s u = (Ret (r, s'), u', t) ->
    map (fun q => sw_iteration q) (consulted t) = seq 0 (Datatypes.S (sw_iteration s')).
  Proof.
    intros H. rewrite pso_find_gfind in H. apply gfind_numbered in H.
    - destruct H as [_ H]. now rewrite Nat.sub_0_r in H.
    - intros. split; [eapply pso_step_silent|eapply pso_step_num]; eauto.
    - intros v q v' t0 E. split; [eapply (pso_init_bare 0); eauto|eapply pso_init_zero; eauto].
  Qed.

  Notation following i L l := (fun (t : list (pso_event T)) u u' =>
    fed l (map (fun ks => (fst ks, swarm_view (snd ks))) (told i t)) (lget L u) (lget L u')).
  Lemma pso_rel_follow {G} i (L : lens U G) (l : logger G (list T)) cfg : lens_ok L ->
    nth_error (pso_loggers cfg) i = Some (attached L l) -> pso_others_keep i (lget L) cfg ->
    pso_rel (following i L l) cfg /\ pso_logs (following i L l) cfg.
  Proof.
    intros HL Hl H. pose proof H as [Hg [Hst [Hc [Hv [Hk [Hpv [Hpm Ho]]]]]]]. split.
    - unfold pso_rel. repeat match goal with |- _ /\ _ => split end; intros; simpl;
        try (match goal with h : ?c ?u = (Ret _, ?u') |- _ =>
          replace (lget L u') with (lget L u) by (symmetry; eapply (keeps_ret (lget L)); [|exact h]; eauto) end); constructor.
    - intros k j l0 p u u' Hn E. simpl. destruct (j =? i) eqn:Ej; simpl.
      + apply Nat.eqb_eq in Ej. subst. rewrite Hl in Hn. injection Hn as <-.
        apply attached_method in E; auto. econstructor; [exact E|constructor].
      + apply Nat.eqb_neq in Ej. replace (lget L u') with (lget L u); [constructor|].
        symmetry. eapply (keeps_ret (lget L)); [|exact E]. eauto.
  Qed.
  Lemma pso_follow_app {G} i (L : lens U G) (l : logger G (list T)) t1 t2 u u1 u2 :
    following i L l t1 u u1 -> following i L l t2 u1 u2 -> following i L l (t1 ++ t2) u u2.
  Proof. intros A B. cbv beta in *. rewrite told_app, map_app. eapply fed_app; eauto. Qed.
  Theorem pso_next_fed {G} i (L : lens U G) (l : logger G (list T)) cfg fuel s u r s' u' t : lens_ok L ->
    nth_error (pso_loggers cfg) i = Some (attached L l) -> pso_others_keep i (lget L) cfg ->
    pso_next_iterations cfg fuel s u = (Ret (r, s'), u', t) ->
    fed l (map (fun ks => (fst ks, swarm_view (snd ks))) (told i t)) (lget L u) (lget L u').
  Proof.
    intros HL Hl H E. destruct (pso_rel_follow i L l cfg HL Hl H) as [R1 R2].
    eapply (mrel_pso_next (following i L l)); eauto; [intros; constructor|].
    intros. eapply pso_follow_app; eauto.
  Qed.
  Theorem pso_find_fed {G} i (L : lens U G) (l : logger G (list T)) cfg fuel s u r s' u' t : lens_ok L ->
    nth_error (pso_loggers cfg) i = Some (attached L l) -> pso_others_keep i (lget L) cfg ->
    pso_find_min cfg fuel s u = (Ret (r, s'), u', t) ->
    fed l (map (fun ks => (fst ks, swarm_view (snd ks))) (told i t)) (lget L u) (lget L u').
  Proof.
    intros HL Hl H E. destruct (pso_rel_follow i L l cfg HL Hl H) as [R1 R2].
    eapply (mrel_pso_find (following i L l)); eauto; [intros; constructor|].
    intros. eapply pso_follow_app; eauto.
  Qed.
End Pso.
