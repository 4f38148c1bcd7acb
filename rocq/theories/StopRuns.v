(** * Stop checkers with state, over whole runs *)

From Coq Require Import List Arith ZArith Bool Lia.
From Verif Require Import Base Logic FloatModel GaModel PsoModel StopModel SpecGa SpecPso SpecRun SpecStop
  FloatFacts GaBest GaFacts GaSafety GaTheorems GaMore PsoFacts PsoRuns LoopFacts StopProofs.
Import ListNotations.

(** ** Programs that neither touch a part of the environment nor ask the checker *)
Section Kept.
  Context {U G T S X : Type}.
  Notation ev := (event T S X).
  Variable get : U -> G.
  Definition mkeeps {A} (m : M U ev A) : Prop :=
    forall u, get (snd (fst (m u))) = get u /\ stops (snd (m u)) = [].
  Lemma mkeeps_ret {A} (a : A) : mkeeps (mret a).
  Proof. intros u. auto. Qed.
  Lemma mkeeps_pure {A} (o : outcome A) : mkeeps (pure o).
  Proof. intros u. auto. Qed.
  Lemma mkeeps_emit e : stops [e] = [] -> mkeeps (emit e).
  Proof. intros H u. auto. Qed.
  Lemma mkeeps_call {A} (c : comp U A) : keeps get c -> mkeeps (call c).
  Proof. intros H u. unfold call. specialize (H u). destruct (c u) as [o u1]. auto. Qed.
  Lemma mkeeps_bind {A B} (m : M U ev A) (k : A -> M U ev B) :
    mkeeps m -> (forall a, mkeeps (k a)) -> mkeeps (mbind m k).
  Proof.
    intros Hm Hk u. unfold mbind. specialize (Hm u). destruct (m u) as [[[a| |] u1] t1]; simpl in *; auto.
    specialize (Hk a u1). destruct (k a u1) as [[o u2] t2]. simpl in *. destruct Hm as [E1 S1], Hk as [E2 S2].
    rewrite stops_app, S1, S2. split; auto. congruence.
  Qed.
  Lemma mkeeps_fold {A S'} (f : S' -> A -> M U ev S') l s :
    (forall s x, In x l -> mkeeps (f s x)) -> mkeeps (mfold f l s).
  Proof.
    revert s. induction l as [|x l IH]; intros s H; simpl; [apply mkeeps_ret|].
    apply mkeeps_bind; [apply H; now left|]. intros s'. apply IH. intros. apply H. now right.
  Qed.
  Lemma mkeeps_for {A} (f : A -> M U ev unit) l :
    (forall x, In x l -> mkeeps (f x)) -> mkeeps (mfor f l).
  Proof.
    induction l as [|x l IH]; intros H; simpl; [apply mkeeps_ret|].
    apply mkeeps_bind; [apply H; now left|]. intros _. apply IH. intros. apply H. now right.
  Qed.
  Lemma mkeeps_mapM {A B} (f : A -> M U ev B) l :
    (forall x, In x l -> mkeeps (f x)) -> mkeeps (mmapM f l).
  Proof.
    induction l as [|x l IH]; intros H; simpl; [apply mkeeps_ret|].
    apply mkeeps_bind; [apply H; now left|]. intros y. apply mkeeps_bind; [|intros; apply mkeeps_ret].
    apply IH. intros. apply H. now right.
  Qed.
  Lemma mkeeps_comp {A} (rec : A -> X) (c : comp U A) : keeps get c -> mkeeps (call_comp rec c).
  Proof.
    intros H. unfold call_comp. apply mkeeps_bind; [now apply mkeeps_call|]. intros a.
    apply mkeeps_bind; [now apply mkeeps_emit|]. intros _. apply mkeeps_ret.
  Qed.
  Lemma mkeeps_goal goal x : keeps get (goal x) -> mkeeps (call_goal goal x).
  Proof.
    intros H. unfold call_goal. apply mkeeps_bind; [now apply mkeeps_emit|]. intros _.
    apply mkeeps_bind; [now apply mkeeps_call|]. intros v.
    apply mkeeps_bind; [now apply mkeeps_emit|]. intros _. apply mkeeps_ret.
  Qed.
  Lemma mkeeps_loggers (view : S -> alg_state T) k (ls : list (logger U T)) s :
    (forall l k s, In l ls -> keeps get (lg_method k l s)) -> mkeeps (call_loggers view k ls s).
  Proof.
    intros H. unfold call_loggers. apply mkeeps_for. intros [i l] Hin.
    apply mkeeps_bind; [now apply mkeeps_emit|]. intros _. apply mkeeps_call, H. simpl.
    unfold enumerate in Hin. now apply in_combine_r in Hin.
  Qed.
  Lemma mkeeps_ret_of {A} (m : M U ev A) u a u' t : mkeeps m -> m u = (Ret a, u', t) ->
    get u' = get u /\ stops t = [].
  Proof. intros H E. specialize (H u). now rewrite E in H. Qed.
End Kept.

(** ** The loop *)
Section Loop.
  Context {U G T S X : Type}.
  Notation ev := (event T S X).
  Variable view : S -> alg_state T.
  Variable step : S -> M U ev S.
  Variable ls : list (logger U T).
  Variable l : lens U G.
  Variable stop : alg_state T -> comp G bool.
  Hypothesis Hget : forall g u, lget l (lput l g u) = g.
  Hypothesis Hstep : forall s, mkeeps (lget l) (step s).
  Hypothesis Hls : forall lg k s, In lg ls -> keeps (lget l) (lg_method k lg s).
  Notation num s := (as_iter (view s)).
  Hypothesis step_num : forall s u s' u' t, step s u = (Ret s', u', t) -> num s' = num s + 1.

  Notation consult := (consult view stop).
  Lemma gloop_asked fuel s u s' u' t :
    gloop view step (fun a => zoom l (stop a)) fuel s u = (Ret s', u', t) ->
    consult (num s) t (lget l u) (lget l u').
  Proof.
    unfold consult. revert s u t. induction fuel as [|fuel IH]; intros s u t H; simpl in H; [discriminate|].
    unfold call_stop in H. minv H. callinv.
    match goal with h : zoom _ _ _ = _ |- _ => unfold zoom in h; destruct (stop (view s) (lget l u)) as [o g1] eqn:Es;
      inversion h; subst; clear h end.
    destruct a.
    - minv H. simpl. rewrite Hget. split; auto. econstructor; [exact Es|]. constructor.
    - minv H. match goal with h : step _ _ = _ |- _ => pose proof (step_num _ _ _ _ _ h) as Hn;
        apply (mkeeps_ret_of _ _ _ _ _ _ (Hstep _)) in h; destruct h as [E1 S1] end.
      apply IH in H. rewrite E1, Hget in H. destruct H as [A N]. simpl. rewrite stops_app, S1. simpl. split.
      + econstructor; eauto.
      + rewrite N, Hn. now rewrite Nat.add_1_r.
  Qed.
  Lemma gnext_asked fuel s u r s' u' t :
    gnext view step ls (fun a => zoom l (stop a)) fuel s u = (Ret (r, s'), u', t) ->
    consult (num s) t (lget l u) (lget l u').
  Proof.
    unfold gnext. intros H. minv H.
    repeat match goal with h : call_loggers _ _ _ _ _ = _ |- _ =>
      apply (mkeeps_ret_of (lget l)) in h; [|now apply mkeeps_loggers]; destruct h as [? ?] end.
    match goal with h : gloop _ _ _ _ _ _ = _ |- _ => apply gloop_asked in h; rename h into G1 end.
    minv H. unfold consult in *. rewrite !stops_app in *.
    repeat match goal with h : stops _ = [] |- _ => rewrite h in *; clear h end.
    simpl. rewrite !app_nil_r. repeat match goal with h : lget l _ = lget l _ |- _ => rewrite h in *; clear h end.
    exact G1.
  Qed.
  Lemma gfind_asked init fuel u r s' u' t : mkeeps (lget l) init ->
    (forall u s u' t, init u = (Ret s, u', t) -> num s = 0) ->
    gfind view step ls init (fun a => zoom l (stop a)) fuel u = (Ret (r, s'), u', t) ->
    consult 0 t (lget l u) (lget l u').
  Proof.
    intros Hi Hz H. unfold gfind in H. minv H.
    match goal with h : init _ = _ |- _ => pose proof (Hz _ _ _ _ h) as Z; apply (mkeeps_ret_of (lget l) _ _ _ _ _ Hi) in h; destruct h as [E1 S1] end.
    match goal with h : call_loggers _ _ _ _ _ = _ |- _ =>
      apply (mkeeps_ret_of (lget l)) in h; [|now apply mkeeps_loggers]; destruct h as [E2 S2] end.
    apply gnext_asked in H. unfold consult in *. rewrite !stops_app, S1, S2. simpl.
    rewrite <- E1, <- E2, <- Z. exact H.
  Qed.
End Loop.

Section Ga.
  Context {U T G : Type}.
  Variable get : U -> G.
  Implicit Types (cfg : ga_config U T) (p : population T).
  Lemma ga_keep_append cfg p xs : ga_keeps get cfg -> mkeeps get (pop_append cfg p xs).
  Proof.
    intros [H _]. apply mkeeps_fold. intros q x _. apply mkeeps_bind; [apply mkeeps_goal; auto|].
    intros v. apply mkeeps_ret.
  Qed.
  Lemma ga_keep_init cfg p : ga_keeps get cfg -> mkeeps get (ga_init cfg p).
  Proof.
    intros H. unfold ga_init. apply mkeeps_bind; [apply mkeeps_comp, H|]. intros. now apply ga_keep_append.
  Qed.
  Lemma ga_keep_step cfg p : ga_keeps get cfg -> mkeeps get (ga_iteration cfg p).
  Proof.
    intros H. pose proof H as [Hg [Hc [Hp [Hx [Hm [Hs [Hb Hl]]]]]]]. unfold ga_iteration.
    apply mkeeps_bind.
    { unfold run_pairing. apply mkeeps_bind; [now apply mkeeps_emit|]. intros _.
      apply mkeeps_bind; [apply mkeeps_comp; auto|]. intros pairs. apply mkeeps_fold. intros acc pair _.
      apply mkeeps_bind; [apply mkeeps_pure|]. intros fam.
      apply mkeeps_bind; [apply mkeeps_comp; auto|]. intros cs. apply mkeeps_ret. }
    intros cs. apply mkeeps_bind; [apply mkeeps_mapM; intros c _; apply mkeeps_comp; auto|]. intros ms.
    apply mkeeps_bind.
    { apply mkeeps_fold. intros xs f Hf. apply mkeeps_bind; [now apply mkeeps_emit|]. intros _. apply mkeeps_comp. auto. }
    intros born. apply mkeeps_bind; [now apply ga_keep_append|]. intros p1.
    apply mkeeps_bind.
    { apply mkeeps_fold. intros q f Hf. apply mkeeps_bind; [now apply mkeeps_emit|]. intros _.
      apply mkeeps_bind; [apply mkeeps_comp; auto|]. intros l. apply mkeeps_ret. }
    intros p2. apply mkeeps_bind; [apply mkeeps_pure|].
    intros p3. cbn zeta. apply mkeeps_bind; [apply mkeeps_loggers; auto|]. intros _. apply mkeeps_ret.
  Qed.
End Ga.

Section Pso.
  Context {U T G : Type} {FT : FloatTrait T}.
  Variable get : U -> G.
  Implicit Types (cfg : pso_config U T) (s : swarm T).
  Lemma pso_keep_move cfg x : pso_keeps get cfg -> mkeeps get (run_post_move cfg x).
  Proof.
    intros [_ [_ [_ [_ [_ [H _]]]]]]. unfold run_post_move. apply mkeeps_fold.
    intros y f Hf. apply mkeeps_comp. auto.
  Qed.
  Lemma pso_keep_init cfg s : pso_keeps get cfg -> mkeeps get (renew_swarm cfg s).
  Proof.
    intros H. pose proof H as [Hg [Hc [Hv _]]]. unfold renew_swarm.
    apply mkeeps_bind; [apply mkeeps_comp; auto|]. intros coords.
    apply mkeeps_bind; [apply mkeeps_comp; auto|]. intros vels.
    apply mkeeps_bind; [apply mkeeps_pure|]. intros _.
    apply mkeeps_bind; [apply mkeeps_mapM; intros; now apply pso_keep_move|]. intros coords'.
    apply mkeeps_bind; [apply mkeeps_mapM|intros; apply mkeeps_pure].
    intros cs _. apply mkeeps_bind; [apply mkeeps_goal; auto|]. intros y. apply mkeeps_ret.
  Qed.
  Lemma pso_keep_step cfg s : pso_keeps get cfg -> mkeeps get (pso_iteration cfg s).
  Proof.
    intros H. pose proof H as [Hg [Hc [Hv [Hk [Hpv [Hpm Hl]]]]]]. unfold pso_iteration.
    apply mkeeps_bind.
    { apply mkeeps_fold. intros q n _. unfold pso_particle. apply mkeeps_bind; [apply mkeeps_pure|].
      intros p. apply mkeeps_bind; [now apply mkeeps_emit|]. intros _.
      apply mkeeps_bind; [apply mkeeps_comp; auto|]. intros v0.
      apply mkeeps_bind; [apply mkeeps_fold; intros v f Hf; apply mkeeps_comp; auto|]. intros v. cbn zeta.
      apply mkeeps_bind; [now apply pso_keep_move|]. intros x.
      apply mkeeps_bind; [apply mkeeps_goal; auto|]. intros y.
      apply mkeeps_bind; [apply mkeeps_pure|]. intros ps. apply mkeeps_ret. }
    intros s1. apply mkeeps_bind; [apply mkeeps_pure|]. intros s2. apply mkeeps_bind; [apply mkeeps_pure|].
    intros s3. cbn zeta. apply mkeeps_bind; [apply mkeeps_loggers; auto|]. intros _. apply mkeeps_ret.
  Qed.
End Pso.

(** ** Whole runs with a checker that owns a part of the environment *)
Section Runs.
  Context {U T G : Type}.
  Variable l : lens U G.
  Hypothesis Hl : lens_ok l.

  Lemma ga_asked (cfg : ga_config U T) (stop : alg_state T -> comp G bool) fuel p u r p' u' t :
    ga_keeps (lget l) cfg -> ga_stop cfg = (fun s => zoom l (stop s)) ->
    (ga_find_min cfg fuel p u = (Ret (r, p'), u', t) ->
       consult pop_view stop 0 t (lget l u) (lget l u')) /\
    (ga_next_iterations cfg fuel p u = (Ret (r, p'), u', t) ->
       consult pop_view stop (iteration p) t (lget l u) (lget l u')).
  Proof.
    intros Hk Hs. pose proof (lens_get_put _ Hl) as Hget.
    assert (Hls : forall lg k s, In lg (ga_loggers cfg) -> keeps (lget l) (lg_method k lg s)) by apply Hk.
    split; intros H.
    - rewrite ga_find_gfind, Hs in H. eapply gfind_asked; eauto.
      + intros. now apply ga_keep_step.
      + intros q w q' w' t' E. exact (ga_step_num _ _ _ _ _ _ E).
      + now apply ga_keep_init.
      + intros w q w' t' E. exact (ga_init_zero _ _ _ _ _ _ E).
    - rewrite ga_next_gnext, Hs in H.
      eapply (gnext_asked pop_view (ga_iteration cfg) (ga_loggers cfg) l stop Hget); eauto.
      + intros. now apply ga_keep_step.
      + intros q w q' w' t' E. exact (ga_step_num _ _ _ _ _ _ E).
  Qed.
  Lemma pso_asked (FT : FloatTrait T) (cfg : pso_config U T) (stop : alg_state (list T) -> comp G bool)
      fuel s u r s' u' t :
    pso_keeps (lget l) cfg -> pso_stop cfg = (fun s => zoom l (stop s)) ->
    (pso_find_min cfg fuel s u = (Ret (r, s'), u', t) ->
       consult swarm_view stop 0 t (lget l u) (lget l u')) /\
    (pso_next_iterations cfg fuel s u = (Ret (r, s'), u', t) ->
       consult swarm_view stop (sw_iteration s) t (lget l u) (lget l u')).
  Proof.
    intros Hk Hs. pose proof (lens_get_put _ Hl) as Hget.
    assert (Hls : forall lg k s, In lg (pso_loggers cfg) -> keeps (lget l) (lg_method k lg s)) by apply Hk.
    split; intros H.
    - rewrite pso_find_gfind, Hs in H. eapply gfind_asked; eauto.
      + intros. now apply pso_keep_step.
      + intros q w q' w' t' E. exact (pso_step_num _ _ _ _ _ _ E).
      + now apply pso_keep_init.
      + intros w q w' t' E. exact (pso_init_zero _ _ _ _ _ _ E).
    - rewrite pso_next_gnext, Hs in H.
      eapply (gnext_asked swarm_view (pso_iteration cfg) (pso_loggers cfg) l stop Hget); eauto.
      + intros. now apply pso_keep_step.
      + intros q w q' w' t' E. exact (pso_step_num _ _ _ _ _ _ E).
  Qed.
End Runs.

(** ** GoalNotChange over a whole run (C51) *)
Lemma asked_det {U} (qs : list (comp U bool)) u bs1 u1 bs2 u2 :
  asked qs u bs1 u1 -> asked qs u bs2 u2 -> bs1 = bs2 /\ u1 = u2.
Proof.
  intros H. revert bs2 u2. induction H as [u|q qs u b v bs w Hq _ IH]; intros bs2 u2 H2; inversion H2; subst; auto.
  match goal with h : q u = (Ret ?b0, ?v0) |- _ => rewrite h in Hq; inversion Hq; subst end.
  match goal with h : asked qs _ _ _ |- _ => destruct (IH _ _ h) end. subst. auto.
Qed.
Lemma seq_not_decreasing i n : not_decreasing (seq i n).
Proof.
  revert i. induction n as [|n IH]; intros i; simpl; auto. split; auto.
  apply Forall_forall. intros j Hj. apply in_seq in Hj. lia.
Qed.
Lemma skipn_cons {A} (l : list A) k a : nth_error l k = Some a -> l = firstn k l ++ a :: skipn (S k) l.
Proof.
  revert k. induction l as [|b l IH]; intros [|k] H; simpl in *; try discriminate.
  - now inversion H.
  - now rewrite <- IH.
Qed.
Section GoalNotChange.
  Context {U T S X : Type}.
  Variable np64 : nan_policy 53 1024.
  Variables (dbg : bool) (m : nat) (delta : f64).
  Notation far := (differ np64 delta).
  Variable view : S -> alg_state T.
  Lemma consult_gnc (t : list (event T S X)) g' :
    consult view (goal_not_change np64 dbg m delta) 0 t gnc_new g' -> quiet_answers np64 m delta view t.
  Proof.
    unfold quiet_answers. intros [A N] past s b later E.
    set (ss := map (fun sb => view (fst sb)) (stops t)).
    assert (Hn : not_decreasing (map as_iter ss)).
    { unfold ss. rewrite map_map, N. apply seq_not_decreasing. }
    destruct (gnc_run np64 dbg m delta ss Hn) as [bs [g [A' [L F]]]].
    unfold ss in A'. rewrite map_map in A'. destruct (asked_det _ _ _ _ _ _ A A') as [Eb _].
    specialize (F (length past) (view s) b). unfold gnc_says in F.
    replace (firstn (length past) ss) with (map (fun sb => view (fst sb)) past) in F.
    - apply F.
      + unfold ss. rewrite E, map_app. simpl. rewrite nth_error_app2; rewrite map_length; auto.
        now rewrite Nat.sub_diag.
      + rewrite <- Eb, E, map_app. simpl. rewrite nth_error_app2; rewrite map_length; auto.
        now rewrite Nat.sub_diag.
    - unfold ss. rewrite E, map_app, firstn_app, map_length, Nat.sub_diag. simpl.
      rewrite app_nil_r, <- (map_length (fun sb => view (fst sb)) past), firstn_all. reflexivity.
  Qed.
End GoalNotChange.

Section GncRuns.
  Variable np64 : nan_policy 53 1024.
  Variables (dbg : bool) (m : nat) (delta : f64).
  Lemma ga_goal_not_change U T (l : lens U gnc) (cfg : ga_config U T) fuel p u r p' u' t :
    lens_ok l -> ga_keeps (lget l) cfg ->
    ga_stop cfg = (fun s => zoom l (goal_not_change np64 dbg m delta s)) ->
    lget l u = gnc_new -> ga_find_min cfg fuel p u = (Ret (r, p'), u', t) ->
    quiet_answers np64 m delta pop_view t.
  Proof.
    intros Hl Hk Hs Hu H. apply (ga_asked l Hl cfg _ fuel p u r p' u' t Hk Hs) in H.
    rewrite Hu in H. eapply consult_gnc; eauto.
  Qed.
  Lemma pso_goal_not_change U T (FT : FloatTrait T) (l : lens U gnc) (cfg : pso_config U T) fuel s u r s' u' t :
    lens_ok l -> pso_keeps (lget l) cfg ->
    pso_stop cfg = (fun s => zoom l (goal_not_change np64 dbg m delta s)) ->
    lget l u = gnc_new -> pso_find_min cfg fuel s u = (Ret (r, s'), u', t) ->
    quiet_answers np64 m delta swarm_view t.
  Proof.
    intros Hl Hk Hs Hu H. apply (pso_asked l Hl FT cfg _ fuel s u r s' u' t Hk Hs) in H.
    rewrite Hu in H. eapply consult_gnc; eauto.
  Qed.
End GncRuns.

(** ** Using a checker again (C52) *)
Section Reuse.
  Context {T : Type}.
  Variable np64 : nan_policy 53 1024.
  Variables (dbg : bool) (m : nat) (delta : f64).
  Lemma gnc_refreshed (s : alg_state T) x v g :
    as_best s = Some (x, v) -> differ np64 delta v (old_goal g) = true ->
    differ np64 delta v f64_MAX = true ->
    goal_not_change np64 dbg m delta s g = goal_not_change np64 dbg m delta s gnc_new.
  Proof.
    unfold differ. intros E H1 H2. unfold goal_not_change. rewrite E, H1. cbn [gnc_new old_goal]. now rewrite H2.
  Qed.
  Lemma gnc_reused (s : alg_state T) ss x v g :
    as_best s = Some (x, v) -> differ np64 delta v (old_goal g) = true ->
    differ np64 delta v f64_MAX = true ->
    forall bs g', asked (map (goal_not_change np64 dbg m delta) (s :: ss)) g bs g' <->
                  asked (map (goal_not_change np64 dbg m delta) (s :: ss)) gnc_new bs g'.
  Proof.
    intros E H1 H2 bs g'. pose proof (gnc_refreshed s x v g E H1 H2) as K. simpl.
    split; intros H; inversion H; subst; econstructor; eauto; congruence.
  Qed.
End Reuse.
