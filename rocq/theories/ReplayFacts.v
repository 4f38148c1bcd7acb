(** * Every trace can be replayed *)

From Coq Require Import List Arith Bool Lia.
From Verif Require Import Base FloatModel GaModel PsoModel SpecGa SpecPso SpecReplay.
Import ListNotations.

Section Generic.
  Context {U E C : Type}.
  Variable step : E -> C -> U -> C -> U -> Prop.

  Lemma replays_app c u t1 c1 u1 t2 c2 u2 :
    replays step c u t1 c1 u1 -> replays step c1 u1 t2 c2 u2 -> replays step c u (t1 ++ t2) c2 u2.
  Proof. induction 1; simpl; auto. intros H2. econstructor; eauto. Qed.

  Lemma replays_one e c u c' u' : step e c u c' u' -> replays step c u [e] c' u'.
  Proof. intros H. econstructor; [exact H|constructor]. Qed.

  (** All of the trace but at most its last event. *)
  Definition nearly (c : C) (u : U) (t : list E) : Prop :=
    exists t1 t2 c1 u1, t = t1 ++ t2 /\ length t2 <= 1 /\ replays step c u t1 c1 u1.
  Definition rp {A} (m : M U E A) (c c' : C) : Prop :=
    forall u o u' t, m u = (o, u', t) ->
      match o with Ret _ => replays step c u t c' u' | _ => nearly c u t end.

  Lemma nearly_app c u t1 c1 u1 t2 :
    replays step c u t1 c1 u1 -> nearly c1 u1 t2 -> nearly c u (t1 ++ t2).
  Proof.
    intros H (a & b & c2 & u2 & -> & L & R). exists (t1 ++ a), b, c2, u2.
    rewrite app_assoc. repeat split; auto. eapply replays_app; eauto.
  Qed.
  Lemma nearly_full c u t c1 u1 : replays step c u t c1 u1 -> nearly c u t.
  Proof. intros H. exists t, [], c1, u1. rewrite app_nil_r. simpl. auto. Qed.
  Lemma nearly_nil c u : nearly c u [].
  Proof. eapply nearly_full. constructor. Qed.
  Lemma nearly_one c u e : nearly c u [e].
  Proof. exists [], [e], c, u. simpl. repeat split; auto. constructor. Qed.

  Lemma rp_ret {A} (a : A) c : rp (mret a) c c.
  Proof. intros u o u' t H. inversion H; subst. constructor. Qed.
  Lemma rp_pure {A} (o : outcome A) c : rp (pure o) c c.
  Proof.
    intros u o' u' t H. inversion H; subst. destruct o'; [constructor|apply nearly_nil..].
  Qed.
  Lemma rp_nofuel {A} c c' : rp (@nofuel U E A) c c'.
  Proof. intros u o u' t H. inversion H; subst. apply nearly_nil. Qed.
  Lemma rp_bind {A B} (m : M U E A) (k : A -> M U E B) c c1 c2 :
    rp m c c1 -> (forall a, rp (k a) c1 c2) -> rp (mbind m k) c c2.
  Proof.
    intros Hm Hk u o u' t H. unfold mbind in H.
    destruct (m u) as [[[a| |] u1] t1] eqn:Em; apply Hm in Em.
    - destruct (k a u1) as [[o2 u2] t2] eqn:Ek. apply Hk in Ek. inversion H; subst.
      destruct o.
      + eapply replays_app; eauto.
      + eapply nearly_app; eauto.
      + eapply nearly_app; eauto.
    - inversion H; subst. exact Em.
    - inversion H; subst. exact Em.
  Qed.
  Lemma rp_map {A B} (f : A -> M U E B) l c : (forall a, rp (f a) c c) -> rp (mmapM f l) c c.
  Proof.
    intros H. induction l as [|a l IH]; simpl; [apply rp_ret|].
    eapply rp_bind; [apply H|]. intros b. eapply rp_bind; [exact IH|]. intros bs. apply rp_ret.
  Qed.
  Lemma rp_fold {A S} (f : S -> A -> M U E S) l s c :
    (forall s a, rp (f s a) c c) -> rp (mfold f l s) c c.
  Proof.
    intros H. revert s. induction l as [|a l IH]; intros s; simpl; [apply rp_ret|].
    eapply rp_bind; [apply H|]. auto.
  Qed.
  (** An event that is recorded after the call. *)
  Lemma rp_call {A} (rec : A -> E) (m : comp U A) c c' :
    (forall a u u', m u = (Ret a, u') -> step (rec a) c u c' u') ->
    rp (mbind (call m) (fun a => mbind (emit (rec a)) (fun _ => mret a))) c c'.
  Proof.
    intros H u o u' t E0. unfold mbind, call, emit, mret in E0. destruct (m u) as [[a| |] u1] eqn:Em.
    - inversion E0; subst. simpl. apply replays_one. now apply H.
    - inversion E0; subst. apply nearly_nil.
    - inversion E0; subst. apply nearly_nil.
  Qed.
  (** An event that is recorded before the call. *)
  Lemma rp_told (e : E) (m : comp U unit) c c' :
    (forall u u', m u = (Ret tt, u') -> step e c u c' u') ->
    rp (mbind (emit e) (fun _ => call m)) c c'.
  Proof.
    intros H u o u' t E0. unfold mbind, call, emit in E0. destruct (m u) as [[a| |] u1] eqn:Em.
    - inversion E0; subst. simpl. destruct a. apply replays_one. now apply H.
    - inversion E0; subst. apply nearly_one.
    - inversion E0; subst. apply nearly_one.
  Qed.
  Lemma rp_emit (e : E) c c' : (forall u, step e c u c' u) -> rp (emit e) c c'.
  Proof. intros H u o u' t E0. inversion E0; subst. now apply replays_one. Qed.

  (** Components taking turns. *)
  Lemma rp_turns {A S} (f : S -> A -> M U E S) (all : list A) (at_turn : nat -> C) :
    (forall j a s, nth_error all j = Some a ->
       rp (f s a) (at_turn j) (at_turn (turn_after (length all) j))) ->
    forall s, rp (mfold f all s) (at_turn 0) (at_turn 0).
  Proof.
    intros H.
    assert (G : forall rest pre s, all = pre ++ rest ->
      rp (mfold f rest s) (at_turn (if length pre =? length all then 0 else length pre)) (at_turn 0)).
    { induction rest as [|a rest IH]; intros pre s Ha; simpl.
      - rewrite app_nil_r in Ha. subst pre. rewrite Nat.eqb_refl. apply rp_ret.
      - assert (L : length pre < length all) by (rewrite Ha, app_length; simpl; lia).
        destruct (Nat.eqb_spec (length pre) (length all)) as [?|_]; [lia|].
        eapply rp_bind.
        + apply H. rewrite Ha, nth_error_app2, Nat.sub_diag by lia. reflexivity.
        + intros s'. specialize (IH (pre ++ [a]) s'). rewrite <- app_assoc in IH.
          specialize (IH Ha). rewrite app_length in IH. simpl in IH.
          rewrite Nat.add_1_r in IH. exact IH. }
    intros s. specialize (G all [] s eq_refl). simpl in G.
    destruct (length all); exact G.
  Qed.
End Generic.

Lemma enumerate_nth {A} (l : list A) i a : In (i, a) (enumerate l) -> nth_error l i = Some a.
Proof.
  unfold enumerate. assert (G : forall k, In (i, a) (combine (seq k (length l)) l) -> k <= i /\ nth_error l (i - k) = Some a).
  { induction l as [|x l IH]; simpl; intros k; [tauto|]. intros [H|H].
    - inversion H; subst. rewrite Nat.sub_diag. auto.
    - apply IH in H. destruct H as [H1 H2]. split; [lia|].
      replace (i - k) with (S (i - S k)) by lia. exact H2. }
  intros H. apply G in H. rewrite Nat.sub_0_r in H. tauto.
Qed.

Section Ga.
  Context {U T : Type}.
  Variable cfg : ga_config U T.
  Notation rpg := (rp (ga_replay cfg)).

  Lemma rp_goal x c : rpg (call_goal (ga_goal cfg) x) c c.
  Proof.
    unfold call_goal. eapply rp_bind; [apply rp_emit; simpl; auto|]. intros _.
    apply (rp_call _ (fun v => EValue x v)). simpl. auto.
  Qed.
  Lemma rp_append xs p c : rpg (pop_append cfg p xs) c c.
  Proof.
    unfold pop_append. apply rp_fold. intros q x. unfold pop_push.
    eapply rp_bind; [apply rp_goal|]. intros v. apply rp_ret.
  Qed.
  Lemma rp_loggers k p c : rpg (call_loggers pop_view k (ga_loggers cfg) p) c c.
  Proof.
    unfold call_loggers.
    assert (G : forall l, (forall i x, In (i, x) l -> nth_error (ga_loggers cfg) i = Some x) ->
      rpg (mfor (fun il => mbind (emit (ELog k (fst il) p)) (fun _ => call (lg_method k (snd il) (pop_view p)))) l) c c).
    { induction l as [|[i x] l IH]; intros Hl; simpl; [apply rp_ret|].
      eapply rp_bind.
      - apply rp_told. intros u u' H. simpl. split; [reflexivity|]. exists x.
        split; [apply Hl; now left|]. exact H.
      - intros _. apply IH. intros. apply Hl. now right. }
    apply G. intros i x. apply enumerate_nth.
  Qed.
  Lemma rp_iteration p : rpg (ga_iteration cfg p) (0, 0) (0, 0).
  Proof.
    unfold ga_iteration. eapply rp_bind.
    { unfold run_pairing. eapply rp_bind; [apply rp_emit; simpl; auto|]. intros _.
      eapply rp_bind; [unfold call_comp; apply (rp_call _ (fun a => ECall (CPairs p a))); simpl; auto|].
      intros pairs. apply rp_fold. intros acc pair.
      eapply rp_bind; [apply rp_pure|]. intros fam.
      eapply rp_bind; [apply (rp_call _ (fun a => ECall (CCross fam a))); simpl; auto|].
      intros cs. apply rp_ret. }
    intros cs. eapply rp_bind.
    { apply rp_map. intros x. apply (rp_call _ (fun a => ECall (CMutate x a))). simpl. auto. }
    intros ms. eapply rp_bind.
    { apply (rp_turns _ _ (ga_pre_births cfg) (fun j => (j, 0))). intros j pb xs Hj.
      eapply rp_bind; [apply rp_emit; simpl; auto|]. intros _.
      apply (rp_call _ (fun a => ECall (CPreBirth p xs a))). simpl. eauto. }
    intros born. eapply rp_bind; [apply rp_append|]. intros p1. eapply rp_bind.
    { apply (rp_turns _ _ (ga_selections cfg) (fun j => (0, j))). intros j s q Hj.
      eapply rp_bind; [apply rp_emit; simpl; auto|]. intros _.
      eapply rp_bind; [apply (rp_call _ (fun a => ECall (CSelect q a))); simpl; eauto|].
      intros l. apply rp_ret. }
    intros p2. eapply rp_bind; [apply rp_pure|]. intros p3. simpl.
    eapply rp_bind; [apply rp_loggers|]. intros _. apply rp_ret.
  Qed.
  Lemma rp_loop fuel p : rpg (ga_loop cfg fuel p) (0, 0) (0, 0).
  Proof.
    revert p. induction fuel as [|fuel IH]; intros p; simpl; [apply rp_nofuel|].
    eapply rp_bind.
    { unfold call_stop. apply (rp_call _ (fun b => EStop p b)). simpl. auto. }
    intros [|]; [apply rp_ret|]. eapply rp_bind; [apply rp_iteration|]. auto.
  Qed.
  Lemma rp_next fuel p : rpg (ga_next_iterations cfg fuel p) (0, 0) (0, 0).
  Proof.
    unfold ga_next_iterations. eapply rp_bind; [apply rp_loggers|]. intros _.
    eapply rp_bind; [apply rp_loop|]. intros p'. eapply rp_bind; [apply rp_loggers|].
    intros _. apply rp_ret.
  Qed.
  Lemma rp_find fuel p : rpg (ga_find_min cfg fuel p) (0, 0) (0, 0).
  Proof.
    unfold ga_find_min. eapply rp_bind; [apply (rp_call _ (fun a => ECall (CCreate a))); simpl; auto|].
    intros xs. eapply rp_bind; [apply rp_append|]. intros p1.
    eapply rp_bind; [apply rp_loggers|]. intros _. apply rp_next.
  Qed.

  Lemma ga_replayed fuel p u r u' t :
    ga_find_min cfg fuel p u = (Ret r, u', t) \/ ga_next_iterations cfg fuel p u = (Ret r, u', t) ->
    replays (ga_replay cfg) (0, 0) u t (0, 0) u'.
  Proof. intros [H|H]; [apply rp_find in H|apply rp_next in H]; exact H. Qed.
  Lemma ga_nearly_replayed fuel p u o u' t :
    ga_find_min cfg fuel p u = (o, u', t) \/ ga_next_iterations cfg fuel p u = (o, u', t) ->
    exists t1 t2 c1 u1, t = t1 ++ t2 /\ length t2 <= 1 /\ replays (ga_replay cfg) (0, 0) u t1 c1 u1.
  Proof.
    intros [H|H]; [apply rp_find in H|apply rp_next in H]; destruct o; auto;
      eapply nearly_full; exact H.
  Qed.
End Ga.

Section Pso.
  Context {U T : Type} {FT : FloatTrait T}.
  Variable cfg : pso_config U T.
  Notation rpp := (rp (pso_replay cfg)).

  Lemma rp_pso_goal x c : rpp (call_goal (pso_goal cfg) x) c c.
  Proof.
    unfold call_goal. eapply rp_bind; [apply rp_emit; simpl; auto|]. intros _.
    apply (rp_call _ (fun v => EValue x v)). simpl. auto.
  Qed.
  Lemma rp_pso_loggers k s c : rpp (call_loggers swarm_view k (pso_loggers cfg) s) c c.
  Proof.
    unfold call_loggers.
    assert (G : forall l, (forall i x, In (i, x) l -> nth_error (pso_loggers cfg) i = Some x) ->
      rpp (mfor (fun il => mbind (emit (ELog k (fst il) s)) (fun _ => call (lg_method k (snd il) (swarm_view s)))) l) c c).
    { induction l as [|[i x] l IH]; intros Hl; simpl; [apply rp_ret|].
      eapply rp_bind.
      - apply rp_told. intros u u' H. simpl. split; [reflexivity|]. exists x.
        split; [apply Hl; now left|]. exact H.
      - intros _. apply IH. intros. apply Hl. now right. }
    apply G. intros i x. apply enumerate_nth.
  Qed.
  Lemma rp_moves x : rpp (run_post_move cfg x) (0, 0) (0, 0).
  Proof.
    unfold run_post_move. apply (rp_turns _ _ (pso_post_move cfg) (fun j => (0, j))). intros j f y Hj.
    apply (rp_call _ (fun a => ECall (PPostMove y a))). simpl. eauto.
  Qed.
  Lemma rp_renew s : rpp (renew_swarm cfg s) (0, 0) (0, 0).
  Proof.
    unfold renew_swarm. eapply rp_bind; [apply (rp_call _ (fun a => ECall (PCoordinates a))); simpl; auto|].
    intros coords. eapply rp_bind; [apply (rp_call _ (fun a => ECall (PVelocities a))); simpl; auto|].
    intros vels. eapply rp_bind; [apply rp_pure|]. intros _.
    eapply rp_bind; [apply rp_map; intros x; apply rp_moves|]. intros coords'.
    eapply rp_bind.
    { apply rp_map. intros cs. eapply rp_bind; [apply rp_pso_goal|]. intros y. apply rp_ret. }
    intros ps. apply rp_pure.
  Qed.
  Lemma rp_particle s n : rpp (pso_particle cfg s n) (0, 0) (0, 0).
  Proof.
    unfold pso_particle. eapply rp_bind; [apply rp_pure|]. intros p.
    eapply rp_bind; [apply rp_emit; simpl; auto|]. intros _.
    eapply rp_bind; [apply (rp_call _ (fun a => ECall (PCalc s p a))); simpl; auto|]. intros v0.
    eapply rp_bind.
    { apply (rp_turns _ _ (pso_post_velocity cfg) (fun j => (j, 0))). intros j f y Hj.
      apply (rp_call _ (fun a => ECall (PPostVelocity y a))). simpl. eauto. }
    intros v. simpl. eapply rp_bind; [apply rp_moves|]. intros x.
    eapply rp_bind; [apply rp_pso_goal|]. intros y. eapply rp_bind; [apply rp_pure|]. intros ps.
    apply rp_ret.
  Qed.
  Lemma rp_pso_iteration s : rpp (pso_iteration cfg s) (0, 0) (0, 0).
  Proof.
    unfold pso_iteration. eapply rp_bind; [apply rp_fold; intros; apply rp_particle|]. intros s1.
    eapply rp_bind; [apply rp_pure|]. intros s2. eapply rp_bind; [apply rp_pure|]. intros s3. simpl.
    eapply rp_bind; [apply rp_pso_loggers|]. intros _. apply rp_ret.
  Qed.
  Lemma rp_pso_loop fuel s : rpp (pso_loop cfg fuel s) (0, 0) (0, 0).
  Proof.
    revert s. induction fuel as [|fuel IH]; intros s; simpl; [apply rp_nofuel|].
    eapply rp_bind.
    { unfold call_stop. apply (rp_call _ (fun b => EStop s b)). simpl. auto. }
    intros [|]; [apply rp_ret|]. eapply rp_bind; [apply rp_pso_iteration|]. auto.
  Qed.
  Lemma rp_pso_next fuel s : rpp (pso_next_iterations cfg fuel s) (0, 0) (0, 0).
  Proof.
    unfold pso_next_iterations. eapply rp_bind; [apply rp_pso_loggers|]. intros _.
    eapply rp_bind; [apply rp_pso_loop|]. intros s'. eapply rp_bind; [apply rp_pso_loggers|].
    intros _. apply rp_ret.
  Qed.
  Lemma rp_pso_find fuel s : rpp (pso_find_min cfg fuel s) (0, 0) (0, 0).
  Proof.
    unfold pso_find_min. eapply rp_bind; [apply rp_renew|]. intros s1.
    eapply rp_bind; [apply rp_pso_loggers|]. intros _. apply rp_pso_next.
  Qed.

  Lemma pso_replayed fuel s u r u' t :
    pso_find_min cfg fuel s u = (Ret r, u', t) \/ pso_next_iterations cfg fuel s u = (Ret r, u', t) ->
    replays (pso_replay cfg) (0, 0) u t (0, 0) u'.
  Proof. intros [H|H]; [apply rp_pso_find in H|apply rp_pso_next in H]; exact H. Qed.
  Lemma pso_nearly_replayed fuel s u o u' t :
    pso_find_min cfg fuel s u = (o, u', t) \/ pso_next_iterations cfg fuel s u = (o, u', t) ->
    exists t1 t2 c1 u1, t = t1 ++ t2 /\ length t2 <= 1 /\ replays (pso_replay cfg) (0, 0) u t1 c1 u1.
  Proof.
    intros [H|H]; [apply rp_pso_find in H|apply rp_pso_next in H]; destruct o; auto;
      eapply nearly_full; exact H.
  Qed.
End Pso.
