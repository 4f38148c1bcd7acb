(** * Properties of traces: every value belongs to an evaluated point *)

From Coq Require Import List Arith Bool.
From Verif Require Import Base FloatModel GaModel PsoModel SpecGa SpecPso GaSafety.
Import ListNotations.

Section Traced.
  Context {U E : Type} (P : list E -> Prop).
  Hypothesis P_nil : P [].
  Hypothesis P_app : forall t1 t2, P t1 -> P t2 -> P (t1 ++ t2).
  Definition traced {A} (m : M U E A) : Prop := forall u, P (snd (m u)).

  Lemma traced_ret {A} (a : A) : traced (mret a). Proof. intros u. exact P_nil. Qed.
  Lemma traced_pure {A} (o : outcome A) : traced (pure o). Proof. intros u. exact P_nil. Qed.
  Lemma traced_nofuel {A} : traced (@nofuel U E A). Proof. intros u. exact P_nil. Qed.
  Lemma traced_call {A} (c : comp U A) : traced (call c).
  Proof. intros u. unfold call. destruct (c u). exact P_nil. Qed.
  Lemma traced_emit e : P [e] -> traced (emit e). Proof. intros H u. exact H. Qed.
  Lemma traced_bind {A B} (m : M U E A) (k : A -> M U E B) : traced m -> (forall a, traced (k a)) -> traced (mbind m k).
  Proof.
    intros H K u. specialize (H u). unfold mbind. destruct (m u) as [[[a| |] u1] t1]; simpl in *; auto.
    specialize (K a u1). destruct (k a u1) as [[o u2] t2]. simpl in *. auto.
  Qed.
  Lemma traced_fold {A S} (f : S -> A -> M U E S) l s : (forall s a, traced (f s a)) -> traced (mfold f l s).
  Proof. intros H. revert s. induction l as [|a l IH]; intros s; cbn [mfold]; [apply traced_ret|]. apply traced_bind; auto. Qed.
  Lemma traced_for {A} (f : A -> M U E unit) l : (forall a, traced (f a)) -> traced (mfor f l).
  Proof. intros H. induction l as [|a l IH]; cbn [mfor]; [apply traced_ret|]. apply traced_bind; auto. Qed.
  Lemma traced_mapM {A B} (f : A -> M U E B) l : (forall a, traced (f a)) -> traced (mmapM f l).
  Proof.
    intros H. induction l as [|a l IH]; cbn [mmapM]; [apply traced_ret|]. apply traced_bind; [apply H|]. intros b.
    apply traced_bind; [exact IH|]. intros t. apply traced_ret.
  Qed.
End Traced.

Section Pso.
  Context {U T : Type} {FT : FloatTrait T} (P : list (pso_event T) -> Prop).
  Hypothesis P_nil : P [].
  Hypothesis P_app : forall t1 t2, P t1 -> P t2 -> P (t1 ++ t2).
  Hypothesis P_other : forall e, (forall x, e <> EEval x) -> (forall x v, e <> EValue x v) -> P [e].
  Variable cfg : pso_config U T.
  Hypothesis P_goal : forall x, traced P (call_goal (pso_goal cfg) x : M U (pso_event T) f64).

  Ltac step := first
    [ apply P_goal | apply (traced_ret P P_nil) | apply (traced_pure P P_nil) | apply (traced_nofuel P P_nil)
    | apply (traced_call P P_nil) | apply (traced_emit P), P_other; intros; discriminate
    | apply (traced_bind P P_app); [|intros ?] | apply (traced_fold P P_nil P_app); intros ? ?
    | apply (traced_for P P_nil P_app); intros ? | apply (traced_mapM P P_nil P_app); intros ? ].
  Lemma traced_iteration s : traced P (pso_iteration cfg s).
  Proof. unfold pso_iteration, pso_particle, run_post_move, call_loggers, call_comp. repeat step. Qed.
  Lemma traced_loop fuel s : traced P (pso_loop cfg fuel s).
  Proof.
    revert s. induction fuel as [|fuel IH]; intros s; cbn [pso_loop]; [step|]. unfold call_stop.
    step; [repeat step|]. destruct a; [step|]. step; [apply traced_iteration|apply IH].
  Qed.
  Lemma traced_next fuel s : traced P (pso_next_iterations cfg fuel s).
  Proof. unfold pso_next_iterations, call_loggers. repeat first [apply traced_loop|step]. Qed.
  Lemma traced_find fuel s : traced P (pso_find_min cfg fuel s).
  Proof. unfold pso_find_min, renew_swarm, run_post_move, call_loggers, call_comp. repeat first [apply traced_next|step]. Qed.
End Pso.

Lemma pso_values_evaluated {U T} {FT : FloatTrait T} (cfg : pso_config U T) fuel s u o u' t :
  pso_find_min cfg fuel s u = (o, u', t) ->
  forall x v, evaluated t x v -> In x (evals t) /\ exists u1 u2, pso_goal cfg x u1 = (Ret v, u2).
Proof.
  intros E. pose proof (@traced_find U T FT (fun t => forall x v, evaluated t x v ->
    In x (evals t) /\ exists u1 u2, pso_goal cfg x u1 = (Ret v, u2))) as H. unfold traced in H.
  specialize (H ltac:(intros x v [])).
  assert (K : snd (pso_find_min cfg fuel s u) = t) by now rewrite E. rewrite <- K. apply H; clear.
  - intros t1 t2 H1 H2 x v Hx. rewrite evals_app. apply in_app_or in Hx.
    destruct Hx as [Hx|Hx]; [destruct (H1 _ _ Hx)|destruct (H2 _ _ Hx)]; split; auto; apply in_or_app; auto.
  - intros e _ N x v [E|[]]. exfalso. eapply N. eauto.
  - intros x u y v Hx. unfold call_goal, mbind, emit, call, mret in *. destruct (pso_goal cfg x u) as [[w| |] u1] eqn:Eg; simpl in *.
    + destruct Hx as [Hx|[Hx|[]]]; [discriminate|]. injection Hx as -> ->. eauto.
    + destruct Hx as [Hx|[]]; discriminate.
    + destruct Hx as [Hx|[]]; discriminate.
Qed.
