(** * Components that do not touch a part of the environment *)

From Coq Require Import List Arith ZArith Bool Lia.
From Verif Require Import Base FloatModel Rng GaModel GaComponents PsoModel PsoComponents SpecGa SpecPso SpecRun SpecLog.
Import ListNotations.

(** Two different fields of the environment. *)
Record separate {U G H} (L : lens U G) (K : lens U H) : Prop := {
  sep_get : forall x u, lget L (lput K x u) = lget L u;
  sep_got : forall g u, lget K (lput L g u) = lget K u;
  sep_put : forall g x u, lput L g (lput K x u) = lput K x (lput L g u)
}.

Section Apart.
  Context {U G : Type} (L : lens U G).

  Lemma apart_ret {A} (a : A) : apart L (cret a).
  Proof. split; [intros u; reflexivity|]. intros u1 u2 H. auto. Qed.
  Lemma apart_pure {A} (o : outcome A) : apart L (cpure o).
  Proof. split; [intros u; reflexivity|]. intros u1 u2 H. auto. Qed.
  Lemma apart_bind {A B} (c : comp U A) (k : A -> comp U B) : apart L c -> (forall a, apart L (k a)) ->
    apart L (do a <- c ;; k a).
  Proof.
    intros [C1 C2] Hk. split.
    - intros u. specialize (C1 u). unfold cbind. destruct (c u) as [[a| |] u1]; simpl in *; auto.
      rewrite <- C1. apply (proj1 (Hk a)).
    - intros u1 u2 H. destruct (C2 u1 u2 H) as [E R]. unfold cbind.
      destruct (c u1) as [[a| |] v1] eqn:E1, (c u2) as [[b| |] v2] eqn:E2; simpl in *; try discriminate;
        try (split; [reflexivity|discriminate]).
      injection E as <-. apply (proj2 (Hk a)). apply (R a). reflexivity.
  Qed.
  Lemma apart_zoom {H A} (K : lens U H) (c : comp H A) : separate L K -> apart L (zoom K c).
  Proof.
    intros S. split.
    - intros u. unfold zoom. destruct (c (lget K u)) as [o x]. simpl. apply (sep_get _ _ S).
    - intros u1 u2 E. unfold zoom.
      assert (Ek : lget K u1 = lget K u2).
      { rewrite <- (sep_got _ _ S (lget L u1) u1), (E (lget L u1)). apply (sep_got _ _ S). }
      rewrite Ek. destruct (c (lget K u2)) as [o x]. simpl. split; [reflexivity|]. intros a _ g.
      rewrite !(sep_put _ _ S). now rewrite (E g).
  Qed.
  Lemma apart_mapM {A B} (f : A -> comp U B) l : (forall a, apart L (f a)) -> apart L (cmapM f l).
  Proof.
    intros H. induction l as [|a l IH]; cbn [cmapM]; [apply apart_ret|].
    apply apart_bind; [apply H|]. intros b. apply apart_bind; [exact IH|]. intros t. apply apart_ret.
  Qed.
  Lemma apart_fold {A S} (f : S -> A -> comp U S) l s : (forall s a, apart L (f s a)) -> apart L (cfold f l s).
  Proof.
    intros H. revert s. induction l as [|a l IH]; intros s; cbn [cfold]; [apply apart_ret|].
    apply apart_bind; [apply H|]. intros s'. apply IH.
  Qed.

  Lemma apart_cross {X} (single : list X -> comp U (list X)) parents : (forall xs, apart L (single xs)) ->
    apart L (vec_cross_all_genes single parents).
  Proof.
    intros H. unfold vec_cross_all_genes.
    repeat (apply apart_bind; [apply apart_pure|intros ?]).
    apply apart_bind; [|intros child; apply apart_ret]. apply apart_fold. intros child n.
    repeat (apply apart_bind; [first [apply apart_pure|apply H]|intros ?]). apply apart_ret.
  Qed.
  Lemma apart_mutation {X} np64 (K : lens U rng) prob (single : X -> comp U X) xs : separate L K ->
    (forall x, apart L (single x)) -> apart L (vec_mutation np64 K prob single xs).
  Proof.
    intros S H. unfold vec_mutation. apply apart_bind; [apply apart_pure|]. intros m. apply apart_mapM. intros x.
    apply apart_bind; [now apply apart_zoom|]. intros r. destruct (ltb r prob); [apply H|apply apart_ret].
  Qed.
  Lemma apart_inertia {T} {FT : FloatTrait T} np32 (K : lens U rng) (phi_p phi_g : T) inertia s p : separate L K ->
    (forall t, apart L (inertia t)) -> apart L (inertia_velocity np32 K phi_p phi_g inertia s p).
  Proof.
    intros S H. unfold inertia_velocity. apply apart_bind; [apply apart_pure|]. intros b.
    apply apart_bind; [apply H|]. intros w. apply apart_mapM. intros i.
    repeat (apply apart_bind; [now apply apart_zoom|intros ?]). apply apart_pure.
  Qed.
End Apart.

(** Configurations. *)
Lemma apart_keeps_ga {U T G} i (L : lens U G) (cfg : ga_config U T) : ga_others_apart i L cfg -> ga_others_keep i (lget L) cfg.
Proof.
  intros (H1 & H2 & H3 & H4 & H5 & H6 & H7 & H8 & H9). unfold ga_others_keep.
  repeat split; intros; try apply H1; try apply H2; try apply H3; try apply H4; try apply H5; try apply H6.
  - now apply H7. - now apply H8. - eapply H9; eauto.
Qed.
Lemma apart_keeps_pso {U T G} i (L : lens U G) (cfg : pso_config U T) : pso_others_apart i L cfg -> pso_others_keep i (lget L) cfg.
Proof.
  intros (H1 & H2 & H3 & H4 & H5 & H6 & H7 & H8). unfold pso_others_keep.
  repeat split; intros; try apply H1; try apply H2; try apply H3; try apply H4; try apply H5.
  - now apply H6. - now apply H7. - eapply H8; eauto.
Qed.
(** Runs. *)
Lemma alike_outcome {U E A G} (L : lens U G) (r1 r2 : outcome A * U * list E) : alike L r1 r2 -> fst (fst r1) = fst (fst r2) /\ snd r1 = snd r2.
Proof. intros [A1 [B _]]. auto. Qed.
