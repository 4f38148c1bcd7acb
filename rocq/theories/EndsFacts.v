(** * Standard components of swarms end *)

From Coq Require Import List Arith ZArith Bool Lia.
From Verif Require Import Base FloatModel Rng GaModel GaComponents PsoModel PsoComponents SpecRun SpecStandard.
Import ListNotations.

Definition oends {A} (o : outcome A) : Prop := o <> NoFuel.
Lemma oends_ret {A} (a : A) : oends (Ret a). Proof. discriminate. Qed.
Lemma oends_bind {A B} (o : outcome A) (k : A -> outcome B) : oends o -> (forall a, oends (k a)) -> oends (obind o k).
Proof. intros H K. destruct o; simpl; [apply K|discriminate|now destruct H]. Qed.
Lemma oends_assert b : oends (oassert b). Proof. destruct b; discriminate. Qed.
Lemma oends_index {A} (l : list A) i : oends (index l i). Proof. unfold index. destruct (nth_error l i); discriminate. Qed.
Lemma oends_unwrap {A} (o : option A) : oends (unwrap o). Proof. destruct o; discriminate. Qed.
Lemma oends_update {A} (l : list A) i x : oends (update l i x).
Proof.
  revert i. induction l as [|a l IH]; intros [|i]; simpl; try discriminate.
  apply oends_bind; [apply IH|]. intros; apply oends_ret.
Qed.
Lemma oends_fold {A S} (f : S -> A -> outcome S) l s : (forall s a, oends (f s a)) -> oends (ofold f l s).
Proof. intros H. revert s. induction l as [|a l IH]; intros s; simpl; [discriminate|]. apply oends_bind; auto. Qed.
Lemma oends_min {A} (cmp : A -> A -> outcome comparison) l : (forall a b, oends (cmp a b)) -> oends (min_by cmp l).
Proof.
  intros H. unfold min_by. destruct l as [|x l]; [discriminate|]. apply oends_bind; [|intros; apply oends_ret].
  apply oends_fold. intros s a. apply oends_bind; [apply H|]. intros []; apply oends_ret.
Qed.
Lemma oends_max {A} (cmp : A -> A -> outcome comparison) l : (forall a b, oends (cmp a b)) -> oends (max_by cmp l).
Proof.
  intros H. unfold max_by. destruct l as [|x l]; [discriminate|]. apply oends_bind; [|intros; apply oends_ret].
  apply oends_fold. intros s a. apply oends_bind; [apply H|]. intros []; apply oends_ret.
Qed.

Lemma ends_ret {U A} (a : A) : ends (@cret U A a). Proof. intros u. discriminate. Qed.
Lemma ends_pure {U A} (o : outcome A) : oends o -> ends (@cpure U A o). Proof. intros H u. exact H. Qed.
Lemma ends_bind {U A B} (c : comp U A) (k : A -> comp U B) : ends c -> (forall a, ends (k a)) -> ends (do a <- c ;; k a).
Proof.
  intros H K u. specialize (H u). unfold cbind. destruct (c u) as [[a| |] u']; simpl in *; [apply K|discriminate|congruence].
Qed.
Lemma ends_zoom {U S A} (L : lens U S) (c : comp S A) : ends c -> ends (zoom L c).
Proof. intros H u. unfold zoom. specialize (H (lget L u)). destruct (c (lget L u)). exact H. Qed.
Lemma ends_mapM {U A B} (f : A -> comp U B) l : (forall a, ends (f a)) -> ends (cmapM f l).
Proof.
  intros H. induction l as [|a l IH]; cbn [cmapM]; [apply ends_ret|]. apply ends_bind; [apply H|]. intros b.
  apply ends_bind; [exact IH|]. intros t. apply ends_ret.
Qed.
Lemma ends_fold {U A S} (f : S -> A -> comp U S) l s : (forall s a, ends (f s a)) -> ends (cfold f l s).
Proof. intros H. revert s. induction l as [|a l IH]; intros s; cbn [cfold]; [apply ends_ret|]. apply ends_bind; [apply H|]. auto. Qed.
Lemma ends_replicate {U A} n (c : comp U A) : ends c -> ends (creplicate n c).
Proof.
  intros H. induction n as [|n IH]; cbn [creplicate]; [apply ends_ret|]. apply ends_bind; [exact H|]. intros a.
  apply ends_bind; [exact IH|]. intros t. apply ends_ret.
Qed.
Lemma ends_draw : ends draw. Proof. intros u. discriminate. Qed.

Ltac ends_step :=
  first [ apply ends_ret | apply ends_zoom | apply ends_mapM; intros ? | apply ends_fold; intros ? ? | apply ends_draw
        | apply ends_bind; [|intros ?] | apply ends_pure
        | apply oends_ret | apply oends_assert | apply oends_index | apply oends_unwrap | apply oends_update
        | apply oends_fold; intros ? ? | apply oends_bind; [|intros ?]
        | match goal with
          | |- ends (if ?b then _ else _) => destruct b
          | |- oends (if ?b then _ else _) => destruct b
          | |- oends Panic => discriminate
          end ].

Lemma ends_unit32 {T} {FT : FloatTrait T} np32 : ends (@unit_f32 T FT np32).
Proof. unfold unit_f32, uniform_incl, sample_incl. repeat ends_step. Qed.
Lemma ends_unit64 {T} {FT : FloatTrait T} np64 : ends (@unit_f64 T FT np64).
Proof. unfold unit_f64, uniform_incl, sample_incl. repeat ends_step. Qed.
Lemma oends_best {T} (ps : list (particle T)) : oends (find_best_particle ps).
Proof.
  unfold find_best_particle. destruct ps as [|p ps]; [discriminate|].
  apply oends_bind; [apply oends_min; intros; discriminate|]. intros m. repeat ends_step.
Qed.
Lemma oends_worst {T} (ps : list (particle T)) : oends (find_worst_particle ps).
Proof.
  unfold find_worst_particle. destruct ps as [|p ps]; [discriminate|].
  apply oends_bind; [apply oends_max; intros; discriminate|]. intros m. repeat ends_step.
Qed.
Lemma ends_boundary {U T} {FT : FloatTrait T} intervals (x : list T) : ends (@cpure U _ (move_to_boundary intervals x)).
Proof. unfold move_to_boundary. repeat ends_step. Qed.
Lemma ends_vectors32 np64 np32 box n : ends (@random_vectors f32 (NumGene32 np64 np32) np64 box n).
Proof.
  unfold random_vectors, create_vec. apply ends_replicate. repeat ends_step.
  unfold random_gene, uniform_incl, sample_incl. repeat ends_step.
Qed.

Section Standard.
  Context {prec emax : Z} {Hp : FLX.Prec_gt_0 prec} {He : BinarySingleNaN.Prec_lt_emax prec emax}.
  Variable np : nan_policy prec emax.
  Variables (np32 : nan_policy 24 128) (np64 : nan_policy 53 1024).
  Context {U : Type} (L : lens U rng).

  Lemma standard_calc_ends calc s p : @standard_calc prec emax _ _ np np32 np64 U L calc -> ends (calc s p).
  Proof.
    intros H. destruct H.
    - unfold classic_velocity. repeat first [apply ends_unit32|ends_step].
    - unfold canonical_velocity. repeat first [apply ends_unit32|ends_step].
    - unfold negative_velocity. repeat first [apply ends_unit64|apply oends_best|apply oends_worst|ends_step].
    - unfold inertia_velocity. repeat first [apply ends_unit32|ends_step].
  Qed.
  Lemma standard_post_velocity_ends d f v : @standard_post_velocity prec emax _ _ np U d f -> ends (f v).
  Proof. intros H. destruct H; [apply ends_ret|]. unfold max_velocity_dimensions. repeat ends_step. Qed.
  Lemma standard_post_move_ends {SA : Sampler (bfloat prec emax)} d f x :
    @standard_post_move prec emax _ _ np np32 SA U L d f -> ends (f x).
  Proof.
    intros H. destruct H; [apply ends_boundary|]. unfold random_teleport_post_move, uniform_excl, sample_excl, sample_incl. repeat ends_step.
  Qed.
End Standard.
