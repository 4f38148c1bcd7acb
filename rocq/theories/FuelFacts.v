(** * The fuel of a run does not matter *)

From Coq Require Import List Arith Bool Lia.
From Verif Require Import Base FloatModel GaModel PsoModel SpecBudget.
Import ListNotations.

Section Grows.
  Context {U E : Type}.
  Lemma grows_refl {A} (m : M U E A) : grows m m.
  Proof. intros u. split; [reflexivity|]. exists []. now rewrite app_nil_r. Qed.
  Lemma grows_nofuel {A} (m : M U E A) : grows nofuel m.
  Proof. intros u. split; [intros H; now elim H|]. exists (snd (m u)). reflexivity. Qed.
  Lemma grows_bind {A B} (m1 m2 : M U E A) (k1 k2 : A -> M U E B) : grows m1 m2 -> (forall a, grows (k1 a) (k2 a)) ->
    grows (mbind m1 k1) (mbind m2 k2).
  Proof.
    intros Hm Hk u. destruct (Hm u) as [H1 [t H2]]. unfold mbind. destruct (m1 u) as [[[a| |] u1] t1]; simpl in *.
    - rewrite H1 by discriminate. destruct (Hk a u1) as [K1 [t' K2]].
      destruct (k1 a u1) as [[o1 v1] s1], (k2 a u1) as [[o2 v2] s2]. simpl in *. split.
      + intros N. specialize (K1 N). congruence.
      + exists t'. rewrite K2. apply app_assoc.
    - rewrite H1 by discriminate. split; [reflexivity|]. exists []. simpl. now rewrite app_nil_r.
    - split; [intros N; now elim N|]. destruct (m2 u) as [[[b| |] u2] t2]; simpl in *; subst t2; [|eauto|eauto].
      destruct (k2 b u2) as [[o2 v2] s2]. simpl. exists (t ++ s2). now rewrite app_assoc.
  Qed.
End Grows.

Section Runs.
  Context {U T : Type}.
  Lemma ga_loop_grows (cfg : ga_config U T) f1 : forall f2 p, f1 <= f2 -> grows (ga_loop cfg f1 p) (ga_loop cfg f2 p).
  Proof.
    induction f1 as [|f1 IH]; intros f2 p H; [apply grows_nofuel|]. destruct f2 as [|f2]; [lia|]. cbn [ga_loop].
    apply grows_bind; [apply grows_refl|]. intros [|]; [apply grows_refl|]. apply grows_bind; [apply grows_refl|].
    intros p'. apply IH. lia.
  Qed.
  Lemma ga_next_grows (cfg : ga_config U T) f1 f2 p : f1 <= f2 -> grows (ga_next_iterations cfg f1 p) (ga_next_iterations cfg f2 p).
  Proof.
    intros H. unfold ga_next_iterations. apply grows_bind; [apply grows_refl|]. intros _.
    apply grows_bind; [now apply ga_loop_grows|]. intros p'. apply grows_refl.
  Qed.
  Lemma ga_find_grows (cfg : ga_config U T) f1 f2 p : f1 <= f2 -> grows (ga_find_min cfg f1 p) (ga_find_min cfg f2 p).
  Proof.
    intros H. unfold ga_find_min. do 3 (apply grows_bind; [apply grows_refl|]; intros ?). now apply ga_next_grows.
  Qed.
  Context {FT : FloatTrait T}.
  Lemma pso_loop_grows (cfg : pso_config U T) f1 : forall f2 s, f1 <= f2 -> grows (pso_loop cfg f1 s) (pso_loop cfg f2 s).
  Proof.
    induction f1 as [|f1 IH]; intros f2 s H; [apply grows_nofuel|]. destruct f2 as [|f2]; [lia|]. cbn [pso_loop].
    apply grows_bind; [apply grows_refl|]. intros [|]; [apply grows_refl|]. apply grows_bind; [apply grows_refl|].
    intros s'. apply IH. lia.
  Qed.
  Lemma pso_next_grows (cfg : pso_config U T) f1 f2 s : f1 <= f2 -> grows (pso_next_iterations cfg f1 s) (pso_next_iterations cfg f2 s).
  Proof.
    intros H. unfold pso_next_iterations. apply grows_bind; [apply grows_refl|]. intros _.
    apply grows_bind; [now apply pso_loop_grows|]. intros s'. apply grows_refl.
  Qed.
  Lemma pso_find_grows (cfg : pso_config U T) f1 f2 s : f1 <= f2 -> grows (pso_find_min cfg f1 s) (pso_find_min cfg f2 s).
  Proof.
    intros H. unfold pso_find_min. do 2 (apply grows_bind; [apply grows_refl|]; intros ?). now apply pso_next_grows.
  Qed.
End Runs.
