(** * What the assertions of the tests say *)

From Coq Require Import List Arith ZArith Bool Lia.
From Flocq Require Import IEEE754.Binary.
From Verif Require Import Base Logic FloatModel GaModel StatModel ExampleModel StatProgramModel SpecStat SpecExample SpecStatProgram
  ExampleRuns.
Import ListNotations.
Local Open Scope nat_scope.

(** A check of each element. *)
Lemma checks_all {A} (f : A -> outcome unit) l : ofold (fun _ x => f x) l tt = Ret tt <-> Forall (fun x => f x = Ret tt) l.
Proof.
  split.
  - induction l as [|x l IH]; intros H; [constructor|]. cbn [ofold] in H. destruct (f x) as [[]| |] eqn:E; cbn [obind] in H; try discriminate H.
    constructor; auto.
  - induction 1 as [|x l Hx H IH]; [reflexivity|]. cbn [ofold]. rewrite Hx. exact IH.
Qed.

Section Paraboloid.
  Variable np32 : nan_policy 24 128.
  Lemma expected_is i : i < 5 -> expected_paraboloid np32 i = float_count (S i).
  Proof. intros H. do 5 (destruct i as [|i]; [same_float|]). lia. Qed.
  Lemma asserts_general d e tolerance goal_tolerance (r : option (list f32 * f64)) :
    test_asserts np32 d e tolerance goal_tolerance r = Ret tt <->
    exists x v, r = Some (x, v) /\
      (forall i, i < d -> exists xi, nth_error x i = Some xi /\ ltb (b_abs (b_sub np32 xi (e i))) tolerance = true) /\
      ltb (b_abs v) goal_tolerance = true.
  Proof.
    destruct r as [[x v]|]; [|split; [discriminate|intros (x & v & H & _); discriminate H]].
    cbn [test_asserts]. split.
    - intros H. exists x, v. split; [reflexivity|].
      match type of H with (obind ?m _ = _) => destruct m as [[]| |] eqn:E; cbn [obind] in H; try discriminate H end.
      apply oassert_ret in H. split; [|exact H]. apply checks_all in E. rewrite Forall_forall in E. intros i Hi.
      specialize (E i ltac:(apply in_seq; lia)). destruct (index x i) as [xi| |] eqn:Ei; cbn [obind] in E; try discriminate E.
      apply index_ret in Ei. apply oassert_ret in E. exists xi. split; [exact Ei|]. exact E.
    - intros (x' & v' & H & Hx & Hv). injection H as <- <-.
      match goal with |- (obind ?m _ = _) => assert (E : m = Ret tt) end.
      { apply checks_all. rewrite Forall_forall. intros i Hi. apply in_seq in Hi. destruct (Hx i ltac:(lia)) as [xi [Ei L]].
        apply index_ret in Ei. rewrite Ei. cbn [obind]. apply oassert_ret. exact L. }
      rewrite E. cbn [obind]. now apply oassert_ret.
  Qed.
  Lemma asserts_iff tolerance goal_tolerance (r : option (list f32 * f64)) :
    test_asserts np32 5 (expected_paraboloid np32) tolerance goal_tolerance r = Ret tt <->
    exists x v, r = Some (x, v) /\
      (forall i, i < 5 -> exists xi, nth_error x i = Some xi /\ ltb (b_abs (b_sub np32 xi (float_count (S i)))) tolerance = true) /\
      ltb (b_abs v) goal_tolerance = true.
  Proof.
    rewrite asserts_general. split; intros (x & v & H & Hx & Hv); exists x, v; (split; [exact H|]); (split; [|exact Hv]);
      intros i Hi; destruct (Hx i Hi) as [xi [Ei L]]; exists xi; (split; [exact Ei|]).
    - rewrite <- (expected_is i Hi). exact L.
    - rewrite (expected_is i Hi). exact L.
  Qed.
  Lemma rastrigin_asserts_iff r : genetic_rastrigin_asserts np32 r = Ret tt <->
    exists x v, r = Some (x, v) /\
      (forall i, i < 30 -> exists xi, nth_error x i = Some xi /\ ltb (b_abs (b_sub np32 xi (b_of_Z 0))) (decimal32 1 2) = true) /\
      ltb (b_abs v) (decimal64 1 3) = true.
  Proof.
    replace (decimal32 1 2) with f32_0_01 by same_float. replace (decimal64 1 3) with f64_1em3 by same_float. apply asserts_general.
  Qed.
  Lemma schwefel_asserts_iff r : genetic_schwefel_asserts np32 r = Ret tt <->
    exists x v, r = Some (x, v) /\
      (forall i, i < 5 -> exists xi, nth_error x i = Some xi /\ ltb (b_abs (b_sub np32 xi (b_of_Z 421))) (decimal32 1 1) = true) /\
      ltb (b_abs v) (decimal64 1 3) = true.
  Proof.
    replace (decimal32 1 1) with f32_0_1 by same_float. replace (decimal64 1 3) with f64_1em3 by same_float. apply asserts_general.
  Qed.
  Lemma genetic_asserts_iff r : genetic_paraboloid_asserts np32 r = Ret tt <->
    exists x v, r = Some (x, v) /\
      (forall i, i < 5 -> exists xi, nth_error x i = Some xi /\ ltb (b_abs (b_sub np32 xi (float_count (S i)))) (decimal32 1 1) = true) /\
      ltb (b_abs v) (decimal64 1 3) = true.
  Proof.
    replace (decimal32 1 1) with f32_0_1 by same_float. replace (decimal64 1 3) with f64_1em3 by same_float. apply asserts_iff.
  Qed.
  Lemma swarm_asserts_iff r : particleswarm_paraboloid_asserts np32 r = Ret tt <->
    exists x v, r = Some (x, v) /\
      (forall i, i < 5 -> exists xi, nth_error x i = Some xi /\ ltb (b_abs (b_sub np32 xi (float_count (S i)))) (decimal32 3 1) = true) /\
      ltb (b_abs v) (decimal64 1 1) = true.
  Proof.
    replace (decimal32 3 1) with f32_0_3 by same_float. replace (decimal64 1 1) with f64_0_1 by same_float. apply asserts_iff.
  Qed.
End Paraboloid.

Lemma float_eq_iff {prec emax} (x y : bfloat prec emax) : float_eq x y = true <-> equal_floats x y.
Proof. unfold float_eq, equal_floats. destruct (partial_cmp x y) as [[]|]; split; congruence. Qed.
Lemma forallb_pairs {A B} (f : A -> B -> bool) l1 : forall l2, length l1 = length l2 ->
  forallb (fun xy => f (fst xy) (snd xy)) (combine l1 l2) = true <-> Forall2 (fun a b => f a b = true) l1 l2.
Proof.
  induction l1 as [|a l1 IH]; intros [|b l2] L; try discriminate L; [split; auto|]. cbn [combine forallb fst snd].
  rewrite andb_true_iff, IH by (simpl in L; lia). split; [intros [H1 H2]; now constructor|intros H; inversion H; auto].
Qed.
Lemma pairs_length {A B} (R : A -> B -> Prop) l1 l2 : Forall2 R l1 l2 -> length l1 = length l2.
Proof. induction 1; simpl; congruence. Qed.
Lemma pairs_weaken {A B} (R S : A -> B -> Prop) l1 l2 : (forall a b, R a b -> S a b) -> Forall2 R l1 l2 -> Forall2 S l1 l2.
Proof. induction 2; constructor; auto. Qed.
Lemma point_iff p q : assert_eq_point p q = Ret tt <-> equal_points p q.
Proof.
  unfold assert_eq_point, equal_points. destruct p as [xs v], q as [ys w]. cbn [fst snd]. split.
  - intros H. match type of H with (obind ?m _ = _) => destruct m as [[]| |] eqn:E; cbn [obind] in H; try discriminate H end.
    apply oassert_ret in H, E. apply andb_true_iff in E. destruct E as [L E]. apply Nat.eqb_eq in L.
    split; [|now apply float_eq_iff].
    pose proof (proj1 (forallb_pairs (@float_eq 24 128) xs ys L) E) as F.
    eapply pairs_weaken; [|exact F]. intros a b. apply float_eq_iff.
  - intros [F E]. assert (L := pairs_length _ _ _ F).
    assert (K : forallb (fun xy => @float_eq 24 128 (fst xy) (snd xy)) (combine xs ys) = true).
    { apply forallb_pairs; [exact L|]. eapply pairs_weaken; [|exact F]. intros a b. apply float_eq_iff. }
    match goal with |- context [forallb ?g ?l] => replace (forallb g l) with true by (symmetry; exact K) end.
    apply float_eq_iff in E.
    match goal with |- context [Nat.eqb ?a ?b] => replace (Nat.eqb a b) with true by (symmetry; apply Nat.eqb_eq; exact L) end.
    cbn [andb oassert obind]. unfold oassert.
    match goal with |- context [float_eq ?a ?b] => replace (float_eq a b) with true by (symmetry; exact E) end. reflexivity.
Qed.

Lemma recorded_iff (res : list (option (list f32 * f64))) : forall pre l,
  omap (fun i => let! r := index (pre ++ res) i in unwrap r) (seq (length pre) (length res)) = Ret l <-> res = map Some l.
Proof.
  induction res as [|o res IH]; intros pre l.
  - cbn. destruct l; split; intros H; try discriminate H; reflexivity.
  - cbn [length seq omap]. assert (E : index (pre ++ o :: res) (length pre) = Ret o).
    { apply index_ret. now rewrite nth_error_app2, Nat.sub_diag by lia. }
    rewrite E. cbn [obind]. specialize (IH (pre ++ [o])). rewrite <- app_assoc in IH. cbn [app] in IH.
    rewrite app_length in IH. simpl length in IH. replace (length pre + 1) with (S (length pre)) in IH by lia.
    destruct o as [p|]; cbn [unwrap obind].
    + split.
      * destruct (omap _ _) as [l'| |] eqn:F; cbn [obind]; intros H; try discriminate H. injection H as <-.
        rewrite (proj1 (IH l') eq_refl). reflexivity.
      * intros H. destruct l as [|q l]; [discriminate H|]. injection H as <- H. apply IH in H. rewrite H. reflexivity.
    + split; [discriminate|]. intros H. destruct l; discriminate H.
Qed.
Lemma stat_asserts_iff found (st : statistics (list f32)) : stat_asserts found st = Ret tt <->
  length (convergence st) = length found /\
  exists recorded, results st = map Some recorded /\ Forall2 equal_points found recorded.
Proof.
  unfold stat_asserts, get_run_count. split.
  - intros H. destruct (length (results st) =? length found) eqn:L1; [|discriminate H].
    destruct (length (convergence st) =? length found) eqn:L2; [|discriminate H].
    apply Nat.eqb_eq in L1, L2. split; [exact L2|]. cbn [oassert obind] in H.
    pose proof (recorded_iff (results st) []) as R. cbn [app length] in R. rewrite <- L1 in H.
    match type of H with (obind ?m _ = _) => destruct m as [l| |] eqn:E; cbn [obind] in H; try discriminate H end.
    exists l. assert (K := proj1 (R l) eq_refl). split; [exact K|]. rewrite K, map_length in L1. clear - H L1.
    revert l L1 H. induction found as [|p found IH]; intros [|q l] L1 H; try discriminate L1; [constructor|].
    cbn [combine ofold fst snd] in H. destruct (assert_eq_point p q) as [[]| |] eqn:E; cbn [obind] in H; try discriminate H.
    constructor; [now apply point_iff|]. apply IH; [simpl in L1; lia|exact H].
  - intros [L2 [l [K F]]]. assert (L := pairs_length _ _ _ F).
    assert (L1 : length (results st) = length found) by now rewrite K, map_length.
    rewrite L1, L2, Nat.eqb_refl. cbn [oassert obind].
    pose proof (recorded_iff (results st) []) as R. cbn [app length] in R. rewrite <- L1. rewrite (proj2 (R l) K). cbn [obind].
    clear - F. induction F as [|p q ps qs H F IH]; [reflexivity|]. cbn [combine ofold fst snd]. apply point_iff in H. rewrite H. exact IH.
Qed.
