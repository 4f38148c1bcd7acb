(** * The unit tests pass *)

From Coq Require Import List Arith ZArith Bool String Lia.
From Flocq Require IEEE754.Binary.
From Verif Require Import Base FloatModel Rng GaModel GaComponents PsoModel PsoComponents StatModel
  UnitTestModel SpecRand SpecUnitTests CreateFacts PostFacts.
Import ListNotations.

Lemma compare_floats_test np64 : test_compare_floats np64 = Ret tt.
Proof.
  unfold test_compare_floats. destruct (np_const np64) as [x H]. cbn [proj1_sig].
  destruct x; try discriminate H. vm_compute. reflexivity.
Qed.

Lemma plain_pass np32 np64 : Forall plain_passes (plain_tests np32 np64).
Proof.
  unfold plain_tests.
  constructor; [apply compare_floats_test|].
  repeat (constructor; [vm_compute; reflexivity|]).
  constructor.
Qed.

(** ** The tests that draw random numbers *)

Lemma assert_three_ok x : List.length x = 3 ->
  (forall k g lo hi, nth_error x k = Some g -> nth_error three_intervals k = Some (lo, hi) ->
     leb lo g = true /\ leb g hi = true) ->
  assert_three x = Ret tt.
Proof.
  intros L H. destruct x as [|x0 [|x1 [|x2 [|]]]]; try discriminate L.
  destruct (H 0 x0 _ _ eq_refl eq_refl) as [A0 B0].
  destruct (H 1 x1 _ _ eq_refl eq_refl) as [A1 B1].
  destruct (H 2 x2 _ _ eq_refl eq_refl) as [A2 B2].
  unfold assert_three, index. cbn [nth_error obind]. unfold asserts.
  now rewrite A0, B0, A1, B1, A2, B2.
Qed.

Lemma three_ok np lo hi : In (lo, hi) three_intervals ->
  ltb lo hi = true /\ is_finite (b_sub np hi lo) = true.
Proof.
  intros [E|[E|[E|[]]]]; inversion E; subst lo hi; split; vm_compute; reflexivity.
Qed.

Lemma creator_three : @random_creator_new f64 NumGene64 1000 three_intervals = Ret (RandomCreator 1000 three_intervals).
Proof.
  destruct (@new_panics f64 NumGene64 1000 three_intervals) as [[_ [E|[E|E]]]|[E _]]; try exact E; exfalso.
  - discriminate E.
  - discriminate E.
  - destruct E as ([lo hi] & Hi & E). apply (three_ok np64_default) in Hi. cbn [fst snd] in E.
    change (ltb lo hi = false) in E. rewrite (proj1 Hi) in E. discriminate E.
Qed.

Lemma population_size_test np64 r : fst (test_population_size np64 r) = Ret tt.
Proof.
  unfold test_population_size, cbind, cpure.
  assert (E : @random_creator_new f64 NumGene64 10 [(i64 0, i64 1)] = Ret (RandomCreator 10 [(i64 0, i64 1)])).
  { reflexivity. }
  rewrite E.
  destruct (random_creator_f64 np64 10 [(i64 0, i64 1)] _ r E) as (vs & Ev & L & _).
  - intros i [<-|[]]. vm_compute. reflexivity.
  - rewrite Ev. cbn [fst]. now rewrite L.
Qed.

Lemma asserts_three_all cs : (forall j x, nth_error cs j = Some x -> assert_three x = Ret tt) ->
  ofold (fun _ x => assert_three x) cs tt = Ret tt.
Proof.
  induction cs as [|x cs IH]; intros H; [reflexivity|].
  cbn [ofold]. rewrite (H 0 x eq_refl). cbn [obind]. apply IH. intros j y. apply (H (S j)).
Qed.

Lemma creator_intervals_test np64 r : fst (test_creator_intervals np64 r) = Ret tt.
Proof.
  unfold test_creator_intervals, cbind, cpure. pose proof creator_three as E. rewrite E.
  destruct (random_creator_f64 np64 1000 three_intervals _ r E) as (vs & Ev & _ & H).
  - intros [lo hi] Hi. now apply (three_ok np64) in Hi.
  - rewrite Ev. cbn [fst]. apply asserts_three_all. intros j x Hx. destruct (H j x Hx) as [L K].
    apply assert_three_ok; [exact L|]. intros k g lo hi Hg Hi. now apply (K k g lo hi Hg Hi).
Qed.

Lemma vector_empty_test np64 r : fst (test_vector_empty np64 r) = Ret tt.
Proof. reflexivity. Qed.

Lemma replicate_tt (m : comp rng unit) : (forall r, fst (m r) = Ret tt) ->
  forall n r, fst (creplicate n m r) = Ret (repeat tt n).
Proof.
  intros H. induction n as [|n IH]; intros r; [reflexivity|].
  cbn [creplicate repeat]. unfold cbind. pose proof (H r) as E. destruct (m r) as [o r1]. cbn [fst] in E. subst o.
  pose proof (IH r1) as K. destruct (creplicate n m r1) as [o r2]. cbn [fst] in K. subst o. reflexivity.
Qed.

Lemma one_vector np64 r : fst ((do x <- @create_vec f64 NumGene64 np64 three_intervals ;; cpure (assert_three x)) r) = Ret tt.
Proof.
  destruct (random_vectors_f64 np64 three_intervals 1 r (three_ok np64)) as (vs & Ev & L & H).
  unfold random_vectors in Ev. cbn [creplicate] in Ev. unfold cbind in *.
  destruct (@create_vec f64 NumGene64 np64 three_intervals r) as [o r1].
  destruct o as [x| |]; try discriminate Ev.
  injection Ev as <- _. destruct (H 0 x eq_refl) as [Lx K].
  unfold cpure. cbn [fst]. apply assert_three_ok; [exact Lx|].
  intros k g lo hi Hg Hi. now apply (K k g lo hi Hg Hi).
Qed.

Lemma vector_intervals_test np64 r : fst (test_vector_intervals np64 r) = Ret tt.
Proof.
  unfold test_vector_intervals. pose proof (replicate_tt _ (one_vector np64) 1000 r) as E.
  unfold cbind at 1. destruct (creplicate 1000 _ r) as [o r1]. cbn [fst] in E. subst o. reflexivity.
Qed.

Lemma unordered_panics np64 intervals i r : In i intervals ->
  @ng_lt f64 NumGene64 (fst i) (snd i) = false ->
  fst ((do _ <- @create_vec f64 NumGene64 np64 intervals ;; cret tt) r) = Panic.
Proof.
  intros Hi E. pose proof (create_vec_unordered np64 intervals r i Hi E) as K. unfold cbind.
  destruct (create_vec np64 intervals r) as [o r1]. cbn [fst] in K. subst o. reflexivity.
Qed.

Lemma random_pass np64 : Forall random_passes (random_tests np64).
Proof.
  unfold random_tests.
  constructor; [intros r; apply population_size_test|].
  constructor; [intros r; apply creator_intervals_test|].
  constructor; [intros r; apply vector_empty_test|].
  constructor; [intros r; apply vector_intervals_test|].
  constructor; [intros r; apply (unordered_panics np64 _ (i64 1, i64 0) r); [now left|vm_compute; reflexivity]|].
  constructor; [intros r; apply (unordered_panics np64 _ (i64 0, i64 0) r); [now left|vm_compute; reflexivity]|].
  constructor; [intros r; apply (unordered_panics np64 _ (i64 10, i64 0) r); [now right; left|vm_compute; reflexivity]|].
  constructor.
Qed.
