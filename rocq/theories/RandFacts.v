(** * Computations that consume a fixed number of random draws *)

From Coq Require Import List Arith ZArith Bool Lia FunctionalExtensionality.
From Verif Require Import Base Logic FloatModel Rng SpecRand.
Import ListNotations.

Lemma shift_0 r : shift 0 r = r.
Proof. apply functional_extensionality. reflexivity. Qed.
Lemma shift_shift a b r : shift a (shift b r) = shift (b + a) r.
Proof. apply functional_extensionality. intros k. unfold shift. f_equal. lia. Qed.
Lemma drawn_shift n r lo hi k : drawn (shift n r) lo hi k = drawn r lo hi (n + k).
Proof. reflexivity. Qed.

Lemma drawn_bound r lo hi k : lo < hi -> lo <= drawn r lo hi k < hi.
Proof.
  intros H. unfold drawn.
  assert (0 <= r k mod Z.of_nat (hi - lo) < Z.of_nat (hi - lo))%Z by (apply Z.mod_pos_bound; lia).
  lia.
Qed.

(** [m] always returns, after [c] draws, with a result that is a function of the stream. *)
Definition consumes {A} (c : nat) (m : comp rng A) (g : rng -> A) : Prop :=
  forall r, m r = (Ret (g r), shift c r).

Lemma consumes_ret {A} (a : A) : consumes 0 (cret a) (fun _ => a).
Proof. intros r. unfold cret. now rewrite shift_0. Qed.
Lemma consumes_pure {A} (o : outcome A) a : o = Ret a -> consumes 0 (cpure o) (fun _ => a).
Proof. intros -> r. unfold cpure. now rewrite shift_0. Qed.
Lemma consumes_bind {A B} a b (m : comp rng A) (k : A -> comp rng B) g h :
  consumes a m g -> (forall x, consumes b (k x) (h x)) ->
  consumes (a + b) (cbind m k) (fun r => h (g r) (shift a r)).
Proof.
  intros Hm Hk r. unfold cbind. rewrite Hm, Hk, shift_shift. reflexivity.
Qed.
(** The continuation only needs to behave on results that occur. *)
Lemma consumes_bind' {A B} a b (m : comp rng A) (k : A -> comp rng B) g h :
  consumes a m g -> (forall r, k (g r) (shift a r) = (Ret (h r), shift b (shift a r))) ->
  consumes (a + b) (cbind m k) h.
Proof.
  intros Hm Hk r. unfold cbind. rewrite Hm, Hk, shift_shift. reflexivity.
Qed.
Lemma consumes_ext {A} c (m : comp rng A) g g' :
  consumes c m g -> (forall r, g r = g' r) -> consumes c m g'.
Proof. intros H E r. rewrite H, E. reflexivity. Qed.
Lemma consumes_count {A} c c' (m : comp rng A) g : consumes c m g -> c = c' -> consumes c' m g.
Proof. now intros H <-. Qed.

Lemma consumes_usize lo hi : consumes 1 (sample_usize (lo, hi)) (fun r => drawn r lo hi 0).
Proof. intros r. reflexivity. Qed.

Lemma consumes_replicate {A} c (m : comp rng A) g n : consumes c m g ->
  consumes (n * c) (creplicate n m) (fun r => map (fun j => g (shift (j * c) r)) (seq 0 n)).
Proof.
  intros Hm. induction n as [|n IH]; simpl.
  - apply consumes_ret.
  - intros r. unfold cbind. rewrite Hm, IH. unfold cret. rewrite shift_shift. f_equal.
    f_equal. f_equal.
    rewrite <- seq_shift, map_map. apply map_ext. intros j. rewrite shift_shift. reflexivity.
Qed.

Lemma consumes_mapM {A B} c (f : A -> comp rng B) (g : A -> rng -> B) l :
  (forall x, In x l -> consumes c (f x) (g x)) ->
  consumes (length l * c) (cmapM f l)
    (fun r => map (fun jx => g (snd jx) (shift (fst jx * c) r)) (enumerate l)).
Proof.
  intros H. induction l as [|x l IH]; simpl.
  - apply consumes_ret.
  - intros r. unfold cbind. rewrite (H x (or_introl eq_refl)).
    rewrite IH by (intros y Hy; apply H; now right). unfold cret. rewrite shift_shift.
    f_equal. f_equal. f_equal.
    unfold enumerate. rewrite <- seq_shift.
      assert (E : forall s, combine (map S s) l = map (fun p => (S (fst p), snd p)) (combine s l)).
      { clear. induction l as [|y l IH]; intros [|n s]; simpl; auto. now rewrite IH. }
      rewrite E, map_map. apply map_ext. intros [j y]. simpl. rewrite shift_shift. reflexivity.
Qed.
