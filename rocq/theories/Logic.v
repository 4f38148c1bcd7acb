(** * Reasoning about runs: inversion of returning computations, and a Hoare
    logic for all outcomes (returning, panicking, still running) *)

From Coq Require Import List Arith ZArith Bool Lia.
From Verif Require Import Base.
Import ListNotations.

(** ** Outcomes *)
Lemma obind_ret {A B} (o : outcome A) (k : A -> outcome B) b :
  obind o k = Ret b <-> exists a, o = Ret a /\ k a = Ret b.
Proof.
  destruct o; simpl; split; intros H; try discriminate.
  - exists a; auto.
  - destruct H as [x [Hx Hk]]. inversion Hx; subst; auto.
  - destruct H as [x [Hx _]]; discriminate.
  - destruct H as [x [Hx _]]; discriminate.
Qed.

Lemma oassert_ret b u : oassert b = Ret u <-> b = true.
Proof. destruct b, u; simpl; split; congruence. Qed.

Lemma unwrap_ret {A} (o : option A) a : unwrap o = Ret a <-> o = Some a.
Proof. destruct o; simpl; split; congruence. Qed.

Lemma index_ret {A} (l : list A) i x : index l i = Ret x <-> nth_error l i = Some x.
Proof. unfold index. destruct (nth_error l i); split; congruence. Qed.

Lemma index_lt {A} (l : list A) i : i < length l -> exists x, index l i = Ret x /\ nth_error l i = Some x.
Proof.
  intros H. unfold index. destruct (nth_error l i) eqn:E; eauto.
  apply nth_error_None in E. lia.
Qed.

Lemma index_panic {A} (l : list A) i : length l <= i -> index l i = Panic.
Proof. intros H. unfold index. apply nth_error_None in H. now rewrite H. Qed.

Lemma update_spec {A} (l : list A) i x :
  (i < length l ->
   exists l', update l i x = Ret l' /\ length l' = length l /\
     nth_error l' i = Some x /\ forall j, j <> i -> nth_error l' j = nth_error l j) /\
  (length l <= i -> update l i x = Panic).
Proof.
  revert i. induction l as [|h t IH]; intros i; simpl.
  - split; [lia|reflexivity].
  - destruct i as [|i].
    + split; [|lia]. intros _. exists (x :: t). repeat split; auto.
      intros [|j] Hj; simpl; congruence.
    + destruct (IH i) as [IH1 IH2]. split; intros H.
      * destruct IH1 as [t' [E [Hl [Hn Ho]]]]; [lia|].
        exists (h :: t'). rewrite E. simpl. repeat split; auto.
        intros [|j] Hj; simpl; auto.
      * rewrite IH2; [reflexivity|lia].
Qed.

Lemma update_ret {A} (l : list A) i x l' :
  update l i x = Ret l' ->
  i < length l /\ length l' = length l /\ nth_error l' i = Some x /\
  forall j, j <> i -> nth_error l' j = nth_error l j.
Proof.
  intros H. destruct (update_spec l i x) as [H1 H2].
  destruct (le_lt_dec (length l) i) as [Hl|Hl].
  - rewrite H2 in H; [discriminate|auto].
  - destruct H1 as [l2 [E R]]; auto. rewrite E in H. inversion H; subst. auto.
Qed.

Lemma update_firstn_skipn {A} (l : list A) i x l' :
  update l i x = Ret l' -> l' = firstn i l ++ x :: skipn (S i) l.
Proof.
  revert i l'. induction l as [|h t IH]; intros i l'; simpl; [discriminate|].
  destruct i as [|i]; simpl.
  - intros H; inversion H; reflexivity.
  - intros H. apply obind_ret in H. destruct H as [t' [E H]]. inversion H; subst.
    now rewrite (IH _ _ E).
Qed.

Lemma ofold_app {A S} (f : S -> A -> outcome S) l1 l2 s :
  ofold f (l1 ++ l2) s = obind (ofold f l1 s) (ofold f l2).
Proof.
  revert s. induction l1 as [|x t IH]; intros s; simpl; auto.
  destruct (f s x); simpl; auto.
Qed.

(** Loop invariant for a fold whose body may panic. *)
Lemma ofold_inv {A S} (f : S -> A -> outcome S) (I : list A -> S -> Prop) l s s' :
  (forall done x s s', I done s -> In x l -> f s x = Ret s' -> I (done ++ [x]) s') ->
  I [] s -> ofold f l s = Ret s' -> I l s'.
Proof.
  intros Hstep Hs H.
  assert (G : forall todo done s, (forall x, In x todo -> In x l) -> I done s ->
                ofold f todo s = Ret s' -> I (done ++ todo) s').
  { induction todo as [|x t IH]; intros done s0 Hin HI E; simpl in E.
    - inversion E; subst. now rewrite app_nil_r.
    - apply obind_ret in E. destruct E as [s1 [E1 E2]].
      replace (done ++ x :: t) with ((done ++ [x]) ++ t) by (rewrite <- app_assoc; reflexivity).
      apply (IH _ s1); auto.
      + intros y Hy. apply Hin. now right.
      + eapply Hstep; eauto. apply Hin. now left. }
  apply (G l [] s); auto.
Qed.

(** A fold whose body preserves an invariant and cannot panic under it. *)
Lemma ofold_total {A S} (f : S -> A -> outcome S) (I : list A -> S -> Prop) l s :
  (forall done x rest s, l = done ++ x :: rest -> I done s -> exists s', f s x = Ret s' /\ I (done ++ [x]) s') ->
  I [] s -> exists s', ofold f l s = Ret s' /\ I l s'.
Proof.
  intros Hstep Hs.
  assert (G : forall todo done s, l = done ++ todo -> I done s ->
                exists s', ofold f todo s = Ret s' /\ I (done ++ todo) s').
  { induction todo as [|x t IH]; intros done s0 Hl HI; simpl.
    - exists s0. now rewrite app_nil_r.
    - destruct (Hstep done x t s0 Hl HI) as [s1 [E1 HI1]].
      rewrite E1. simpl.
      destruct (IH (done ++ [x]) s1) as [s2 [E2 HI2]]; auto.
      + rewrite <- app_assoc. exact Hl.
      + exists s2. split; auto. rewrite <- app_assoc in HI2. exact HI2. }
  exact (G l [] s eq_refl Hs).
Qed.

Lemma Forall2_impl {A B} (P Q : A -> B -> Prop) l l' :
  (forall x y, P x y -> Q x y) -> Forall2 P l l' -> Forall2 Q l l'.
Proof. intros H. induction 1; constructor; auto. Qed.

Lemma omap_ret {A B} (f : A -> outcome B) l l' :
  omap f l = Ret l' <-> Forall2 (fun x y => f x = Ret y) l l'.
Proof.
  revert l'. induction l as [|x t IH]; intros l'; simpl.
  - split; intros H.
    + inversion H; constructor.
    + inversion H; reflexivity.
  - split; intros H.
    + apply obind_ret in H. destruct H as [y [E1 H]].
      apply obind_ret in H. destruct H as [t' [E2 H]].
      inversion H; subst. constructor; auto. now apply IH.
    + inversion H; subst. rewrite H2. simpl.
      match goal with h : Forall2 _ t _ |- _ => apply IH in h; rewrite h end. reflexivity.
Qed.

(** ** Components *)
Lemma cbind_ret {U A B} (m : comp U A) (k : A -> comp U B) u b u' :
  cbind m k u = (Ret b, u') <-> exists a u1, m u = (Ret a, u1) /\ k a u1 = (Ret b, u').
Proof.
  unfold cbind. destruct (m u) as [[a| |] u1]; split; intros H; try discriminate.
  - exists a, u1; auto.
  - destruct H as [a0 [u0 [E H]]]. inversion E; subst; auto.
  - destruct H as [a0 [u0 [E H]]]; discriminate.
  - destruct H as [a0 [u0 [E H]]]; discriminate.
Qed.

Lemma cret_ret {U A} (a b : A) (u u' : U) : cret a u = (Ret b, u') <-> a = b /\ u = u'.
Proof. unfold cret. split; [intros H; inversion H; auto|intros [-> ->]; auto]. Qed.

Lemma cpure_ret {U A} (o : outcome A) (b : A) (u u' : U) :
  cpure o u = (Ret b, u') <-> o = Ret b /\ u = u'.
Proof. unfold cpure. split; [intros H; inversion H; auto|intros [-> ->]; auto]. Qed.

(** ** Runs *)
Lemma mbind_ret {U E A B} (m : M U E A) (k : A -> M U E B) u b u' t :
  mbind m k u = (Ret b, u', t) <->
  exists a u1 t1 t2, m u = (Ret a, u1, t1) /\ k a u1 = (Ret b, u', t2) /\ t = t1 ++ t2.
Proof.
  unfold mbind. destruct (m u) as [[[a| |] u1] t1]; split; intros H; try discriminate.
  - destruct (k a u1) as [[o u2] t2] eqn:Ek. inversion H; subst.
    exists a, u1, t1, t2; auto.
  - destruct H as [a0 [u0 [t0 [t2 [E1 [E2 ->]]]]]]. inversion E1; subst. now rewrite E2.
  - destruct H as [a0 [u0 [t0 [t2 [E1 _]]]]]; discriminate.
  - destruct H as [a0 [u0 [t0 [t2 [E1 _]]]]]; discriminate.
Qed.

Lemma mret_ret {U E A} (a b : A) (u u' : U) (t : list E) :
  mret a u = (Ret b, u', t) <-> a = b /\ u = u' /\ t = [].
Proof. unfold mret. split; [intros H; inversion H; auto|intros [-> [-> ->]]; auto]. Qed.

Lemma emit_ret {U E} (e : E) (x : unit) (u u' : U) (t : list E) :
  emit e u = (Ret x, u', t) <-> u = u' /\ t = [e].
Proof. unfold emit. destruct x. split; [intros H; inversion H; auto|intros [-> ->]; auto]. Qed.

Lemma call_ret {U E A} (c : comp U A) a u u' (t : list E) :
  call c u = (Ret a, u', t) <-> c u = (Ret a, u') /\ t = [].
Proof.
  unfold call. destruct (c u) as [o u1]. split; [intros H; inversion H; auto|].
  intros [H ->]. inversion H; subst; reflexivity.
Qed.

Lemma pure_ret {U E A} (o : outcome A) a (u u' : U) (t : list E) :
  pure o u = (Ret a, u', t) <-> o = Ret a /\ u = u' /\ t = [].
Proof. unfold pure. split; [intros H; inversion H; auto|intros [-> [-> ->]]; auto]. Qed.

(** Splits a hypothesis "this computation returned" along the monadic structure. *)
Ltac minv H :=
  lazymatch type of H with
  | mbind _ _ _ = (Ret _, _, _) =>
      let a := fresh "a" in let u := fresh "u" in let t1 := fresh "t" in let t2 := fresh "t" in
      let H1 := fresh H in
      apply mbind_ret in H; destruct H as [a [u [t1 [t2 [H1 [H ?]]]]]]; subst;
      minv H1; minv H
  | mret _ _ = (Ret _, _, _) =>
      apply mret_ret in H; destruct H as [? [? ?]]; subst
  | emit _ _ = (Ret _, _, _) =>
      apply emit_ret in H; destruct H as [? ?]; subst
  | call _ _ = (Ret _, _, _) =>
      apply call_ret in H; destruct H as [H ?]; subst
  | pure _ _ = (Ret _, _, _) =>
      apply pure_ret in H; destruct H as [H [? ?]]; subst
  | _ => idtac
  end.

Ltac cinv H :=
  lazymatch type of H with
  | cbind _ _ _ = (Ret _, _) =>
      let a := fresh "a" in let u := fresh "u" in let H1 := fresh H in
      apply cbind_ret in H; destruct H as [a [u [H1 H]]]; cinv H1; cinv H
  | cret _ _ = (Ret _, _) => apply cret_ret in H; destruct H as [? ?]; subst
  | cpure _ _ = (Ret _, _) => apply cpure_ret in H; destruct H as [H ?]; subst
  | _ => idtac
  end.

(** ** Hoare triples

    [hoare P m Q X]: started with past events [h] and environment [u] such that
    [P h u], if [m] returns then [Q] holds of the result, all events so far and
    the environment; if it panics or is cut off by the fuel then [X] holds of all
    events so far and the environment. *)
Definition hoare {U E A} (P : list E -> U -> Prop) (m : M U E A)
  (Q : A -> list E -> U -> Prop) (X : list E -> U -> Prop) : Prop :=
  forall h u, P h u ->
    match m u with
    | (Ret a, u', t) => Q a (h ++ t) u'
    | (_, u', t) => X (h ++ t) u'
    end.

Section HoareRules.
  Context {U E : Type}.
  Implicit Types (P X : list E -> U -> Prop).

  Lemma hoare_conseq {A} P P' (m : M U E A) (Q Q' : A -> list E -> U -> Prop) X X' :
    hoare P m Q X ->
    (forall h u, P' h u -> P h u) ->
    (forall a h u, Q a h u -> Q' a h u) ->
    (forall h u, X h u -> X' h u) ->
    hoare P' m Q' X'.
  Proof.
    intros H HP HQ HX h u Hp. specialize (H h u (HP _ _ Hp)).
    destruct (m u) as [[[a| |] u'] t]; auto.
  Qed.

  Lemma hoare_pre {A} P P' (m : M U E A) Q X :
    hoare P m Q X -> (forall h u, P' h u -> P h u) -> hoare P' m Q X.
  Proof. intros H HP. eapply hoare_conseq; eauto. Qed.

  Lemma hoare_mret {A} (a : A) (Q : A -> list E -> U -> Prop) X : hoare (Q a) (mret a) Q X.
  Proof. intros h u H. simpl. now rewrite app_nil_r. Qed.

  Lemma hoare_mbind {A B} P (m : M U E A) (k : A -> M U E B)
    (R : A -> list E -> U -> Prop) (Q : B -> list E -> U -> Prop) X :
    hoare P m R X -> (forall a, hoare (R a) (k a) Q X) -> hoare P (mbind m k) Q X.
  Proof.
    intros Hm Hk h u HP. specialize (Hm h u HP). unfold mbind.
    destruct (m u) as [[[a| |] u1] t1]; auto.
    specialize (Hk a (h ++ t1) u1 Hm).
    destruct (k a u1) as [[[b| |] u2] t2]; rewrite app_assoc; auto.
  Qed.

  Lemma hoare_emit (e : E) (Q : unit -> list E -> U -> Prop) X :
    hoare (fun h u => Q tt (h ++ [e]) u) (emit e) Q X.
  Proof. intros h u H. exact H. Qed.

  Lemma hoare_call {A} P (c : comp U A) (Q : A -> list E -> U -> Prop) X :
    (forall h u a u', P h u -> c u = (Ret a, u') -> Q a h u') ->
    (forall h u u', P h u -> c u = (Panic, u') \/ c u = (NoFuel, u') -> X h u') ->
    hoare P (call c) Q X.
  Proof.
    intros HQ HX h u HP. unfold call. destruct (c u) as [[a| |] u'] eqn:Ec; rewrite app_nil_r; eauto.
  Qed.

  Lemma hoare_pure {A} P (o : outcome A) (Q : A -> list E -> U -> Prop) X :
    (forall h u a, P h u -> o = Ret a -> Q a h u) ->
    (forall h u, P h u -> X h u) ->
    hoare P (pure o) Q X.
  Proof.
    intros HQ HX h u HP. unfold pure. destruct o as [a| |]; rewrite app_nil_r; eauto.
  Qed.

  Lemma hoare_nofuel {A} X (Q : A -> list E -> U -> Prop) : hoare X nofuel Q X.
  Proof. intros h u HX. simpl. now rewrite app_nil_r. Qed.

  Lemma hoare_mfold {A S} (f : S -> A -> M U E S) (l : list A)
    (I : S -> list E -> U -> Prop) X s :
    (forall s x, In x l -> hoare (I s) (f s x) I X) ->
    hoare (I s) (mfold f l s) I X.
  Proof.
    revert s. induction l as [|x t IH]; intros s H; simpl.
    - apply hoare_mret.
    - eapply hoare_mbind.
      + apply H. now left.
      + intros s'. apply IH. intros s0 y Hy. apply H. now right.
  Qed.

  Lemma hoare_mfor {A} (f : A -> M U E unit) (l : list A) (I : list E -> U -> Prop) X :
    (forall x, In x l -> hoare I (f x) (fun _ => I) X) ->
    hoare I (mfor f l) (fun _ => I) X.
  Proof.
    induction l as [|x t IH]; intros H; simpl.
    - apply (hoare_mret tt (fun _ => I)).
    - eapply hoare_mbind.
      + apply H. now left.
      + intros ?. apply IH. intros y Hy. apply H. now right.
  Qed.

  Lemma hoare_mmapM {A B} (f : A -> M U E B) (l : list A)
    (I : list E -> U -> Prop) (R : A -> B -> Prop) X :
    (forall x, In x l -> hoare I (f x) (fun y h u => I h u /\ R x y) X) ->
    hoare I (mmapM f l) (fun ys h u => I h u /\ Forall2 R l ys) X.
  Proof.
    induction l as [|x t IH]; intros H; simpl.
    - intros h u HI. simpl. rewrite app_nil_r. split; auto.
    - eapply hoare_mbind; [apply H; now left|]. intros y.
      eapply hoare_mbind with (R := fun ys h u => (I h u /\ Forall2 R t ys) /\ R x y).
      + intros h u [HI Hy].
        specialize (IH (fun z Hz => H z (or_intror Hz)) h u HI).
        destruct (mmapM f t u) as [[[ys| |] u'] t']; auto.
      + intros ys h u [[HI Hys] Hy]. simpl. rewrite app_nil_r. split; auto.
  Qed.

  (** From a triple to a statement about one returning run. *)
  Lemma hoare_ret {A} P (m : M U E A) Q X h u a u' t :
    hoare P m Q X -> P h u -> m u = (Ret a, u', t) -> Q a (h ++ t) u'.
  Proof. intros H HP Hm. specialize (H h u HP). now rewrite Hm in H. Qed.

  (** ... and about any run. *)
  Lemma hoare_any {A} P (m : M U E A) (I : list E -> U -> Prop) h u o u' t :
    hoare P m (fun _ => I) I -> P h u -> m u = (o, u', t) -> I (h ++ t) u'.
  Proof. intros H HP Hm. specialize (H h u HP). rewrite Hm in H. now destruct o. Qed.
End HoareRules.
