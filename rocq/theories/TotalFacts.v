(** * Runs that never panic *)

From Coq Require Import List Arith ZArith Bool Lia.
From Verif Require Import Base Logic FloatModel GaModel SpecGa SpecTotal.
Import ListNotations.

(** [m] does not panic; if it returns, [Q] holds of the result; [I] is kept; it is cut off
    by the fuel only if [N]; [V] holds of all its events. *)
Definition safe {U E A} (N : Prop) (I : U -> Prop) (V : E -> Prop) (m : M U E A) (Q : A -> Prop) : Prop :=
  forall u, I u -> match m u with
                   | (Ret a, u', t) => (Q a /\ I u') /\ Forall V t
                   | (Panic, _, _) => False
                   | (NoFuel, _, t) => N /\ Forall V t
                   end.

(** The same, with a condition on the environment left. *)
Definition leads {U E A} (N : Prop) (I : U -> Prop) (V : E -> Prop) (m : M U E A) (Q : A -> U -> Prop) : Prop :=
  forall u, I u -> match m u with
                   | (Ret a, u', t) => Q a u' /\ Forall V t
                   | (Panic, _, _) => False
                   | (NoFuel, _, t) => N /\ Forall V t
                   end.

Section Rules.
  Context {U E : Type} (N : Prop) (I : U -> Prop) (V : E -> Prop).

  Lemma safe_mret {A} (a : A) (Q : A -> Prop) : Q a -> safe N I V (@mret U E A a) Q.
  Proof. intros H u Hu. simpl. auto. Qed.
  Lemma safe_mbind {A B} (m : M U E A) (k : A -> M U E B) (Q : A -> Prop) (R : B -> Prop) :
    safe N I V m Q -> (forall a, Q a -> safe N I V (k a) R) -> safe N I V (mbind m k) R.
  Proof.
    intros Hm Hk u Hu. specialize (Hm u Hu). unfold mbind.
    destruct (m u) as [[[a| |] u1] t1]; auto.
    destruct Hm as [[Qa Hu1] F1]. specialize (Hk a Qa u1 Hu1).
    destruct (k a u1) as [[[b| |] u2] t2]; auto; (split; [apply Hk|apply Forall_app; split; [exact F1|apply Hk]]).
  Qed.
  Lemma safe_emit (e : E) : V e -> safe N I V (emit e) (fun _ => True).
  Proof. intros He u Hu. simpl. auto. Qed.
  Lemma safe_call {A} (c : comp U A) Q : always I Q c -> safe N I V (@call U E A c) Q.
  Proof. intros H u Hu. destruct (H u Hu) as [a [u' [Ec [Qa Hu']]]]. unfold call. rewrite Ec. auto. Qed.
  Lemma safe_pure {A} (o : outcome A) a (Q : A -> Prop) : o = Ret a -> Q a -> safe N I V (@pure U E A o) Q.
  Proof. intros -> Qa u Hu. simpl. auto. Qed.
  Lemma safe_nofuel {A} (Q : A -> Prop) : N -> safe N I V (@nofuel U E A) Q.
  Proof. intros HN u Hu. simpl. auto. Qed.
  Lemma safe_conseq {A} (m : M U E A) (Q R : A -> Prop) : safe N I V m Q -> (forall a, Q a -> R a) -> safe N I V m R.
  Proof.
    intros H K u Hu. specialize (H u Hu). destruct (m u) as [[[a| |] u1] t1]; auto. intuition.
  Qed.

  Lemma safe_mfold {A S} (f : S -> A -> M U E S) l (J : S -> Prop) s :
    (forall s x, J s -> In x l -> safe N I V (f s x) J) -> J s -> safe N I V (mfold f l s) J.
  Proof.
    revert s. induction l as [|x l IH]; intros s H Hs; simpl; [now apply safe_mret|].
    eapply safe_mbind; [apply H; simpl; auto|]. intros s1 H1. apply IH; auto.
    intros s2 y H2 Hy. apply H; simpl; auto.
  Qed.
  Lemma safe_pipeline {A F} (step : A -> F -> M U E A) (view : F -> A -> comp U A) (fs : list F) (P Q : A -> Prop) a :
    (forall f a R, In f fs -> always I R (view f a) -> safe N I V (step a f) R) ->
    pipeline I Q P (map view fs) -> P a -> safe N I V (mfold step fs a) Q.
  Proof.
    revert P a. induction fs as [|f fs IH]; intros P a Hs Hp Pa; simpl in *; inversion Hp as [P0 H1|P0 R f0 fs0 H1 H2]; subst.
    - apply safe_mret. auto.
    - eapply safe_mbind; [apply Hs; [auto|apply H1, Pa]|]. intros b Rb. apply (IH R); auto.
  Qed.
  Lemma safe_mfor {A} (f : A -> M U E unit) l :
    (forall x, In x l -> safe N I V (f x) (fun _ => True)) -> safe N I V (mfor f l) (fun _ => True).
  Proof.
    induction l as [|x l IH]; intros H; simpl; [now apply safe_mret|].
    eapply safe_mbind; [apply H; simpl; auto|]. intros _ _. apply IH; intros; apply H; simpl; auto.
  Qed.
  Lemma safe_mmapM {A B} (f : A -> M U E B) l (Q : A -> B -> Prop) :
    (forall x, In x l -> safe N I V (f x) (Q x)) -> safe N I V (mmapM f l) (Forall2 Q l).
  Proof.
    induction l as [|x l IH]; intros H; simpl; [apply safe_mret; constructor|].
    eapply safe_mbind; [apply H; simpl; auto|]. intros y Hy.
    eapply safe_mbind; [apply IH; intros; apply H; simpl; auto|]. intros ys Hys.
    apply safe_mret. now constructor.
  Qed.
End Rules.

Section Leads.
  Context {U E : Type} (N : Prop) (V : E -> Prop).
  Implicit Types (I : U -> Prop).
  Lemma safe_leads {A} I (m : M U E A) (Q : A -> Prop) (R : A -> U -> Prop) :
    safe N I V m Q -> (forall a u, Q a -> I u -> R a u) -> leads N I V m R.
  Proof.
    intros H K u Hu. specialize (H u Hu). destruct (m u) as [[[a| |] u1] t1]; auto. intuition.
  Qed.
  Lemma leads_mret {A} I (a : A) (Q : A -> U -> Prop) : (forall u, I u -> Q a u) -> leads N I V (@mret U E A a) Q.
  Proof. intros H u Hu. simpl. auto. Qed.
  Lemma leads_nofuel {A} I (Q : A -> U -> Prop) : N -> leads N I V (@nofuel U E A) Q.
  Proof. intros HN u Hu. simpl. auto. Qed.
  Lemma leads_safe_bind {A B} I (m : M U E A) (k : A -> M U E B) (Q : A -> Prop) (R : B -> U -> Prop) :
    safe N I V m Q -> (forall a, Q a -> leads N I V (k a) R) -> leads N I V (mbind m k) R.
  Proof.
    intros Hm Hk u Hu. specialize (Hm u Hu). unfold mbind.
    destruct (m u) as [[[a| |] u1] t1]; auto.
    destruct Hm as [[Qa Hu1] F1]. specialize (Hk a Qa u1 Hu1).
    destruct (k a u1) as [[[b| |] u2] t2]; auto; (split; [apply Hk|apply Forall_app; split; [exact F1|apply Hk]]).
  Qed.
  Lemma leads_bind {A B} I (m : M U E A) (k : A -> M U E B) (Q : A -> Prop) (J : A -> U -> Prop) (R : B -> U -> Prop) :
    leads N I V m (fun a u => Q a /\ J a u) -> (forall a, Q a -> leads N (J a) V (k a) R) -> leads N I V (mbind m k) R.
  Proof.
    intros Hm Hk u Hu. specialize (Hm u Hu). unfold mbind.
    destruct (m u) as [[[a| |] u1] t1]; auto.
    destruct Hm as [[Qa Hu1] F1]. specialize (Hk a Qa u1 Hu1).
    destruct (k a u1) as [[[b| |] u2] t2]; auto; (split; [apply Hk|apply Forall_app; split; [exact F1|apply Hk]]).
  Qed.
  Lemma leads_pre {A} I (J : U -> Prop) (m : M U E A) (Q : A -> U -> Prop) : (forall u, I u -> J u) -> leads N J V m Q -> leads N I V m Q.
  Proof. intros H K u Hu. exact (K u (H u Hu)). Qed.
  Lemma leads_conseq {A} I (m : M U E A) (Q R : A -> U -> Prop) : leads N I V m Q -> (forall a u, Q a u -> R a u) -> leads N I V m R.
  Proof.
    intros H K u Hu. specialize (H u Hu). destruct (m u) as [[[a| |] u1] t1]; auto. intuition.
  Qed.
End Leads.

Section Calls.
  Context {U T S X : Type} (N : Prop) (I : U -> Prop) (V : event T S X -> Prop).
  (** [V] only restricts the events that show the state of the optimizer. *)
  Hypothesis HV : forall e, shows e = None -> V e.
  Lemma safe_call_comp {A} (rec : A -> X) (c : comp U A) Q : always I Q c ->
    safe N I V (@call_comp U T S X A rec c) Q.
  Proof.
    intros H. eapply safe_mbind; [apply safe_call, H|]. intros a Qa.
    eapply safe_mbind; [apply safe_emit; auto|]. intros _ _. now apply safe_mret.
  Qed.
  Lemma safe_call_goal (goal : T -> comp U f64) x : returns I (goal x) ->
    safe N I V (@call_goal U T S X goal x) (fun _ => True).
  Proof.
    intros H. eapply safe_mbind; [apply safe_emit; auto|]. intros _ _.
    eapply safe_mbind; [apply safe_call, H|]. intros v _.
    eapply safe_mbind; [apply safe_emit; auto|]. intros _ _. now apply safe_mret.
  Qed.
  Lemma safe_call_goal_post (goal : T -> comp U f64) x Q : always I Q (goal x) ->
    safe N I V (@call_goal U T S X goal x) Q.
  Proof.
    intros H. eapply safe_mbind; [apply safe_emit; auto|]. intros _ _.
    eapply safe_mbind; [apply safe_call, H|]. intros v Qv.
    eapply safe_mbind; [apply safe_emit; auto|]. intros _ _. now apply safe_mret.
  Qed.
  Lemma safe_call_stop (view : S -> alg_state T) stop s Q : (forall b, V (EStop s b)) -> always I Q (stop (view s)) ->
    safe N I V (@call_stop U T S X view stop s) Q.
  Proof.
    intros Hv H. eapply safe_mbind; [apply safe_call, H|]. intros b Qb.
    eapply safe_mbind; [apply safe_emit; auto|]. intros _ _. now apply safe_mret.
  Qed.
  Lemma safe_call_loggers (view : S -> alg_state T) k ls s :
    (forall i, V (ELog k i s)) -> (forall l, In l ls -> returns I (lg_method k l (view s))) ->
    safe N I V (@call_loggers U T S X view k ls s) (fun _ => True).
  Proof.
    intros Hv H. apply safe_mfor. intros [i l] Hil.
    eapply safe_mbind; [apply safe_emit; auto|]. intros _ _. apply safe_call. apply H.
    unfold enumerate in Hil. apply in_combine_r in Hil. exact Hil.
  Qed.
End Calls.

Section Loggers.
  Context {U T S X : Type} (N : Prop).
  Implicit Types (I : U -> Prop) (V : event T S X -> Prop).
  Lemma leads_loggers I (R : U -> Prop) V (view : S -> alg_state T) k ls s :
    (forall i, V (ELog k i s)) ->
    (forall u, I u -> exists u', tell_all k ls (view s) u = (Ret tt, u') /\ R u') ->
    leads N I V (@call_loggers U T S X view k ls s) (fun _ u => R u).
  Proof.
    intros Hv H u Hu. unfold call_loggers, enumerate. destruct (H u Hu) as [u' [E Ru]]. clear H Hu I.
    generalize 0. revert u E. induction ls as [|l ls IH]; intros u E n; simpl in *.
    - injection E as <-. auto.
    - unfold cbind in E. change (told_by k l (view s) u) with (lg_method k l (view s) u) in E.
      unfold mbind, call, emit.
      destruct (lg_method k l (view s) u) as [[[]| |] u1] eqn:El; try discriminate.
      specialize (IH u1 E (Datatypes.S n)).
      destruct (mfor _ _ u1) as [[[a| |] u2] t2]; [|contradiction|]; destruct IH as [IH1 IH2]; simpl in *;
        (split; [auto|repeat constructor; auto]).
  Qed.
End Loggers.

Lemma leads_not_panic {U E A} N (I : U -> Prop) (V : E -> Prop) (m : M U E A) Q u : leads N I V m Q -> I u -> fst (fst (m u)) <> Panic.
Proof. intros H Hu. specialize (H u Hu). destruct (m u) as [[[a| |] u'] t]; simpl in *; congruence. Qed.
Lemma leads_post {U E A} N (I : U -> Prop) (V : E -> Prop) (m : M U E A) Q u a u' t :
  leads N I V m Q -> I u -> m u = (Ret a, u', t) -> Q a u'.
Proof. intros H Hu E1. specialize (H u Hu). rewrite E1 in H. apply H. Qed.
Lemma leads_events {U E A} N (I : U -> Prop) (V : E -> Prop) (m : M U E A) Q u :
  leads N I V m Q -> I u -> Forall V (snd (m u)).
Proof.
  intros H Hu. specialize (H u Hu). destruct (m u) as [[[a| |] u'] t]; simpl in *; [apply H|destruct H|apply H].
Qed.
Lemma leads_total {U E A} (I : U -> Prop) (V : E -> Prop) (m : M U E A) Q u : leads False I V m Q -> I u ->
  exists a u' t, m u = (Ret a, u', t) /\ Q a u' /\ Forall V t.
Proof.
  intros H Hu. specialize (H u Hu). destruct (m u) as [[[a| |] u'] t]; [|contradiction|destruct H; contradiction].
  exists a, u', t. intuition.
Qed.
Lemma forall2_len {A B} (R : A -> B -> Prop) l l' : Forall2 R l l' -> length l = length l'.
Proof. induction 1; simpl; congruence. Qed.
