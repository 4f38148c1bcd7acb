(** * The main loop, common to both optimizers *)

From Coq Require Import List Arith ZArith Bool Lia RelationClasses.
From Verif Require Import Base Logic FloatModel GaModel PsoModel StopModel SpecGa SpecPso SpecRun
  FloatFacts GaBest GaFacts GaSafety GaTheorems GaMore PsoFacts PsoRuns.
Import ListNotations.

Section Reading.
  Context {T S X : Type}.
  Notation ev := (event T S X).
  Lemma stops_app (a b : list ev) : stops (a ++ b) = stops a ++ stops b.
  Proof. induction a as [|[] a IH]; simpl; auto. now rewrite IH. Qed.
  Lemma work_app (a b : list ev) : work (a ++ b) = work a ++ work b.
  Proof. induction a as [|[] a IH]; simpl; auto; now rewrite IH. Qed.
  Lemma stops_none (t : list ev) : (forall q b, ~ In (EStop q b) t) -> stops t = [].
  Proof.
    induction t as [|e t IH]; intros H; simpl; auto.
    assert (K : forall q b, ~ In (EStop q b) t) by (intros q b Hin; apply (H q b); now right).
    destruct e; auto. exfalso. eapply H. now left.
  Qed.
  Lemma stops_in (t : list ev) q b : In (q, b) (stops t) <-> In (EStop q b) t.
  Proof.
    induction t as [|e t IH]; simpl; [tauto|]. destruct e; simpl; rewrite IH; split; intros H;
      try (destruct H as [H|H]; [discriminate|auto]); auto.
    - destruct H as [H|H]; auto. left. congruence.
    - destruct H as [H|H]; auto. left. congruence.
  Qed.
  Lemma stops_log k n (s : S) : stops (@log_events T S X k n s) = [].
  Proof. unfold log_events. induction (seq 0 n); simpl; auto. Qed.
End Reading.

(** ** Programs that always end *)
Section Ends.
  Context {U E : Type}.
  Definition mends {A} (m : M U E A) : Prop := forall u, fst (fst (m u)) <> NoFuel.
  Lemma mends_ret {A} (a : A) : mends (mret a).
  Proof. intros u. discriminate. Qed.
  Lemma mends_emit e : mends (emit e).
  Proof. intros u. discriminate. Qed.
  Lemma mends_call {A} (c : comp U A) : ends c -> mends (call c).
  Proof. intros H u. unfold call. specialize (H u). now destruct (c u) as [[]]. Qed.
  Lemma mends_pure {A} (o : outcome A) : o <> NoFuel -> mends (pure o).
  Proof. intros H u. exact H. Qed.
  Lemma mends_bind {A B} (m : M U E A) (k : A -> M U E B) :
    mends m -> (forall a, mends (k a)) -> mends (mbind m k).
  Proof.
    intros Hm Hk u. unfold mbind. specialize (Hm u). destruct (m u) as [[[a| |] u1] t1]; simpl in *; try congruence.
    specialize (Hk a u1). now destruct (k a u1) as [[o u2] t2].
  Qed.
  Lemma mends_fold {A S} (f : S -> A -> M U E S) l s :
    (forall s x, In x l -> mends (f s x)) -> mends (mfold f l s).
  Proof.
    revert s. induction l as [|x l IH]; intros s H; simpl; [apply mends_ret|].
    apply mends_bind; [apply H; now left|]. intros s'. apply IH. intros. apply H. now right.
  Qed.
  Lemma mends_for {A} (f : A -> M U E unit) l :
    (forall x, In x l -> mends (f x)) -> mends (mfor f l).
  Proof.
    induction l as [|x l IH]; intros H; simpl; [apply mends_ret|].
    apply mends_bind; [apply H; now left|]. intros _. apply IH. intros. apply H. now right.
  Qed.
  Lemma mends_mapM {A B} (f : A -> M U E B) l :
    (forall x, In x l -> mends (f x)) -> mends (mmapM f l).
  Proof.
    induction l as [|x l IH]; intros H; simpl; [apply mends_ret|].
    apply mends_bind; [apply H; now left|]. intros y. apply mends_bind; [|intros; apply mends_ret].
    apply IH. intros. apply H. now right.
  Qed.
End Ends.

(** ** Programs that do the same work *)
Section Sim.
  Context {U T S X : Type}.
  Notation ev := (event T S X).
  Variable R : U -> U -> Prop.
  Hypothesis HR : Equivalence R.

  (** If [m1] ends, [m2] does the same from any related environment. *)
  Definition sim {A} (m1 m2 : M U ev A) : Prop :=
    forall u1 u2, R u1 u2 -> fst (fst (m1 u1)) <> NoFuel ->
      fst (fst (m2 u2)) = fst (fst (m1 u1)) /\ work (snd (m2 u2)) = work (snd (m1 u1)) /\
      (forall a, fst (fst (m1 u1)) = Ret a -> R (snd (fst (m1 u1))) (snd (fst (m2 u2)))).

  Lemma sim_trans {A} (m1 m2 m3 : M U ev A) : sim m1 m2 -> sim m2 m3 -> sim m1 m3.
  Proof.
    intros H1 H2 u1 u3 Hu Hn. destruct (H1 u1 u1 (Equivalence_Reflexive u1) Hn) as [A1 [B1 C1]].
    rewrite <- A1 in Hn. destruct (H2 u1 u3 Hu Hn) as [A2 [B2 C2]].
    split; [now rewrite A2|]. split; [now rewrite B2|]. intros a Ha. transitivity (snd (fst (m2 u1))).
    - eapply C1; eauto.
    - eapply C2. rewrite A1. exact Ha.
  Qed.
  Lemma sim_eq {A} (m1 m2 m3 : M U ev A) : (forall u, m1 u = m2 u) -> sim m2 m3 -> sim m1 m3.
  Proof. intros E H u1 u2. rewrite E. apply H. Qed.
  Lemma sim_eq_r {A} (m1 m2 m3 : M U ev A) : (forall u, m3 u = m2 u) -> sim m1 m2 -> sim m1 m3.
  Proof. intros E H u1 u2. rewrite E. apply H. Qed.

  Lemma sim_ret {A} (a : A) : sim (mret a) (mret a).
  Proof. intros u1 u2 Hu _. simpl. auto. Qed.
  Lemma sim_pure {A} (o : outcome A) : sim (pure o) (pure o).
  Proof. intros u1 u2 Hu _. simpl. auto. Qed.
  Lemma sim_emit (e : ev) : sim (emit e) (emit e).
  Proof. intros u1 u2 Hu _. simpl. auto. Qed.
  Lemma sim_skip_l (e : ev) : work [e] = [] -> sim (emit e) (mret tt).
  Proof. intros E u1 u2 Hu _. simpl in *. auto. Qed.
  Lemma sim_skip_r (e : ev) : work [e] = [] -> sim (mret tt) (emit e).
  Proof. intros E u1 u2 Hu _. simpl in *. auto. Qed.
  Lemma sim_call {A} (c : comp U A) : comp_respects R c -> sim (call c) (call c).
  Proof.
    intros H u1 u2 Hu _. destruct (H u1 u2 Hu) as [H1 H2]. unfold call.
    destruct (c u1) as [o1 v1], (c u2) as [o2 v2]. simpl in *. auto.
  Qed.
  Lemma sim_bind {A B} (m1 m2 : M U ev A) (k1 k2 : A -> M U ev B) :
    sim m1 m2 -> (forall a, sim (k1 a) (k2 a)) -> sim (mbind m1 k1) (mbind m2 k2).
  Proof.
    intros Hm Hk u1 u2 Hu. unfold mbind. specialize (Hm u1 u2 Hu).
    destruct (m1 u1) as [[[a| |] v1] t1]; simpl in Hm.
    - destruct Hm as [A1 [B1 C1]]; [discriminate|].
      destruct (m2 u2) as [[o2 v2] t2]; simpl in *. subst o2. specialize (C1 a eq_refl).
      specialize (Hk a v1 v2 C1). destruct (k1 a v1) as [[o1' w1] s1], (k2 a v2) as [[o2' w2] s2].
      simpl in *. intros Hn. destruct (Hk Hn) as [A2 [B2 C2]]. rewrite !work_app, B1, B2. auto.
    - intros _. destruct Hm as [A1 [B1 C1]]; [discriminate|].
      destruct (m2 u2) as [[o2 v2] t2]; simpl in *. subst o2. simpl. split; auto. split; auto. discriminate.
    - simpl. congruence.
  Qed.
  Lemma sim_fold {A S'} (f g : S' -> A -> M U ev S') l s :
    (forall s x, In x l -> sim (f s x) (g s x)) -> sim (mfold f l s) (mfold g l s).
  Proof.
    revert s. induction l as [|x l IH]; intros s H; simpl; [apply sim_ret|].
    apply sim_bind; [apply H; now left|]. intros s'. apply IH. intros. apply H. now right.
  Qed.
  Lemma sim_mapM {A B} (f g : A -> M U ev B) l :
    (forall x, In x l -> sim (f x) (g x)) -> sim (mmapM f l) (mmapM g l).
  Proof.
    induction l as [|x l IH]; intros H; simpl; [apply sim_ret|].
    apply sim_bind; [apply H; now left|]. intros y. apply sim_bind; [|intros; apply sim_ret].
    apply IH. intros. apply H. now right.
  Qed.
  Lemma sim_comp {A} (rec : A -> X) (c : comp U A) :
    comp_respects R c -> sim (@call_comp U T S X A rec c) (call_comp rec c).
  Proof.
    intros H. unfold call_comp. apply sim_bind; [now apply sim_call|]. intros a.
    apply sim_bind; [apply sim_emit|]. intros _. apply sim_ret.
  Qed.
  Lemma sim_goal goal x : comp_respects R (goal x) -> sim (@call_goal U T S X goal x) (call_goal goal x).
  Proof.
    intros H. unfold call_goal. apply sim_bind; [apply sim_emit|]. intros _.
    apply sim_bind; [now apply sim_call|]. intros v.
    apply sim_bind; [apply sim_emit|]. intros _. apply sim_ret.
  Qed.

  Lemma mbind_returns {A B} (m : M U ev A) (k : A -> M U ev B) u a v t :
    m u = (Ret a, v, t) -> mbind m k u = (let '(o, w, t') := k a v in (o, w, t ++ t')).
  Proof. intros E. unfold mbind. now rewrite E. Qed.
  (** Harmless loggers do no work. *)
  Lemma loggers_run (view : S -> alg_state T) k ls s u : (forall l, In l ls -> harmless R l) ->
    exists v t, @call_loggers U T S X view k ls s u = (Ret tt, v, t) /\ work t = [] /\ R u v.
  Proof.
    unfold call_loggers, enumerate. generalize 0. revert u.
    induction ls as [|l ls IH]; intros u n H; simpl.
    - exists u, []. split; auto. split; auto. reflexivity.
    - destruct (H l (or_introl eq_refl) k (view s) u) as [H1 H2].
      change (told_by k l) with (lg_method k l) in H1, H2.
      destruct (lg_method k l (view s) u) as [o v] eqn:El. simpl in H1, H2. subst o.
      destruct (IH v (Datatypes.S n)) as [w [t [E [Ew Rw]]]].
      { intros l' Hl'. apply H. now right. }
      rewrite (mbind_returns _ _ u tt v [ELog k n s]).
      2:{ unfold mbind, call. simpl. rewrite El. reflexivity. }
      rewrite E. exists w, (ELog k n s :: t). simpl. split; auto. split; auto.
      transitivity v; auto.
  Qed.
  Lemma sim_loggers_l view k ls s : (forall l, In l ls -> harmless R l) ->
    sim (@call_loggers U T S X view k ls s) (mret tt).
  Proof.
    intros H u1 u2 Hu _. destruct (loggers_run view k ls s u1 H) as [v [t [E [W Rv]]]]. rewrite E. simpl.
    split; auto. split; auto. intros _ _. transitivity u1; [symmetry; auto|auto].
  Qed.
  Lemma sim_loggers_r view k ls s : (forall l, In l ls -> harmless R l) ->
    sim (mret tt) (@call_loggers U T S X view k ls s).
  Proof.
    intros H u1 u2 Hu _. destruct (loggers_run view k ls s u2 H) as [v [t [E [W Rv]]]]. rewrite E. simpl.
    split; auto. split; auto. intros _ _. transitivity u2; auto.
  Qed.
  Lemma sim_loggers view k ls s : (forall l, In l ls -> harmless R l) ->
    sim (@call_loggers U T S X view k ls s) (call_loggers view k ls s).
  Proof. intros H. eapply sim_trans; [apply sim_loggers_l|apply sim_loggers_r]; auto. Qed.
End Sim.

(** ** The loop *)
Section Loop.
  Context {U T S X : Type}.
  Notation ev := (event T S X).
  Variable view : S -> alg_state T.
  Variable step : S -> M U ev S.
  Variable ls : list (logger U T).
  Notation num s := (as_iter (view s)).

  Fixpoint gloop (stop : alg_state T -> comp U bool) (fuel : nat) (s : S) : M U ev S :=
    match fuel with
    | O => nofuel
    | Datatypes.S fuel' =>
        b <- call_stop view stop s ;;
        if (b : bool) then mret s else s' <- step s ;; gloop stop fuel' s'
    end.
  Definition gnext stop fuel (s : S) : M U ev (option (T * f64) * S) :=
    call_loggers view LResume ls s ;;;
    s' <- gloop stop fuel s ;;
    call_loggers view LFinish ls s' ;;;
    mret (as_best (view s'), s').
  Definition gfind (init : M U ev S) stop fuel : M U ev (option (T * f64) * S) :=
    s1 <- init ;;
    call_loggers view LStart ls s1 ;;;
    gnext stop fuel s1.

  (** What a returning loop asked. *)
  Hypothesis step_silent : forall s u s' u' t, step s u = (Ret s', u', t) -> stops t = [].
  Lemma gloop_stops stop fuel s u s' u' t :
    gloop stop fuel s u = (Ret s', u', t) ->
    exists l, stops t = map (fun q => (q, false)) l ++ [(s', true)] /\
      (forall q b, In (q, b) (stops t) -> exists w w', stop (view q) w = (Ret b, w')).
  Proof.
    revert s u t. induction fuel as [|fuel IH]; intros s u t H; simpl in H; [discriminate|].
    unfold call_stop in H. minv H. callinv. destruct a.
    - minv H. exists []. simpl. split; auto. intros q b [E|[]]. inversion E; subst. eauto.
    - minv H. match goal with h : step _ _ = _ |- _ => pose proof (step_silent _ _ _ _ _ h) as Hs end.
      apply IH in H. destruct H as [l [E G]]. exists (s :: l). simpl.
      rewrite stops_app, Hs, E. simpl. split; auto. rewrite E in G.
      intros q b [K|K]; [inversion K; subst; eauto|auto].
  Qed.

  (** ** Counting *)
  Hypothesis step_num : forall s u s' u' t, step s u = (Ret s', u', t) -> num s' = num s + 1.

  Lemma gloop_max n fuel s u s' u' t :
    gloop (max_iterations n) fuel s u = (Ret s', u', t) -> num s' = Nat.max (num s) n.
  Proof.
    revert s u t. induction fuel as [|fuel IH]; intros s u t H; simpl in H; [discriminate|].
    unfold call_stop in H. minv H. callinv. unfold max_iterations, cret in *.
    match goal with h : (Ret _, _) = (Ret _, _) |- _ => inversion h; subst; clear h end.
    destruct (n <=? num s) eqn:En.
    - minv H. apply Nat.leb_le in En. lia.
    - minv H. match goal with h : step _ _ = _ |- _ => pose proof (step_num _ _ _ _ _ h) as Hs end.
      apply IH in H. apply Nat.leb_gt in En. lia.
  Qed.

  (** Enough fuel is enough. *)
  Lemma gloop_fuel n fuel1 fuel2 s u : n - num s < fuel1 -> n - num s < fuel2 ->
    gloop (max_iterations n) fuel1 s u = gloop (max_iterations n) fuel2 s u.
  Proof.
    revert fuel2 s u. induction fuel1 as [|f1 IH]; intros [|f2] s u H1 H2; try lia.
    simpl. unfold mbind. unfold call_stop, mbind. simpl.
    destruct (n <=? num s) eqn:En; auto. simpl.
    destruct (step s u) as [[[s1| |] u1] t1] eqn:Es; auto.
    rewrite (IH f2 s1 u1); auto; apply step_num in Es; apply Nat.leb_gt in En; lia.
  Qed.

  Lemma gloop_ends n fuel s : (forall s, mends (step s)) -> n - num s < fuel ->
    mends (gloop (max_iterations n) fuel s).
  Proof.
    intros Hs. revert s. induction fuel as [|f IH]; intros s Hf u; [lia|].
    simpl. unfold mbind. unfold call_stop, mbind. simpl.
    destruct (n <=? num s) eqn:En; simpl; [discriminate|].
    specialize (Hs s u). destruct (step s u) as [[[s1| |] u1] t1] eqn:Es; simpl in *; try congruence.
    pose proof (IH s1) as G. apply step_num in Es. apply Nat.leb_gt in En.
    specialize (G ltac:(lia) u1). now destruct (gloop _ f s1 u1) as [[o w] t].
  Qed.

  (** ** Pausing *)
  Variable R : U -> U -> Prop.
  Hypothesis HR : Equivalence R.
  Hypothesis Hls : forall l, In l ls -> harmless R l.
  Hypothesis step_sim : forall s, sim R (step s) (step s).

  Definition asks (f : alg_state T -> bool) : alg_state T -> comp U bool := fun s => cret (f s).

  Lemma gloop_asks f fuel s u :
    gloop (asks f) (Datatypes.S fuel) s u =
    (emit (EStop s (f (view s))) ;;;
     if f (view s) then mret s else s' <- step s ;; gloop (asks f) fuel s') u.
  Proof. reflexivity. Qed.

  (** More fuel does not hurt. *)
  Lemma sim_loop_more f fuel k s : sim R (gloop (asks f) fuel s) (gloop (asks f) (fuel + k) s).
  Proof.
    revert s. induction fuel as [|fuel IH]; intros s.
    - intros u1 u2 _ Hn. exfalso. apply Hn. reflexivity.
    - eapply sim_eq; [apply gloop_asks|]. eapply sim_eq_r; [apply gloop_asks|].
      apply sim_bind; [apply sim_emit|]. intros _.
      destruct (f (view s)); [apply sim_ret|]. apply sim_bind; auto.
  Qed.

  Lemma mbind_assoc {A B C} (m : M U ev A) (k1 : A -> M U ev B) (k2 : B -> M U ev C) u :
    mbind (mbind m k1) k2 u = mbind m (fun a => mbind (k1 a) k2) u.
  Proof.
    unfold mbind. destruct (m u) as [[[a| |] u1] t1]; auto.
    destruct (k1 a u1) as [[[b| |] u2] t2]; auto.
    destruct (k2 b u2) as [[o u3] t3]. now rewrite app_assoc.
  Qed.
  Lemma mbind_ext {A B} (m m' : M U ev A) (k k' : A -> M U ev B) u :
    (forall u, m u = m' u) -> (forall a u, k a u = k' a u) -> mbind m k u = mbind m' k' u.
  Proof.
    intros Hm Hk. unfold mbind. rewrite Hm. destruct (m' u) as [[[a| |] u1] t1]; auto. now rewrite Hk.
  Qed.
  Lemma mbind_ret {A B} (a : A) (k : A -> M U ev B) u : mbind (mret a) k u = k a u.
  Proof. unfold mbind, mret. now destruct (k a u) as [[o w] t]. Qed.

  (** Stopping with [f] and going on with [g] is the same as running with [g],
      if [g] only stops where [f] does. *)
  Lemma sim_split f g fuel fuel2 s : (forall a, g a = true -> f a = true) -> fuel <= fuel2 ->
    sim R (gloop (asks g) fuel s)
          (s1 <- gloop (asks f) fuel s ;; gloop (asks g) fuel2 s1).
  Proof.
    intros Hfg. revert s. induction fuel as [|fuel IH]; intros s Hle.
    { intros u1 u2 _ Hn. exfalso. apply Hn. reflexivity. }
    assert (Er : forall u, (s1 <- gloop (asks f) (Datatypes.S fuel) s ;; gloop (asks g) fuel2 s1) u =
      (emit (EStop s (f (view s))) ;;;
       if f (view s) then gloop (asks g) fuel2 s
       else s' <- step s ;; (s1 <- gloop (asks f) fuel s' ;; gloop (asks g) fuel2 s1)) u).
    { intros u. erewrite mbind_ext; [|apply gloop_asks|reflexivity]. rewrite mbind_assoc.
      apply mbind_ext; [reflexivity|]. intros _ v. destruct (f (view s)).
      - now rewrite mbind_ret.
      - now rewrite mbind_assoc. }
    eapply sim_eq_r; [exact Er|]. clear Er.
    destruct (f (view s)) eqn:Ef.
    - (* the first loop stops at once *)
      replace fuel2 with (Datatypes.S fuel + (fuel2 - Datatypes.S fuel)) by lia.
      apply sim_eq with (m2 := (mret tt ;;; gloop (asks g) (Datatypes.S fuel) s)).
      { intros u. now rewrite mbind_ret. }
      apply sim_bind; [apply sim_skip_r; reflexivity|]. intros _. apply sim_loop_more.
    - (* both go on *)
      assert (Eg : g (view s) = false) by (destruct (g (view s)) eqn:Eg; auto; apply Hfg in Eg; congruence).
      eapply sim_eq; [apply gloop_asks|]. rewrite Eg. apply sim_bind; [apply sim_emit|]. intros _.
      apply sim_bind; auto. intros s'. apply IH. lia.
  Qed.

  (** The whole run. *)
  Lemma sim_paused init f g fuel : (forall a, g a = true -> f a = true) ->
    sim R init init ->
    sim R (gfind init (asks g) fuel)
          (r <- gfind init (asks f) fuel ;; gnext (asks g) fuel (snd r)).
  Proof.
    intros Hfg Hinit.
    set (tail := fun s' => (call_loggers view LFinish ls s' ;;; mret (as_best (view s'), s'))
                           : M U ev (option (T * f64) * S)).
    assert (E1 : forall u, (r <- gfind init (asks f) fuel ;; gnext (asks g) fuel (snd r)) u =
      (s1 <- init ;; call_loggers view LStart ls s1 ;;; call_loggers view LResume ls s1 ;;;
       s2 <- gloop (asks f) fuel s1 ;;
       (call_loggers view LFinish ls s2 ;;; call_loggers view LResume ls s2 ;;;
        s3 <- gloop (asks g) fuel s2 ;; tail s3)) u).
    { intros u. unfold gfind. rewrite mbind_assoc. apply mbind_ext; [reflexivity|]. intros s1 v.
      rewrite mbind_assoc. apply mbind_ext; [reflexivity|]. intros _ v1. unfold gnext.
      rewrite mbind_assoc. apply mbind_ext; [reflexivity|]. intros _ v2.
      rewrite mbind_assoc. apply mbind_ext; [reflexivity|]. intros s2 v3.
      rewrite mbind_assoc. apply mbind_ext; [reflexivity|]. intros _ v4.
      rewrite mbind_ret. reflexivity. }
    eapply sim_eq_r; [exact E1|]. clear E1. unfold gfind.
    apply sim_bind; [exact Hinit|]. intros s1.
    apply sim_bind; [apply sim_loggers; auto|]. intros _. unfold gnext.
    apply sim_bind; [apply sim_loggers; auto|]. intros _.
    apply sim_trans with (m2 := (s3 <- (s2 <- gloop (asks f) fuel s1 ;; gloop (asks g) fuel s2) ;; tail s3)); auto.
    - apply sim_bind; [apply sim_split; auto|]. intros s3. unfold tail.
      apply sim_bind; [apply sim_loggers; auto|]. intros _. apply sim_ret.
    - eapply sim_eq; [apply mbind_assoc|].
      apply sim_bind.
      + rewrite <- (Nat.add_0_r fuel) at 2. apply sim_loop_more.
      + intros s2. apply sim_eq with (m2 := (mret tt ;;; mret tt ;;; (s3 <- gloop (asks g) fuel s2 ;; tail s3))).
        { intros u. now rewrite !mbind_ret. }
        apply sim_bind; [apply sim_loggers_r; auto|]. intros _.
        apply sim_bind; [apply sim_loggers_r; auto|]. intros _.
        apply sim_bind; [rewrite <- (Nat.add_0_r fuel) at 2; apply sim_loop_more|]. intros s3.
        unfold tail. apply sim_bind; [apply sim_loggers; auto|]. intros _. apply sim_ret.
  Qed.
End Loop.

(** ** The two optimizers are instances *)
Section Ga.
  Context {U T : Type}.
  Implicit Types (cfg : ga_config U T) (p : population T).

  Definition ga_init cfg p : M U (ga_event T) (population T) :=
    xs <- call_comp CCreate (ga_creator cfg) ;; pop_append cfg (pop_reset p) xs.

  Lemma ga_loop_gloop cfg fuel p u :
    ga_loop cfg fuel p u = gloop pop_view (ga_iteration cfg) (ga_stop cfg) fuel p u.
  Proof.
    revert p u. induction fuel as [|fuel IH]; intros p u; [reflexivity|]. simpl.
    apply mbind_ext; [reflexivity|]. intros [|] v; [reflexivity|].
    apply mbind_ext; [reflexivity|]. intros p' w. apply IH.
  Qed.
  Lemma ga_next_gnext cfg fuel p u :
    ga_next_iterations cfg fuel p u = gnext pop_view (ga_iteration cfg) (ga_loggers cfg) (ga_stop cfg) fuel p u.
  Proof.
    unfold ga_next_iterations, gnext. apply mbind_ext; [reflexivity|]. intros _ v.
    apply mbind_ext; [apply ga_loop_gloop|]. reflexivity.
  Qed.
  Lemma ga_find_gfind cfg fuel p u :
    ga_find_min cfg fuel p u =
    gfind pop_view (ga_iteration cfg) (ga_loggers cfg) (ga_init cfg p) (ga_stop cfg) fuel u.
  Proof.
    unfold ga_find_min, gfind, ga_init. rewrite mbind_assoc. apply mbind_ext; [reflexivity|]. intros xs v.
    apply mbind_ext; [reflexivity|]. intros p1 w. apply mbind_ext; [reflexivity|]. intros _ w'.
    apply ga_next_gnext.
  Qed.

  Lemma ga_step_num cfg p u p' u' t :
    ga_iteration cfg p u = (Ret p', u', t) -> as_iter (pop_view p') = as_iter (pop_view p) + 1.
  Proof. intros H. apply ga_iteration_ret in H. destruct H as [? [? [? H]]]. destruct H. exact gen_iteration. Qed.
  Lemma ga_step_silent cfg p u p' u' t : ga_iteration cfg p u = (Ret p', u', t) -> stops t = [].
  Proof.
    intros H. apply ga_iteration_ret in H. destruct H as [? [? [? H]]]. apply stops_none.
    intros q b. eapply generation_no_stop; eauto.
  Qed.

  (** *** Its steps respect what its components respect *)
  Variable R : U -> U -> Prop.
  Lemma ga_sim_push cfg p x : ga_unaffected R cfg -> sim R (pop_push cfg p x) (pop_push cfg p x).
  Proof.
    intros [HR [Hg _]]. unfold pop_push. apply sim_bind; [apply sim_goal; auto|]. intros v. apply sim_ret.
  Qed.
  Lemma ga_sim_append cfg p xs : ga_unaffected R cfg -> sim R (pop_append cfg p xs) (pop_append cfg p xs).
  Proof. intros H. apply sim_fold. intros. now apply ga_sim_push. Qed.
  Lemma ga_sim_init cfg p : ga_unaffected R cfg -> sim R (ga_init cfg p) (ga_init cfg p).
  Proof.
    intros H. unfold ga_init. apply sim_bind; [apply sim_comp; apply H|]. intros xs. now apply ga_sim_append.
  Qed.
  Lemma ga_sim_step cfg p : ga_unaffected R cfg -> sim R (ga_iteration cfg p) (ga_iteration cfg p).
  Proof.
    intros H. pose proof H as [HR [Hg [Hc [Hp [Hx [Hm [Hs [Hb Hl]]]]]]]]. unfold ga_iteration.
    apply sim_bind.
    { unfold run_pairing. apply sim_bind; [apply sim_emit|]. intros _.
      apply sim_bind; [apply sim_comp; auto|]. intros pairs. apply sim_fold. intros acc pair _.
      apply sim_bind; [apply sim_pure|]. intros fam.
      apply sim_bind; [apply sim_comp; auto|]. intros cs. apply sim_ret. }
    intros cs. apply sim_bind; [apply sim_mapM; intros c _; apply sim_comp; auto|]. intros ms.
    apply sim_bind.
    { apply sim_fold. intros xs f Hf. apply sim_bind; [apply sim_emit|]. intros _. apply sim_comp. auto. }
    intros born. apply sim_bind; [now apply ga_sim_append|]. intros p1.
    apply sim_bind.
    { apply sim_fold. intros q f Hf. apply sim_bind; [apply sim_emit|]. intros _.
      apply sim_bind; [apply sim_comp; auto|]. intros l. apply sim_ret. }
    intros p2. apply sim_bind; [apply sim_pure|]. intros p3. cbn zeta.
    apply sim_bind; [apply sim_loggers; auto|]. intros _. apply sim_ret.
  Qed.

  (** *** ... and end if its components do *)
  Lemma loggers_end {S X} (view : S -> alg_state T) k (ls : list (logger U T)) s :
    (forall l k s, In l ls -> ends (lg_method k l s)) -> mends (@call_loggers U T S X view k ls s).
  Proof.
    intros H. unfold call_loggers. apply mends_for. intros [i l] Hin.
    apply mends_bind; [apply mends_emit|]. intros _. apply mends_call, H. simpl.
    unfold enumerate in Hin. now apply in_combine_r in Hin.
  Qed.
  Lemma comp_end {S X A} (rec : A -> X) (c : comp U A) : ends c -> mends (@call_comp U T S X A rec c).
  Proof.
    intros H. unfold call_comp. apply mends_bind; [now apply mends_call|]. intros a.
    apply mends_bind; [apply mends_emit|]. intros _. apply mends_ret.
  Qed.
  Lemma goal_end {S X} goal x : ends (goal x) -> mends (@call_goal U T S X goal x).
  Proof.
    intros H. unfold call_goal. apply mends_bind; [apply mends_emit|]. intros _.
    apply mends_bind; [now apply mends_call|]. intros v.
    apply mends_bind; [apply mends_emit|]. intros _. apply mends_ret.
  Qed.
  Lemma ga_end_append cfg p xs : ga_ends cfg -> mends (pop_append cfg p xs).
  Proof.
    intros [H _]. apply mends_fold. intros q x _. apply mends_bind; [apply goal_end; auto|].
    intros v. apply mends_ret.
  Qed.
  Lemma family_end p pair : family p pair <> NoFuel.
  Proof.
    unfold family. induction pair as [|i l IH]; simpl; [discriminate|].
    unfold index. destruct (nth_error (individuals p) i); simpl; [|discriminate].
    destruct (omap _ l); simpl in *; congruence.
  Qed.
  Lemma ga_end_step cfg p : ga_ends cfg -> mends (ga_iteration cfg p).
  Proof.
    intros H. pose proof H as [Hg [Hc [Hp [Hx [Hm [Hs [Hb Hl]]]]]]]. unfold ga_iteration.
    apply mends_bind.
    { unfold run_pairing. apply mends_bind; [apply mends_emit|]. intros _.
      apply mends_bind; [apply comp_end; auto|]. intros pairs. apply mends_fold. intros acc pair _.
      apply mends_bind; [apply mends_pure, family_end|]. intros fam.
      apply mends_bind; [apply comp_end; auto|]. intros cs. apply mends_ret. }
    intros cs. apply mends_bind; [apply mends_mapM; intros c _; apply comp_end; auto|]. intros ms.
    apply mends_bind.
    { apply mends_fold. intros xs f Hf. apply mends_bind; [apply mends_emit|]. intros _. apply comp_end. auto. }
    intros born. apply mends_bind; [now apply ga_end_append|]. intros p1.
    apply mends_bind.
    { apply mends_fold. intros q f Hf. apply mends_bind; [apply mends_emit|]. intros _.
      apply mends_bind; [apply comp_end; auto|]. intros l. apply mends_ret. }
    intros p2. apply mends_bind.
    { apply mends_pure. destruct (update_best_worst_spec (remove_dead p2)) as [p3 [E3 _]]. rewrite E3. discriminate. }
    intros p3. cbn zeta. apply mends_bind; [apply loggers_end; auto|]. intros _. apply mends_ret.
  Qed.
End Ga.

Section Pso.
  Context {U T : Type} {FT : FloatTrait T}.
  Implicit Types (cfg : pso_config U T) (s : swarm T).

  Lemma pso_loop_gloop cfg fuel s u :
    pso_loop cfg fuel s u = gloop swarm_view (pso_iteration cfg) (pso_stop cfg) fuel s u.
  Proof.
    revert s u. induction fuel as [|fuel IH]; intros s u; [reflexivity|]. simpl.
    apply mbind_ext; [reflexivity|]. intros [|] v; [reflexivity|].
    apply mbind_ext; [reflexivity|]. intros p' w. apply IH.
  Qed.
  Lemma pso_next_gnext cfg fuel s u :
    pso_next_iterations cfg fuel s u =
    gnext swarm_view (pso_iteration cfg) (pso_loggers cfg) (pso_stop cfg) fuel s u.
  Proof.
    unfold pso_next_iterations, gnext. apply mbind_ext; [reflexivity|]. intros _ v.
    apply mbind_ext; [apply pso_loop_gloop|]. reflexivity.
  Qed.
  Lemma pso_find_gfind cfg fuel s u :
    pso_find_min cfg fuel s u =
    gfind swarm_view (pso_iteration cfg) (pso_loggers cfg) (renew_swarm cfg s) (pso_stop cfg) fuel u.
  Proof.
    unfold pso_find_min, gfind. apply mbind_ext; [reflexivity|]. intros p1 w.
    apply mbind_ext; [reflexivity|]. intros _ w'. apply pso_next_gnext.
  Qed.

  Lemma pso_step_num cfg s u s' u' t :
    pso_iteration cfg s u = (Ret s', u', t) -> as_iter (swarm_view s') = as_iter (swarm_view s) + 1.
  Proof. intros H. apply pso_iteration_ret in H. destruct H. exact round_iteration. Qed.
  Lemma pso_step_silent cfg s u s' u' t : pso_iteration cfg s u = (Ret s', u', t) -> stops t = [].
  Proof.
    intros H. apply pso_iteration_ret in H. apply round_read in H. destruct H as [_ [_ [_ [H _]]]].
    apply stops_none. intros q b Hin. apply in_split in Hin. destruct Hin as [t1 [t2 ->]].
    rewrite consulted_app in H. simpl in H. destruct (consulted t1); discriminate.
  Qed.

  Variable R : U -> U -> Prop.
  Lemma pso_sim_move cfg x : pso_unaffected R cfg -> sim R (run_post_move cfg x) (run_post_move cfg x).
  Proof.
    intros [_ [_ [_ [_ [_ [_ [H _]]]]]]]. unfold run_post_move. apply sim_fold.
    intros y f Hf. apply sim_comp. auto.
  Qed.
  Lemma pso_sim_init cfg s : pso_unaffected R cfg -> sim R (renew_swarm cfg s) (renew_swarm cfg s).
  Proof.
    intros H. pose proof H as [HR [Hg [Hc [Hv _]]]]. unfold renew_swarm.
    apply sim_bind; [apply sim_comp; auto|]. intros coords.
    apply sim_bind; [apply sim_comp; auto|]. intros vels.
    apply sim_bind; [apply sim_pure|]. intros _.
    apply sim_bind; [apply sim_mapM; intros; now apply pso_sim_move|]. intros coords'.
    apply sim_bind; [apply sim_mapM|intros; apply sim_pure].
    intros cs _. apply sim_bind; [apply sim_goal; auto|]. intros y. apply sim_ret.
  Qed.
  Lemma pso_sim_step cfg s : pso_unaffected R cfg -> sim R (pso_iteration cfg s) (pso_iteration cfg s).
  Proof.
    intros H. pose proof H as [HR [Hg [Hc [Hv [Hk [Hpv [Hpm Hl]]]]]]]. unfold pso_iteration.
    apply sim_bind.
    { apply sim_fold. intros q n _. unfold pso_particle. apply sim_bind; [apply sim_pure|]. intros p.
      apply sim_bind; [apply sim_emit|]. intros _.
      apply sim_bind; [apply sim_comp; auto|]. intros v0.
      apply sim_bind; [apply sim_fold; intros v f Hf; apply sim_comp; auto|]. intros v. cbn zeta.
      apply sim_bind; [now apply pso_sim_move|]. intros x.
      apply sim_bind; [apply sim_goal; auto|]. intros y.
      apply sim_bind; [apply sim_pure|]. intros ps. apply sim_ret. }
    intros s1. apply sim_bind; [apply sim_pure|]. intros s2. apply sim_bind; [apply sim_pure|]. intros s3.
    cbn zeta. apply sim_bind; [apply sim_loggers; auto|]. intros _. apply sim_ret.
  Qed.

  Lemma update_end {A} (l : list A) i x : update l i x <> NoFuel.
  Proof.
    revert i. induction l as [|a l IH]; intros [|i]; simpl; try discriminate.
    specialize (IH i). destruct (update l i x); simpl; congruence.
  Qed.
  Lemma pso_end_move cfg x : pso_ends cfg -> mends (run_post_move cfg x).
  Proof.
    intros [_ [_ [_ [_ [_ [H _]]]]]]. unfold run_post_move. apply mends_fold.
    intros y f Hf. apply comp_end. auto.
  Qed.
  Lemma pso_end_init cfg s : pso_ends cfg -> mends (renew_swarm cfg s).
  Proof.
    intros H. pose proof H as [Hg [Hc [Hv _]]]. unfold renew_swarm.
    apply mends_bind; [apply comp_end; auto|]. intros coords.
    apply mends_bind; [apply comp_end; auto|]. intros vels.
    apply mends_bind; [apply mends_pure; unfold oassert; destruct (_ =? _); discriminate|]. intros _.
    apply mends_bind; [apply mends_mapM; intros; now apply pso_end_move|]. intros coords'.
    apply mends_bind; [apply mends_mapM|].
    - intros cs _. apply mends_bind; [apply goal_end; auto|]. intros y. apply mends_ret.
    - intros ps. apply mends_pure. destruct (replace_particles_spec (swarm_reset s) ps) as [s' [E _]].
      rewrite E. discriminate.
  Qed.
  Lemma pso_end_step cfg s : pso_ends cfg -> mends (pso_iteration cfg s).
  Proof.
    intros H. pose proof H as [Hg [Hc [Hv [Hk [Hpv [Hpm Hl]]]]]]. unfold pso_iteration.
    apply mends_bind.
    { apply mends_fold. intros q n _. unfold pso_particle. apply mends_bind.
      { apply mends_pure. unfold index. destruct (nth_error _ _); discriminate. }
      intros p. apply mends_bind; [apply mends_emit|]. intros _.
      apply mends_bind; [apply comp_end; auto|]. intros v0.
      apply mends_bind; [apply mends_fold; intros v f Hf; apply comp_end; auto|]. intros v. cbn zeta.
      apply mends_bind; [now apply pso_end_move|]. intros x.
      apply mends_bind; [apply goal_end; auto|]. intros y.
      apply mends_bind; [apply mends_pure|].
      - apply update_end.
      - intros ps. apply mends_ret. }
    intros s1. apply mends_bind.
    { apply mends_pure. destruct (update_best_spec s1) as [s2 [E _]]. rewrite E. discriminate. }
    intros s2. apply mends_bind.
    { apply mends_pure. destruct (update_worst_spec s2) as [s3 [E _]]. rewrite E. discriminate. }
    intros s3. cbn zeta. apply mends_bind; [apply loggers_end; auto|]. intros _. apply mends_ret.
  Qed.
End Pso.
