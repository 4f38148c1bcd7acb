(** * Runs of two configurations side by side *)

From Coq Require Import List Arith ZArith Bool Lia.
From Verif Require Import Base Logic FloatModel GaModel PsoModel SpecGa SpecPso SpecRun SpecLog
  GaFacts PsoFacts LoopFacts RunRel.
Import ListNotations.

Section Twin.
  Context {U T S X : Type}.
  Notation ev := (event T S X).
  Notation rel := (U -> U -> Prop).

  Definition ctwin (A B : rel) {C} (c1 c2 : comp U C) : Prop :=
    forall u1 u2, A u1 u2 ->
      fst (c1 u1) = fst (c2 u2) /\ (forall a, fst (c1 u1) = Ret a -> B (snd (c1 u1)) (snd (c2 u2))).
  Definition mtwin (A B : rel) {C} (m1 m2 : M U ev C) : Prop :=
    forall u1 u2, A u1 u2 ->
      fst (fst (m1 u1)) = fst (fst (m2 u2)) /\ snd (m1 u1) = snd (m2 u2) /\
      (forall a, fst (fst (m1 u1)) = Ret a -> B (snd (fst (m1 u1))) (snd (fst (m2 u2)))).

  Lemma twin_ret (A : rel) {C} (a : C) : mtwin A A (mret a) (mret a).
  Proof. intros u1 u2 H. simpl. auto. Qed.
  Lemma twin_pure (A : rel) {C} (o : outcome C) : mtwin A A (pure o) (pure o).
  Proof. intros u1 u2 H. simpl. auto. Qed.
  Lemma twin_emit (A : rel) e : mtwin A A (emit e) (emit e).
  Proof. intros u1 u2 H. simpl. auto. Qed.
  Lemma twin_nofuel (A B : rel) {C} : mtwin A B (@nofuel U ev C) nofuel.
  Proof. intros u1 u2 H. simpl. split; auto. split; auto. discriminate. Qed.
  Lemma twin_call (A B : rel) {C} (c1 c2 : comp U C) : ctwin A B c1 c2 -> mtwin A B (call c1) (call c2).
  Proof.
    intros H u1 u2 Hu. destruct (H u1 u2 Hu) as [H1 H2]. unfold call.
    destruct (c1 u1), (c2 u2). simpl in *. auto.
  Qed.
  Lemma twin_bind (A B D : rel) {C C'} (m1 m2 : M U ev C) (k1 k2 : C -> M U ev C') :
    mtwin A B m1 m2 -> (forall a, mtwin B D (k1 a) (k2 a)) -> mtwin A D (mbind m1 k1) (mbind m2 k2).
  Proof.
    intros Hm Hk u1 u2 Hu. specialize (Hm u1 u2 Hu). unfold mbind.
    destruct (m1 u1) as [[o1 v1] t1], (m2 u2) as [[o2 v2] t2]. simpl in Hm. destruct Hm as [<- [<- HB]].
    destruct o1 as [a| |]; simpl; try (split; [auto|split; [auto|discriminate]]).
    specialize (Hk a v1 v2 (HB a eq_refl)).
    destruct (k1 a v1) as [[o1 w1] s1], (k2 a v2) as [[o2 w2] s2]. simpl in *. destruct Hk as [<- [<- HD]]. auto.
  Qed.
  Lemma twin_fold (A : rel) {C S'} (f g : S' -> C -> M U ev S') l s :
    (forall s x, In x l -> mtwin A A (f s x) (g s x)) -> mtwin A A (mfold f l s) (mfold g l s).
  Proof.
    revert s. induction l as [|x l IH]; intros s H; simpl; [apply twin_ret|].
    eapply twin_bind; [apply H; now left|]. intros s'. apply IH. intros. apply H. now right.
  Qed.
  Lemma twin_mapM (A : rel) {C C'} (f g : C -> M U ev C') l :
    (forall x, In x l -> mtwin A A (f x) (g x)) -> mtwin A A (mmapM f l) (mmapM g l).
  Proof.
    induction l as [|x l IH]; intros H; simpl; [apply twin_ret|].
    eapply twin_bind; [apply H; now left|]. intros y. eapply twin_bind; [|intros; apply twin_ret].
    apply IH. intros. apply H. now right.
  Qed.
  Lemma twin_comp (A B : rel) {C} (rec : C -> X) (c1 c2 : comp U C) :
    ctwin A B c1 c2 -> mtwin A B (call_comp rec c1) (call_comp rec c2).
  Proof.
    intros H. unfold call_comp. eapply twin_bind; [apply twin_call, H|]. intros a.
    eapply twin_bind; [apply twin_emit|]. intros _. apply twin_ret.
  Qed.
  Lemma twin_goal (A : rel) goal1 goal2 x :
    ctwin A A (goal1 x) (goal2 x) -> mtwin A A (call_goal goal1 x) (call_goal goal2 x).
  Proof.
    intros H. unfold call_goal. eapply twin_bind; [apply twin_emit|]. intros _.
    eapply twin_bind; [apply twin_call, H|]. intros v.
    eapply twin_bind; [apply twin_emit|]. intros _. apply twin_ret.
  Qed.
  Lemma twin_stop (A : rel) (view : S -> alg_state T) stop1 stop2 s :
    (forall a, ctwin A A (stop1 a) (stop2 a)) -> mtwin A A (call_stop view stop1 s) (call_stop view stop2 s).
  Proof.
    intros H. unfold call_stop. eapply twin_bind; [apply twin_call, H|]. intros b.
    eapply twin_bind; [apply twin_emit|]. intros _. apply twin_ret.
  Qed.
  (** Loggers [0 .. n-1] work with relation [A], [n+1 ...] with relation [B]; logger [n] goes
      from [A] to [B]. *)
  Lemma twin_loggers_same (A : rel) (view : S -> alg_state T) k (ls1 ls2 : list (logger U T)) s n :
    Forall2 (fun l1 l2 => ctwin A A (lg_method k l1 (view s)) (lg_method k l2 (view s))) ls1 ls2 ->
    mtwin A A (mfor (fun il => emit (ELog k (fst il) s) ;;; call (lg_method k (snd il) (view s)))
                    (combine (seq n (length ls1)) ls1))
              (mfor (fun il => emit (ELog k (fst il) s) ;;; call (lg_method k (snd il) (view s)))
                    (combine (seq n (length ls2)) ls2)).
  Proof.
    intros H. revert n. induction H as [|l1 l2 ls1 ls2 H1 H2 IH]; intros n; simpl; [apply twin_ret|].
    eapply twin_bind; [|intros _; apply IH].
    eapply twin_bind; [apply twin_emit|]. intros _. now apply twin_call.
  Qed.
  Lemma twin_loggers_all (A : rel) (view : S -> alg_state T) k (ls1 ls2 : list (logger U T)) s :
    Forall2 (fun l1 l2 => ctwin A A (lg_method k l1 (view s)) (lg_method k l2 (view s))) ls1 ls2 ->
    mtwin A A (call_loggers view k ls1 s) (call_loggers view k ls2 s).
  Proof. intros H. unfold call_loggers, enumerate. now apply twin_loggers_same. Qed.
  Lemma mfor_app {E C} (f : C -> M U E unit) l1 l2 u :
    mfor f (l1 ++ l2) u = (mfor f l1 ;;; mfor f l2) u.
  Proof.
    revert u. induction l1 as [|x l1 IH]; intros u; simpl.
    - unfold mbind, mret. now destruct (mfor f l2 u) as [[o v] t].
    - unfold mbind at 1 2 3. destruct (f x u) as [[[a| |] v] t]; auto.
      rewrite IH. unfold mbind. destruct (mfor f l1 v) as [[[b| |] w] t']; auto.
      destruct (mfor f l2 w) as [[o z] t'']. now rewrite app_assoc.
  Qed.
  Lemma combine_app {C D} (a1 a2 : list C) (b1 b2 : list D) : length a1 = length b1 ->
    combine (a1 ++ a2) (b1 ++ b2) = combine a1 b1 ++ combine a2 b2.
  Proof.
    revert b1. induction a1 as [|x a1 IH]; intros [|y b1] H; simpl in *; try discriminate; auto.
    rewrite IH; auto.
  Qed.
  Lemma twin_eq (A B : rel) {C} (m1 m1' m2 m2' : M U ev C) :
    (forall u, m1 u = m1' u) -> (forall u, m2 u = m2' u) -> mtwin A B m1' m2' -> mtwin A B m1 m2.
  Proof. intros E1 E2 H u1 u2. rewrite E1, E2. apply H. Qed.
  Lemma twin_loggers_one (A B : rel) (view : S -> alg_state T) k (before1 before2 after1 after2 : list (logger U T)) l1 l2 s :
    Forall2 (fun l1 l2 => ctwin A A (lg_method k l1 (view s)) (lg_method k l2 (view s))) before1 before2 ->
    ctwin A B (lg_method k l1 (view s)) (lg_method k l2 (view s)) ->
    Forall2 (fun l1 l2 => ctwin B B (lg_method k l1 (view s)) (lg_method k l2 (view s))) after1 after2 ->
    mtwin A B (call_loggers view k (before1 ++ l1 :: after1) s) (call_loggers view k (before2 ++ l2 :: after2) s).
  Proof.
    intros Hb Hl Ha.
    assert (E : forall b (l : logger U T) a u, @call_loggers U T S X view k (b ++ l :: a) s u =
      (mfor (fun il => emit (ELog k (fst il) s) ;;; call (lg_method k (snd il) (view s))) (combine (seq 0 (length b)) b) ;;;
       ((emit (ELog k (length b) s) ;;; call (lg_method k l (view s))) ;;;
        mfor (fun il => emit (ELog k (fst il) s) ;;; call (lg_method k (snd il) (view s)))
          (combine (seq (Datatypes.S (length b)) (length a)) a))) u).
    { intros b l a u. unfold call_loggers, enumerate. rewrite app_length. rewrite seq_app.
      rewrite combine_app by now rewrite seq_length. rewrite mfor_app. reflexivity. }
    eapply twin_eq; [apply E|apply E|]. clear E.
    assert (El : length before1 = length before2) by (clear -Hb; induction Hb; simpl; auto).
    rewrite El. rewrite <- El at 1. eapply twin_bind; [now apply twin_loggers_same|]. intros _.
    eapply twin_bind; [|intros _; now apply twin_loggers_same].
    eapply twin_bind; [apply twin_emit|]. intros _. now apply twin_call.
  Qed.

  Lemma twin_gloop (A : rel) (view : S -> alg_state T) step1 step2 stop1 stop2 fuel s :
    (forall s, mtwin A A (step1 s) (step2 s)) -> (forall a, ctwin A A (stop1 a) (stop2 a)) ->
    mtwin A A (gloop view step1 stop1 fuel s) (gloop view step2 stop2 fuel s).
  Proof.
    intros Hs Hc. revert s. induction fuel as [|fuel IH]; intros s; simpl; [apply twin_nofuel|].
    eapply twin_bind; [apply twin_stop, Hc|]. intros [|]; [apply twin_ret|].
    eapply twin_bind; [apply Hs|]. auto.
  Qed.
  Lemma twin_gnext (R1 R2 : rel) (view : S -> alg_state T) step1 step2 ls1 ls2 stop1 stop2 fuel s :
    (forall s, mtwin R1 R2 (call_loggers view LResume ls1 s) (call_loggers view LResume ls2 s)) ->
    (forall s, mtwin R2 R2 (call_loggers view LFinish ls1 s) (call_loggers view LFinish ls2 s)) ->
    (forall s, mtwin R2 R2 (step1 s) (step2 s)) -> (forall a, ctwin R2 R2 (stop1 a) (stop2 a)) ->
    mtwin R1 R2 (gnext view step1 ls1 stop1 fuel s) (gnext view step2 ls2 stop2 fuel s).
  Proof.
    intros Hr Hf Hs Hc. unfold gnext. eapply twin_bind; [apply Hr|]. intros _.
    eapply twin_bind; [apply twin_gloop; auto|]. intros s'.
    eapply twin_bind; [apply Hf|]. intros _. apply twin_ret.
  Qed.
  Lemma twin_gfind (R0 R1 R2 : rel) (view : S -> alg_state T) step1 step2 ls1 ls2 init1 init2 stop1 stop2 fuel :
    (forall s, mtwin R0 R1 (call_loggers view LStart ls1 s) (call_loggers view LStart ls2 s)) ->
    (forall s, mtwin R1 R2 (call_loggers view LResume ls1 s) (call_loggers view LResume ls2 s)) ->
    (forall s, mtwin R2 R2 (call_loggers view LFinish ls1 s) (call_loggers view LFinish ls2 s)) ->
    mtwin R0 R0 init1 init2 ->
    (forall s, mtwin R2 R2 (step1 s) (step2 s)) -> (forall a, ctwin R2 R2 (stop1 a) (stop2 a)) ->
    mtwin R0 R2 (gfind view step1 ls1 init1 stop1 fuel) (gfind view step2 ls2 init2 stop2 fuel).
  Proof.
    intros Ht Hr Hf Hi Hs Hc. unfold gfind. eapply twin_bind; [apply Hi|]. intros s.
    eapply twin_bind; [apply Ht|]. intros _. now apply twin_gnext.
  Qed.
End Twin.

(** ** The genetic optimizer *)
Section Ga.
  Context {U T : Type}.
  Implicit Types (cfg : ga_config U T) (p : population T).
  (** All components but the loggers and the stop checker are pairwise twins. *)
  Definition ga_twins (A : U -> U -> Prop) cfg1 cfg2 : Prop :=
    (forall x, ctwin A A (ga_goal cfg1 x) (ga_goal cfg2 x)) /\
    ctwin A A (ga_creator cfg1) (ga_creator cfg2) /\
    (forall p, ctwin A A (ga_pairing cfg1 p) (ga_pairing cfg2 p)) /\
    (forall xs, ctwin A A (ga_cross cfg1 xs) (ga_cross cfg2 xs)) /\
    (forall x, ctwin A A (ga_mutation cfg1 x) (ga_mutation cfg2 x)) /\
    (ga_selections cfg1 = ga_selections cfg2 /\ forall f p, In f (ga_selections cfg1) -> ctwin A A (f p) (f p)) /\
    (ga_pre_births cfg1 = ga_pre_births cfg2 /\ forall f p xs, In f (ga_pre_births cfg1) -> ctwin A A (f p xs) (f p xs)).

  Definition ga_log_twin (A B : U -> U -> Prop) k cfg1 cfg2 : Prop :=
    forall p, @mtwin U T (population T) (ga_call T) A B unit
      (call_loggers pop_view k (ga_loggers cfg1) p) (call_loggers pop_view k (ga_loggers cfg2) p).
  Lemma twin_append A cfg1 cfg2 p xs : ga_twins A cfg1 cfg2 ->
    mtwin A A (pop_append cfg1 p xs) (pop_append cfg2 p xs).
  Proof.
    intros [H _]. apply twin_fold. intros q x _. eapply twin_bind; [apply twin_goal; auto|].
    intros v. apply twin_ret.
  Qed.
  Lemma twin_ga_init A cfg1 cfg2 p : ga_twins A cfg1 cfg2 -> mtwin A A (ga_init cfg1 p) (ga_init cfg2 p).
  Proof.
    intros H. eapply twin_bind; [apply twin_comp, H|]. intros. now apply twin_append.
  Qed.
  Lemma twin_ga_step A cfg1 cfg2 p : ga_twins A cfg1 cfg2 ->
    ga_log_twin A A LNext cfg1 cfg2 ->
    mtwin A A (ga_iteration cfg1 p) (ga_iteration cfg2 p).
  Proof.
    intros H Hl. pose proof H as [Hg [Hc [Hp [Hx [Hm [[Es Hs] [Eb Hb]]]]]]]. unfold ga_iteration. rewrite <- Es, <- Eb.
    eapply twin_bind.
    { unfold run_pairing. eapply twin_bind; [apply twin_emit|]. intros _.
      eapply twin_bind; [apply twin_comp; auto|]. intros pairs. apply twin_fold. intros acc pair _.
      eapply twin_bind; [apply twin_pure|]. intros fam.
      eapply twin_bind; [apply twin_comp; auto|]. intros cs. apply twin_ret. }
    intros cs. eapply twin_bind; [apply twin_mapM; intros c _; apply twin_comp; auto|]. intros ms.
    eapply twin_bind.
    { apply twin_fold. intros xs f Hf. eapply twin_bind; [apply twin_emit|]. intros _. apply twin_comp. auto. }
    intros born. eapply twin_bind; [now apply twin_append|]. intros p1.
    eapply twin_bind.
    { apply twin_fold. intros q f Hf. eapply twin_bind; [apply twin_emit|]. intros _.
      eapply twin_bind; [apply twin_comp; auto|]. intros l. apply twin_ret. }
    intros p2. eapply twin_bind; [apply twin_pure|]. intros p3. cbn zeta.
    eapply twin_bind; [apply Hl|]. intros _. apply twin_ret.
  Qed.
  Lemma twin_ga_next R1 R2 cfg1 cfg2 fuel p : ga_twins R2 cfg1 cfg2 ->
    (forall s, ctwin R2 R2 (ga_stop cfg1 s) (ga_stop cfg2 s)) ->
    ga_log_twin R1 R2 LResume cfg1 cfg2 ->
    ga_log_twin R2 R2 LNext cfg1 cfg2 ->
    ga_log_twin R2 R2 LFinish cfg1 cfg2 ->
    mtwin R1 R2 (ga_next_iterations cfg1 fuel p) (ga_next_iterations cfg2 fuel p).
  Proof.
    intros Ht Hs Hr Hn Hf. eapply twin_eq; [apply ga_next_gnext|apply ga_next_gnext|].
    apply twin_gnext; auto. intros. now apply twin_ga_step.
  Qed.
  Lemma twin_ga_find R0 R1 R2 cfg1 cfg2 fuel p : ga_twins R0 cfg1 cfg2 -> ga_twins R2 cfg1 cfg2 ->
    (forall s, ctwin R2 R2 (ga_stop cfg1 s) (ga_stop cfg2 s)) ->
    ga_log_twin R0 R1 LStart cfg1 cfg2 ->
    ga_log_twin R1 R2 LResume cfg1 cfg2 ->
    ga_log_twin R2 R2 LNext cfg1 cfg2 ->
    ga_log_twin R2 R2 LFinish cfg1 cfg2 ->
    mtwin R0 R2 (ga_find_min cfg1 fuel p) (ga_find_min cfg2 fuel p).
  Proof.
    intros H0 Ht Hs Hst Hr Hn Hf. eapply twin_eq; [apply ga_find_gfind|apply ga_find_gfind|].
    apply twin_gfind with (R1 := R1); auto; [now apply twin_ga_init|]. intros. now apply twin_ga_step.
  Qed.
End Ga.

(** ** The particle swarm *)
Section Pso.
  Context {U T : Type} {FT : FloatTrait T}.
  Implicit Types (cfg : pso_config U T) (s : swarm T).
  Definition pso_twins (A : U -> U -> Prop) cfg1 cfg2 : Prop :=
    (forall x, ctwin A A (pso_goal cfg1 x) (pso_goal cfg2 x)) /\
    ctwin A A (pso_coordinates cfg1) (pso_coordinates cfg2) /\
    ctwin A A (pso_velocities cfg1) (pso_velocities cfg2) /\
    (forall s p, ctwin A A (pso_calc cfg1 s p) (pso_calc cfg2 s p)) /\
    (pso_post_velocity cfg1 = pso_post_velocity cfg2 /\ forall f v, In f (pso_post_velocity cfg1) -> ctwin A A (f v) (f v)) /\
    (pso_post_move cfg1 = pso_post_move cfg2 /\ forall f x, In f (pso_post_move cfg1) -> ctwin A A (f x) (f x)).
  Definition pso_log_twin (A B : U -> U -> Prop) k cfg1 cfg2 : Prop :=
    forall s, @mtwin U (list T) (swarm T) (pso_call T) A B unit
      (call_loggers swarm_view k (pso_loggers cfg1) s) (call_loggers swarm_view k (pso_loggers cfg2) s).
  Lemma twin_move A cfg1 cfg2 x : pso_twins A cfg1 cfg2 -> mtwin A A (run_post_move cfg1 x) (run_post_move cfg2 x).
  Proof.
    intros [_ [_ [_ [_ [_ [E H]]]]]]. unfold run_post_move. rewrite <- E. apply twin_fold.
    intros y f Hf. apply twin_comp. auto.
  Qed.
  Lemma twin_pso_init A cfg1 cfg2 s : pso_twins A cfg1 cfg2 -> mtwin A A (renew_swarm cfg1 s) (renew_swarm cfg2 s).
  Proof.
    intros H. pose proof H as [Hg [Hc [Hv _]]]. unfold renew_swarm.
    eapply twin_bind; [apply twin_comp; eauto|]. intros coords.
    eapply twin_bind; [apply twin_comp; eauto|]. intros vels.
    eapply twin_bind; [apply twin_pure|]. intros _.
    eapply twin_bind; [apply twin_mapM; intros; now apply twin_move|]. intros coords'.
    eapply twin_bind; [apply twin_mapM|intros; apply twin_pure].
    intros cs _. eapply twin_bind; [apply twin_goal; auto|]. intros y. apply twin_ret.
  Qed.
  Lemma twin_pso_step A cfg1 cfg2 s : pso_twins A cfg1 cfg2 ->
    pso_log_twin A A LNext cfg1 cfg2 ->
    mtwin A A (pso_iteration cfg1 s) (pso_iteration cfg2 s).
  Proof.
    intros H Hl. pose proof H as [Hg [Hc [Hv [Hk [[Ev Hpv] [Em Hpm]]]]]]. unfold pso_iteration.
    eapply twin_bind.
    { apply twin_fold. intros q n _. unfold pso_particle. rewrite <- Ev.
      eapply twin_bind; [apply twin_pure|]. intros p.
      eapply twin_bind; [apply twin_emit|]. intros _.
      eapply twin_bind; [apply twin_comp; eauto|]. intros v0.
      eapply twin_bind; [apply twin_fold; intros v f Hf; apply twin_comp; auto|]. intros v. cbn zeta.
      eapply twin_bind; [now apply twin_move|]. intros x.
      eapply twin_bind; [apply twin_goal; auto|]. intros y.
      eapply twin_bind; [apply twin_pure|]. intros ps. apply twin_ret. }
    intros s1. eapply twin_bind; [apply twin_pure|]. intros s2. eapply twin_bind; [apply twin_pure|]. intros s3.
    cbn zeta. eapply twin_bind; [apply Hl|]. intros _. apply twin_ret.
  Qed.
  Lemma twin_pso_next R1 R2 cfg1 cfg2 fuel s : pso_twins R2 cfg1 cfg2 ->
    (forall a, ctwin R2 R2 (pso_stop cfg1 a) (pso_stop cfg2 a)) ->
    pso_log_twin R1 R2 LResume cfg1 cfg2 ->
    pso_log_twin R2 R2 LNext cfg1 cfg2 ->
    pso_log_twin R2 R2 LFinish cfg1 cfg2 ->
    mtwin R1 R2 (pso_next_iterations cfg1 fuel s) (pso_next_iterations cfg2 fuel s).
  Proof.
    intros Ht Hs Hr Hn Hf. eapply twin_eq; [apply pso_next_gnext|apply pso_next_gnext|].
    apply twin_gnext; auto. intros. now apply twin_pso_step.
  Qed.
  Lemma twin_pso_find R0 R1 R2 cfg1 cfg2 fuel s : pso_twins R0 cfg1 cfg2 -> pso_twins R2 cfg1 cfg2 ->
    (forall a, ctwin R2 R2 (pso_stop cfg1 a) (pso_stop cfg2 a)) ->
    pso_log_twin R0 R1 LStart cfg1 cfg2 ->
    pso_log_twin R1 R2 LResume cfg1 cfg2 ->
    pso_log_twin R2 R2 LNext cfg1 cfg2 ->
    pso_log_twin R2 R2 LFinish cfg1 cfg2 ->
    mtwin R0 R2 (pso_find_min cfg1 fuel s) (pso_find_min cfg2 fuel s).
  Proof.
    intros H0 Ht Hs Hst Hr Hn Hf. eapply twin_eq; [apply pso_find_gfind|apply pso_find_gfind|].
    apply twin_gfind with (R1 := R1); auto; [now apply twin_pso_init|]. intros. now apply twin_pso_step.
  Qed.
End Pso.
