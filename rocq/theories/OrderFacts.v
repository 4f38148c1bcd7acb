(** * Proofs for C95: runs that differ only in the scale of the goal values *)

From Coq Require Import List Arith ZArith Bool Lia.
From Verif Require Import Base FloatModel Rng GaModel GaComponents PsoModel PsoComponents StopModel SpecGa SpecOrder.
Import ListNotations.

(** ** The relational rules *)
Section Rules.
  Context {U1 U2 E : Type}.
  Variable W : U1 -> U2 -> Prop.
  Variable RE : E -> E -> Prop.

  Definition rel {A B} (RA : A -> B -> Prop) (m : M U1 E A) (m' : M U2 E B) : Prop :=
    forall u1 u2, W u1 u2 -> alike_run W RE RA (m u1) (m' u2).

  Lemma rel_ret {A B} (RA : A -> B -> Prop) a b : RA a b -> rel RA (mret a) (mret b).
  Proof. intros H u1 u2 Hw. repeat split; cbn; auto. Qed.

  Lemma rel_bind {A B A' B'} (RA : A -> A' -> Prop) (RB : B -> B' -> Prop)
    (m : M U1 E A) (m' : M U2 E A') k k' :
    rel RA m m' -> (forall a a', RA a a' -> rel RB (k a) (k' a')) -> rel RB (mbind m k) (mbind m' k').
  Proof.
    intros Hm Hk u1 u2 Hw. unfold mbind. specialize (Hm u1 u2 Hw).
    destruct (m u1) as [[o v1] t1], (m' u2) as [[o' v2] t2]. destruct Hm as [Ho [Hv Ht]]. cbn in Ho, Hv, Ht.
    destruct o as [a| |], o' as [a'| |]; cbn in Ho; try contradiction;
      try (repeat split; cbn; auto; fail).
    specialize (Hk a a' Ho v1 v2 Hv). destruct (k a v1) as [[x y] z], (k' a' v2) as [[x' y'] z'].
    destruct Hk as [H1 [H2 H3]]. cbn in *. repeat split; auto. now apply Forall2_app.
  Qed.

  Lemma rel_emit e e' : RE e e' -> rel eq (emit e : M U1 E unit) (emit e' : M U2 E unit).
  Proof. intros H u1 u2 Hw. repeat split; cbn; auto. Qed.

  Lemma rel_call {A B} (RA : A -> B -> Prop) (c : comp U1 A) (c' : comp U2 B) :
    alike_comp W RA c c' -> rel RA (call c) (call c').
  Proof.
    intros H u1 u2 Hw. unfold call. specialize (H u1 u2 Hw).
    destruct (c u1), (c' u2). destruct H. repeat split; cbn; auto.
  Qed.

  Lemma rel_pure {A B} (RA : A -> B -> Prop) o o' :
    alike_outcome RA o o' -> rel RA (pure o : M U1 E A) (pure o' : M U2 E B).
  Proof. intros H u1 u2 Hw. repeat split; cbn; auto. Qed.

  Lemma rel_mapM {A A' B B'} (RA : A -> A' -> Prop) (RB : B -> B' -> Prop)
    (f : A -> M U1 E B) (f' : A' -> M U2 E B') l l' :
    (forall a a', RA a a' -> rel RB (f a) (f' a')) -> Forall2 RA l l' ->
    rel (Forall2 RB) (mmapM f l) (mmapM f' l').
  Proof.
    intros Hf H. induction H as [|a a' l l' Ha _ IH]; cbn [mmapM].
    - apply rel_ret. constructor.
    - apply (rel_bind RB); [now apply Hf|]. intros b b' Hb.
      apply (rel_bind (Forall2 RB)); [exact IH|]. intros t t' Ht. apply rel_ret. now constructor.
  Qed.

  Lemma rel_fold {A A' S S'} (RA : A -> A' -> Prop) (RS : S -> S' -> Prop)
    (f : S -> A -> M U1 E S) (f' : S' -> A' -> M U2 E S') l l' :
    (forall s s' a a', RS s s' -> RA a a' -> rel RS (f s a) (f' s' a')) -> Forall2 RA l l' ->
    forall s s', RS s s' -> rel RS (mfold f l s) (mfold f' l' s').
  Proof.
    intros Hf H. induction H as [|a a' l l' Ha _ IH]; intros s s' Hs; cbn [mfold].
    - now apply rel_ret.
    - apply (rel_bind RS); [now apply Hf|]. intros b b' Hb. now apply IH.
  Qed.

  Lemma rel_for {A A'} (RA : A -> A' -> Prop) (f : A -> M U1 E unit) (f' : A' -> M U2 E unit) l l' :
    (forall a a', RA a a' -> rel eq (f a) (f' a')) -> Forall2 RA l l' ->
    rel eq (mfor f l) (mfor f' l').
  Proof.
    intros Hf H. induction H as [|a a' l l' Ha _ IH]; cbn [mfor].
    - now apply rel_ret.
    - apply (rel_bind eq); [now apply Hf|]. intros _ _ _. exact IH.
  Qed.
End Rules.

Lemma alike_index {A B} (R : A -> B -> Prop) l l' : Forall2 R l l' -> forall n,
  alike_outcome R (index l n) (index l' n).
Proof.
  unfold index. induction 1 as [|a b l l' H _ IH]; intros [|n]; cbn; auto; apply IH.
Qed.

Lemma alike_obind {A A' B B'} (RA : A -> A' -> Prop) (RB : B -> B' -> Prop) o o' k k' :
  alike_outcome RA o o' -> (forall a a', RA a a' -> alike_outcome RB (k a) (k' a')) ->
  alike_outcome RB (obind o k) (obind o' k').
Proof. destruct o, o'; cbn; intros H Hk; try contradiction; auto. Qed.

Lemma alike_update {A B} (R : A -> B -> Prop) l l' : Forall2 R l l' -> forall n x y, R x y ->
  alike_outcome (Forall2 R) (update l n x) (update l' n y).
Proof.
  induction 1 as [|a b l l' H Hl IH]; intros [|n] x y Hx; [exact I|exact I|now constructor|]. cbn [update].
  apply (alike_obind (Forall2 R)); [exact (IH n x y Hx)|]. intros t t' Ht. cbn. now constructor.
Qed.

Lemma alike_ofold {A A' S S'} (RA : A -> A' -> Prop) (RS : S -> S' -> Prop) f f' l l' :
  (forall s s' a a', RS s s' -> RA a a' -> alike_outcome RS (f s a) (f' s' a')) -> Forall2 RA l l' ->
  forall s s', RS s s' -> alike_outcome RS (ofold f l s) (ofold f' l' s').
Proof.
  intros Hf H. induction H as [|a a' l l' Ha _ IH]; intros s s' Hs; cbn [ofold]; auto.
  apply (alike_obind RS); [now apply Hf|]. intros b b' Hb. now apply IH.
Qed.

Lemma alike_omap {A A' B B'} (RA : A -> A' -> Prop) (RB : B -> B' -> Prop) f f' l l' :
  (forall a a', RA a a' -> alike_outcome RB (f a) (f' a')) -> Forall2 RA l l' ->
  alike_outcome (Forall2 RB) (omap f l) (omap f' l').
Proof.
  intros Hf H. induction H as [|a a' l l' Ha _ IH]; cbn [omap]; [constructor|].
  apply (alike_obind RB); [now apply Hf|]. intros b b' Hb.
  apply (alike_obind (Forall2 RB)); [exact IH|]. intros t t' Ht. cbn. now constructor.
Qed.

Lemma alike_min_by {A B} (R : A -> B -> Prop) cmp cmp' l l' :
  (forall a b a' b', R a a' -> R b b' -> cmp' a' b' = cmp a b) -> Forall2 R l l' ->
  alike_outcome (alike_option R) (min_by cmp l) (min_by cmp' l').
Proof.
  intros Hc H. destruct H as [|a a' l l' Ha H]; cbn [min_by]; [cbn; exact I|].
  apply (alike_obind R); [|intros x y Hx; exact Hx].
  apply (alike_ofold R R); auto. intros s s' b b' Hs Hb.
  rewrite (Hc _ _ _ _ Hs Hb). destruct (cmp s b) as [[]| |]; cbn; auto.
Qed.
Lemma alike_max_by {A B} (R : A -> B -> Prop) cmp cmp' l l' :
  (forall a b a' b', R a a' -> R b b' -> cmp' a' b' = cmp a b) -> Forall2 R l l' ->
  alike_outcome (alike_option R) (max_by cmp l) (max_by cmp' l').
Proof.
  intros Hc H. destruct H as [|a a' l l' Ha H]; cbn [max_by]; [cbn; exact I|].
  apply (alike_obind R); [|intros x y Hx; exact Hx].
  apply (alike_ofold R R); auto. intros s s' b b' Hs Hb.
  rewrite (Hc _ _ _ _ Hs Hb). destruct (cmp s b) as [[]| |]; cbn; auto.
Qed.

Lemma Forall2_same {A} (l : list A) : Forall2 eq l l.
Proof. induction l; constructor; auto. Qed.
Lemma Forall2_eq_list {A} (l l' : list A) : Forall2 eq l l' -> l = l'.
Proof. induction 1; congruence. Qed.
Lemma Forall2_len {A B} (R : A -> B -> Prop) l l' : Forall2 R l l' -> length l = length l'.
Proof. induction 1; cbn; congruence. Qed.

Lemma alike_eq {A} (o : outcome A) : alike_outcome eq o o.
Proof. destruct o; cbn; auto. Qed.

(** ** What both optimizers share *)
Section Shared.
  Variable R : f64 -> f64 -> Prop.
  Context {U1 U2 T S X : Type}.
  Variable W : U1 -> U2 -> Prop.
  Variable RS : S -> S -> Prop.
  Variable RX : X -> X -> Prop.
  Notation RE := (@alike_event R T S X RS RX).

  Lemma rel_goal g h x : alike_comp W R (g x) (h x) -> rel W RE R (call_goal g x) (call_goal h x).
  Proof.
    intros H. unfold call_goal. apply (rel_bind W RE eq); [now apply rel_emit|]. intros _ _ _.
    apply (rel_bind W RE R); [now apply rel_call|]. intros v w Hv.
    apply (rel_bind W RE eq); [now apply rel_emit|]. intros _ _ _. now apply rel_ret.
  Qed.

  Lemma rel_comp {A B} (RA : A -> B -> Prop) rec rec' (c : comp U1 A) (c' : comp U2 B) :
    alike_comp W RA c c' -> (forall a b, RA a b -> RX (rec a) (rec' b)) ->
    rel W RE RA (call_comp rec c) (call_comp rec' c').
  Proof.
    intros H Hr. unfold call_comp. apply (rel_bind W RE RA); [now apply rel_call|]. intros a b Ha.
    apply (rel_bind W RE eq); [apply rel_emit; cbn; auto|]. intros _ _ _. now apply rel_ret.
  Qed.

  Lemma rel_stop (view : S -> alg_state T) f g s t :
    alike_stop R W f g -> RS s t -> alike_view R (view s) (view t) ->
    rel W RE eq (call_stop view f s) (call_stop view g t).
  Proof.
    intros H Hs Hv. unfold call_stop. apply (rel_bind W RE eq); [apply rel_call; auto|].
    intros b b' <-. apply (rel_bind W RE eq); [apply rel_emit; cbn; auto|]. intros _ _ _. now apply rel_ret.
  Qed.

  Lemma combine_alike {A B} (Q : A -> B -> Prop) l l' : Forall2 Q l l' -> forall k,
    Forall2 (fun a b => fst a = fst b /\ Q (snd a) (snd b)) (combine (seq k (length l)) l) (combine (seq k (length l')) l').
  Proof. induction 1; intros k; cbn; constructor; auto. Qed.

  Lemma rel_loggers (view : S -> alg_state T) k ls ls' s t :
    Forall2 (alike_logger R W) ls ls' -> RS s t -> alike_view R (view s) (view t) ->
    rel W RE eq (call_loggers view k ls s) (call_loggers view k ls' t).
  Proof.
    intros H Hs Hv. unfold call_loggers, enumerate.
    apply (rel_for W RE (fun a b => fst a = fst b /\ alike_logger R W (snd a) (snd b))); [|now apply combine_alike].
    intros [i l] [j m] [Hi Hl]. cbn in Hi, Hl. subst j.
    apply (rel_bind W RE eq); [apply rel_emit; cbn; auto|]. intros _ _ _.
    apply rel_call. exact (Hl k _ _ Hv).
  Qed.
End Shared.

(** ** The genetic algorithm *)
Section Genetic.
  Context {U1 U2 T : Type}.
  Variable R : f64 -> f64 -> Prop.
  Hypothesis HR : same_order R.
  Variable W : U1 -> U2 -> Prop.
  Variables (c : ga_config U1 T) (d : ga_config U2 T).
  Hypothesis HC : alike_ga R W c d.
  Notation RE := (alike_event R (alike_population R) (alike_ga_call R)).
  Notation RP := (@alike_population R T).

  Lemma pop_view_alike (p q : population T) : RP p q -> alike_view R (pop_view p) (pop_view q).
  Proof.
    intros [_ [H [_ Hi]]]. split; [|exact Hi]. cbn.
    destruct (best_individual p), (best_individual q); cbn in *; try contradiction; auto.
    destruct H as [H1 [H2 _]]. split; assumption.
  Qed.

  Lemma min_cmp_alike (i j i' j' : individual T) : alike_individual R i i' -> alike_individual R j j' ->
    individuals_min_cmp i' j' = individuals_min_cmp i j.
  Proof.
    intros [_ [H _]] [_ [K _]]. unfold individuals_min_cmp.
    destruct (HR _ _ H) as [_ [-> Hc]], (HR _ _ K) as [_ [-> _]]. now rewrite (Hc _ _ K).
  Qed.
  Lemma max_cmp_alike (i j i' j' : individual T) : alike_individual R i i' -> alike_individual R j j' ->
    individuals_max_cmp i' j' = individuals_max_cmp i j.
  Proof.
    intros [_ [H _]] [_ [K _]]. unfold individuals_max_cmp.
    destruct (HR _ _ H) as [_ [-> Hc]], (HR _ _ K) as [_ [-> _]]. now rewrite (Hc _ _ K).
  Qed.

  Lemma best_worst_alike p q : RP p q -> alike_outcome RP (update_best_worst p) (update_best_worst q).
  Proof.
    intros [H1 [H2 [H3 H4]]]. unfold update_best_worst.
    apply (alike_obind (alike_option (alike_individual R))); [apply alike_min_by; [exact min_cmp_alike|assumption]|].
    intros b b' Hb. destruct b, b'; cbn in Hb; try contradiction;
      (apply (alike_obind (alike_option (alike_individual R))); [apply alike_max_by; [exact max_cmp_alike|assumption]|];
       intros w w' Hw; destruct w, w'; cbn in Hw; try contradiction; repeat split; cbn; try assumption; try apply Hb; try apply Hw).
  Qed.

  Lemma set_individuals_alike p q l l' : RP p q -> Forall2 (alike_individual R) l l' ->
    RP (set_individuals p l) (set_individuals q l').
  Proof. intros [H1 [H2 [H3 H4]]] H. repeat split; assumption. Qed.

  Lemma push_rel p q x : RP p q -> rel W RE RP (pop_push c p x) (pop_push d q x).
  Proof.
    intros H. unfold pop_push. apply (rel_bind W RE R); [apply rel_goal, HC|]. intros v w Hv.
    apply rel_ret. apply set_individuals_alike; [assumption|]. apply Forall2_app; [apply H|].
    repeat constructor; assumption.
  Qed.
  Lemma append_rel p q xs : RP p q -> rel W RE RP (pop_append c p xs) (pop_append d q xs).
  Proof.
    intros H. apply (rel_fold W RE eq RP); [|apply Forall2_same|assumption].
    intros s s' a a' Hs <-. now apply push_rel.
  Qed.

  Lemma family_alike p q pair : RP p q -> family p pair = family q pair.
  Proof.
    intros [H _]. unfold family.
    assert (K : alike_outcome (Forall2 eq)
      (omap (fun i => let! ind := index (individuals p) i in Ret (chromosomes ind)) pair)
      (omap (fun i => let! ind := index (individuals q) i in Ret (chromosomes ind)) pair)).
    { apply (alike_omap eq); [|apply Forall2_same]. intros i j <-.
      apply (alike_obind (alike_individual R)); [now apply alike_index|]. intros a b [E _]. exact E. }
    destruct (omap _ pair), (omap _ pair); cbn in K; try contradiction; auto.
    f_equal. now apply Forall2_eq_list.
  Qed.

  Lemma pairing_rel p q : RP p q -> rel W RE eq (run_pairing c p) (run_pairing d q).
  Proof.
    intros H. unfold run_pairing. apply (rel_bind W RE eq); [now apply rel_emit|]. intros _ _ _.
    apply (rel_bind W RE eq).
    { apply rel_comp; [now apply HC|]. intros a b <-. split; [assumption|reflexivity]. }
    intros pairs pairs' <-. apply (rel_fold W RE eq eq); [|apply Forall2_same|reflexivity].
    intros s s' a a' <- <-. rewrite <- (family_alike p q a H).
    apply (rel_bind W RE eq); [apply rel_pure, alike_eq|]. intros x y <-.
    apply (rel_bind W RE eq).
    { apply rel_comp; [apply HC|]. intros k k' <-. split; reflexivity. }
    intros k k' <-. now apply rel_ret.
  Qed.

  Lemma filter_alike (l l' : list (individual T)) : Forall2 (alike_individual R) l l' ->
    Forall2 (alike_individual R) (filter alive l) (filter alive l').
  Proof.
    induction 1 as [|i j l l' H _ IH]; cbn; [constructor|].
    pose proof (proj2 (proj2 H)) as E. rewrite <- E. destruct (alive i); [constructor|]; assumption.
  Qed.

  Lemma iteration_rel p q : RP p q -> rel W RE RP (ga_iteration c p) (ga_iteration d q).
  Proof.
    intros H. unfold ga_iteration. apply (rel_bind W RE eq); [now apply pairing_rel|]. intros ch ch' <-.
    apply (rel_bind W RE (Forall2 eq)).
    { apply (rel_mapM W RE eq eq); [|apply Forall2_same]. intros a a' <-.
      apply rel_comp; [apply HC|]. intros x y <-. split; reflexivity. }
    intros mu mu' Hmu. apply Forall2_eq_list in Hmu. subst mu'.
    apply (rel_bind W RE eq).
    { apply (rel_fold W RE (fun f g => forall p q xs, RP p q -> alike_comp W eq (f p xs) (g q xs)) eq); [|apply HC|reflexivity].
      intros s s' f g <- Hfg. apply (rel_bind W RE eq); [now apply rel_emit|]. intros _ _ _.
      apply rel_comp; [now apply Hfg|]. intros x y <-. repeat split; auto; apply H. }
    intros nb nb' <-. apply (rel_bind W RE RP); [now apply append_rel|]. intros p1 q1 H1.
    apply (rel_bind W RE RP).
    { apply (rel_fold W RE (fun f g => forall p q, RP p q -> alike_comp W (Forall2 (alike_individual R)) (f p) (g q)) RP);
        [|apply HC|assumption].
      intros s s' f g Hs Hfg. apply (rel_bind W RE eq); [now apply rel_emit|]. intros _ _ _.
      apply (rel_bind W RE (Forall2 (alike_individual R))).
      { apply rel_comp; [now apply Hfg|]. intros x y Hx. split; assumption. }
      intros l l' Hl. apply rel_ret. now apply set_individuals_alike. }
    intros p2 q2 H2. apply (rel_bind W RE RP).
    { apply rel_pure, best_worst_alike. unfold remove_dead. apply set_individuals_alike; [assumption|].
      apply filter_alike, H2. }
    intros p3 q3 H3. cbv zeta.
    assert (H4 : RP (pop_next_iteration p3) (pop_next_iteration q3)).
    { destruct H3 as [A [B [C D]]]. repeat split; try assumption. cbn. now rewrite D. }
    apply (rel_bind W RE eq); [apply rel_loggers; [apply HC|assumption|now apply pop_view_alike]|].
    intros _ _ _. now apply rel_ret.
  Qed.

  Lemma loop_rel fuel : forall p q, RP p q -> rel W RE RP (ga_loop c fuel p) (ga_loop d fuel q).
  Proof.
    induction fuel as [|fuel IH]; intros p q H; cbn [ga_loop].
    - intros u1 u2 Hw. repeat split; cbn; auto.
    - apply (rel_bind W RE eq); [apply rel_stop; [apply HC|assumption|now apply pop_view_alike]|].
      intros b b' <-. destruct b; [now apply rel_ret|].
      apply (rel_bind W RE RP); [now apply iteration_rel|]. intros x y Hx. now apply IH.
  Qed.

  Lemma next_rel fuel p q : RP p q ->
    rel W RE (alike_result R RP) (ga_next_iterations c fuel p) (ga_next_iterations d fuel q).
  Proof.
    intros H. unfold ga_next_iterations.
    apply (rel_bind W RE eq); [apply rel_loggers; [apply HC|assumption|now apply pop_view_alike]|]. intros _ _ _.
    apply (rel_bind W RE RP); [now apply loop_rel|]. intros x y Hx.
    apply (rel_bind W RE eq); [apply rel_loggers; [apply HC|assumption|now apply pop_view_alike]|]. intros _ _ _.
    apply rel_ret. split; [|assumption]. exact (proj1 (pop_view_alike _ _ Hx)).
  Qed.

  Lemma find_rel fuel p q :
    rel W RE (alike_result R RP) (ga_find_min c fuel p) (ga_find_min d fuel q).
  Proof.
    unfold ga_find_min. cbv zeta. apply (rel_bind W RE eq).
    { apply rel_comp; [apply HC|]. intros x y <-. reflexivity. }
    intros xs ys <-. apply (rel_bind W RE RP).
    { apply append_rel. repeat split; cbn; auto. }
    intros x y Hx.
    apply (rel_bind W RE eq); [apply rel_loggers; [apply HC|assumption|now apply pop_view_alike]|]. intros _ _ _.
    now apply next_rel.
  Qed.
End Genetic.

(** ** The particle swarm *)
Section Swarm.
  Context {U1 U2 T : Type} {FT : FloatTrait T}.
  Variable R : f64 -> f64 -> Prop.
  Hypothesis HR : same_order R.
  Variable W : U1 -> U2 -> Prop.
  Variables (c : pso_config U1 T) (d : pso_config U2 T).
  Hypothesis HC : alike_pso R W c d.
  Notation RE := (alike_event R (alike_swarm R) (alike_pso_call R)).
  Notation RS := (@alike_swarm R T).
  Notation RQ := (@alike_particle R T).

  Lemma ltb_alike a a' b b' : R a a' -> R b b' -> ltb a' b' = ltb a b.
  Proof. intros H K. unfold ltb. now rewrite (proj2 (proj2 (HR _ _ H)) _ _ K). Qed.
  Lemma compare_alike a a' b b' : R a a' -> R b b' -> compare_floats a' b' = compare_floats a b.
  Proof.
    intros H K. unfold compare_floats.
    rewrite (proj1 (HR _ _ H)), (proj1 (HR _ _ K)), (ltb_alike _ _ _ _ H K), (ltb_alike _ _ _ _ K H). reflexivity.
  Qed.

  Lemma swarm_view_alike s t : RS s t -> alike_view R (swarm_view s) (swarm_view t).
  Proof.
    intros [_ [H [_ Hi]]]. split; [|exact Hi]. cbn.
    destruct (best_particle s), (best_particle t); cbn in *; try contradiction; auto.
    split; apply H.
  Qed.

  Lemma find_best_alike ps qs : Forall2 RQ ps qs ->
    alike_outcome (alike_option RQ) (find_best_particle ps) (find_best_particle qs).
  Proof.
    intros H. unfold find_best_particle. destruct H as [|p q ps qs H Hs]; [exact I|].
    apply (alike_obind (alike_option RQ)).
    - apply alike_min_by; [|now constructor]. intros a b a' b' Ha Hb.
      now rewrite (compare_alike _ (value a') _ (value b') (proj1 (proj2 (proj2 Ha))) (proj1 (proj2 (proj2 Hb)))).
    - intros o o' Ho. apply (alike_obind RQ); [|intros x y Hx; exact Hx].
      destruct o, o'; cbn in *; auto.
  Qed.
  Lemma find_worst_alike ps qs : Forall2 RQ ps qs ->
    alike_outcome (alike_option RQ) (find_worst_particle ps) (find_worst_particle qs).
  Proof.
    intros H. unfold find_worst_particle. destruct H as [|p q ps qs H Hs]; [exact I|].
    apply (alike_obind (alike_option RQ)).
    - apply alike_max_by; [|now constructor]. intros a b a' b' Ha Hb.
      now rewrite (compare_alike _ (value a') _ (value b') (proj1 (proj2 (proj2 Ha))) (proj1 (proj2 (proj2 Hb)))).
    - intros o o' Ho. apply (alike_obind RQ); [|intros x y Hx; exact Hx].
      destruct o, o'; cbn in *; auto.
  Qed.

  Lemma replace_alike s t ps qs : RS s t -> Forall2 RQ ps qs ->
    alike_outcome RS (replace_particles s ps) (replace_particles t qs).
  Proof.
    intros H Hp. unfold replace_particles.
    apply (alike_obind (alike_option RQ)); [now apply find_best_alike|]. intros b b' Hb.
    apply (alike_obind (alike_option RQ)); [now apply find_worst_alike|]. intros w w' Hw.
    repeat split; auto. apply H.
  Qed.

  Lemma update_best_alike s t : RS s t -> alike_outcome RS (update_best_particle s) (update_best_particle t).
  Proof.
    intros [H1 [H2 [H3 H4]]]. unfold update_best_particle.
    apply (alike_obind (alike_option RQ)); [now apply find_best_alike|]. intros o o' Ho.
    destruct o as [n|], o' as [n'|]; cbn in Ho; try contradiction; [|repeat split; assumption].
    destruct (best_particle s) as [b|] eqn:E, (best_particle t) as [b'|] eqn:E'; cbn in H2; try contradiction.
    - rewrite (compare_alike (value n) (value n') (value b) (value b') (proj1 (proj2 (proj2 Ho))) (proj1 (proj2 (proj2 H2)))).
      destruct (compare_floats (value n) (value b)); cbn [alike_outcome]; unfold alike_swarm;
        cbn [particles best_particle worst_particle sw_iteration]; rewrite ?E, ?E'; repeat split; try assumption; try apply Ho; apply H2.
    - repeat split; try assumption; apply Ho.
  Qed.
  Lemma update_worst_alike s t : RS s t -> alike_outcome RS (update_worst_particle s) (update_worst_particle t).
  Proof.
    intros [H1 [H2 [H3 H4]]]. unfold update_worst_particle.
    apply (alike_obind (alike_option RQ)); [now apply find_worst_alike|]. intros o o' Ho.
    destruct o as [n|], o' as [n'|]; cbn in Ho; try contradiction; [|repeat split; assumption].
    destruct (worst_particle s) as [b|] eqn:E, (worst_particle t) as [b'|] eqn:E'; cbn in H3; try contradiction.
    - rewrite (compare_alike (value n) (value n') (value b) (value b') (proj1 (proj2 (proj2 Ho))) (proj1 (proj2 (proj2 H3)))).
      destruct (compare_floats (value n) (value b)); cbn [alike_outcome]; unfold alike_swarm;
        cbn [particles best_particle worst_particle sw_iteration]; rewrite ?E, ?E'; repeat split; try assumption; try apply Ho; apply H3.
    - repeat split; try assumption; apply Ho.
  Qed.

  Lemma post_move_rel x : rel W RE eq (run_post_move c x) (run_post_move d x).
  Proof.
    unfold run_post_move. apply (rel_fold W RE (fun f g => forall x, alike_comp W eq (f x) (g x)) eq); [|apply HC|reflexivity].
    intros s s' f g <- Hfg. apply rel_comp; [apply Hfg|]. intros a b <-. split; reflexivity.
  Qed.

  Lemma renew_rel s t : rel W RE RS (renew_swarm c s) (renew_swarm d t).
  Proof.
    unfold renew_swarm.
    apply (rel_bind W RE eq); [apply rel_comp; [apply HC|intros a b <-; reflexivity]|]. intros xs xs' <-.
    apply (rel_bind W RE eq); [apply rel_comp; [apply HC|intros a b <-; reflexivity]|]. intros vs vs' <-.
    apply (rel_bind W RE eq); [apply rel_pure, alike_eq|]. intros _ _ _.
    apply (rel_bind W RE (Forall2 eq)).
    { apply (rel_mapM W RE eq eq); [|apply Forall2_same]. intros a a' <-. apply post_move_rel. }
    intros ys ys' Hy. apply Forall2_eq_list in Hy. subst ys'.
    apply (rel_bind W RE (Forall2 RQ)).
    { apply (rel_mapM W RE eq RQ); [|apply Forall2_same]. intros a a' <-.
      apply (rel_bind W RE R); [apply rel_goal, HC|]. intros v w Hv. apply rel_ret. repeat split; assumption. }
    intros ps qs Hp. apply rel_pure. apply replace_alike; [|assumption]. repeat split; cbn; auto.
  Qed.

  Lemma particle_rel s t n : RS s t -> rel W RE RS (pso_particle c s n) (pso_particle d t n).
  Proof.
    intros H. unfold pso_particle.
    apply (rel_bind W RE RQ); [apply rel_pure, alike_index, H|]. intros p q Hp.
    apply (rel_bind W RE eq); [now apply rel_emit|]. intros _ _ _.
    apply (rel_bind W RE eq).
    { apply rel_comp; [now apply HC|]. intros a b <-. repeat split; try apply H; apply Hp. }
    intros v v' <-. apply (rel_bind W RE eq).
    { apply (rel_fold W RE (fun f g => forall x, alike_comp W eq (f x) (g x)) eq); [|apply HC|reflexivity].
      intros x x' f g <- Hfg. apply rel_comp; [apply Hfg|]. intros a b <-. split; reflexivity. }
    intros w w' <-. cbv zeta. destruct Hp as [P1 [P2 [P3 [P4 [P5 [P6 P7]]]]]].
    cbn [set_velocity coordinates velocity]. rewrite <- P1.
    apply (rel_bind W RE eq); [apply post_move_rel|]. intros x x' <-.
    apply (rel_bind W RE R); [apply rel_goal, HC|]. intros y y' Hy.
    apply (rel_bind W RE (Forall2 RQ)).
    - apply rel_pure. apply alike_update; [apply H|]. unfold move_to. cbn [set_velocity velocity best_personal_value best_personal_coordinates worst_personal_value worst_personal_coordinates].
      rewrite (compare_alike _ _ _ _ Hy P5), (compare_alike _ _ _ _ Hy P7), <- P4, <- P6.
      destruct (compare_floats y (best_personal_value p)), (compare_floats y (worst_personal_value p)); repeat split; assumption.
    - intros ps qs Hps. apply rel_ret. destruct H as [H1 [H2 [H3 H4]]]. repeat split; assumption.
  Qed.

  Lemma pso_iteration_rel s t : RS s t -> rel W RE RS (pso_iteration c s) (pso_iteration d t).
  Proof.
    intros H. unfold pso_iteration. rewrite <- (Forall2_len _ _ _ (proj1 H)).
    apply (rel_bind W RE RS).
    { apply (rel_fold W RE eq RS); [|apply Forall2_same|assumption]. intros x y n n' Hx <-. now apply particle_rel. }
    intros s1 t1 H1. apply (rel_bind W RE RS); [now apply rel_pure, update_best_alike|]. intros s2 t2 H2.
    apply (rel_bind W RE RS); [now apply rel_pure, update_worst_alike|]. intros s3 t3 H3. cbv zeta.
    assert (H4 : RS (swarm_next_iteration s3) (swarm_next_iteration t3)).
    { destruct H3 as [A [B [C D]]]. repeat split; try assumption. cbn. now rewrite D. }
    apply (rel_bind W RE eq); [apply rel_loggers; [apply HC|assumption|now apply swarm_view_alike]|].
    intros _ _ _. now apply rel_ret.
  Qed.

  Lemma pso_loop_rel fuel : forall s t, RS s t -> rel W RE RS (pso_loop c fuel s) (pso_loop d fuel t).
  Proof.
    induction fuel as [|fuel IH]; intros p q H; cbn [pso_loop].
    - intros u1 u2 Hw. repeat split; cbn; auto.
    - apply (rel_bind W RE eq); [apply rel_stop; [apply HC|assumption|now apply swarm_view_alike]|].
      intros b b' <-. destruct b; [now apply rel_ret|].
      apply (rel_bind W RE RS); [now apply pso_iteration_rel|]. intros x y Hx. now apply IH.
  Qed.

  Lemma pso_next_rel fuel s t : RS s t ->
    rel W RE (alike_result R RS) (pso_next_iterations c fuel s) (pso_next_iterations d fuel t).
  Proof.
    intros H. unfold pso_next_iterations.
    apply (rel_bind W RE eq); [apply rel_loggers; [apply HC|assumption|now apply swarm_view_alike]|]. intros _ _ _.
    apply (rel_bind W RE RS); [now apply pso_loop_rel|]. intros x y Hx.
    apply (rel_bind W RE eq); [apply rel_loggers; [apply HC|assumption|now apply swarm_view_alike]|]. intros _ _ _.
    apply rel_ret. split; [|assumption]. exact (proj1 (swarm_view_alike _ _ Hx)).
  Qed.

  Lemma pso_find_rel fuel s t :
    rel W RE (alike_result R RS) (pso_find_min c fuel s) (pso_find_min d fuel t).
  Proof.
    unfold pso_find_min. apply (rel_bind W RE RS); [apply renew_rel|]. intros x y Hx.
    apply (rel_bind W RE eq); [apply rel_loggers; [apply HC|assumption|now apply swarm_view_alike]|]. intros _ _ _.
    now apply pso_next_rel.
  Qed.
End Swarm.
