(** * The shape of returning runs of the particle swarm optimizer *)

From Coq Require Import List Arith ZArith Bool Lia.
From Verif Require Import Base Logic FloatModel GaModel PsoModel SpecGa SpecPso FloatFacts GaBest
  GaFacts GaSafety GaTheorems PsoFacts.
Import ListNotations.

(** ** Reading traces *)
Section Reading.
  Context {T S X : Type}.
  Implicit Types (a b t : list (event T S X)).
  Lemma answers_app a b : answers (a ++ b) = answers a ++ answers b.
  Proof. induction a as [|[] a IH]; simpl; auto. now rewrite IH. Qed.
  Lemma consulted_app a b : consulted (a ++ b) = consulted a ++ consulted b.
  Proof. induction a as [|[] a IH]; simpl; auto. now rewrite IH. Qed.
  Lemma answers_evaluated t x v : In (x, v) (answers t) <-> evaluated t x v.
  Proof.
    unfold evaluated. induction t as [|[] t IH]; simpl; [tauto|..];
      try (rewrite IH; split; [auto|intros [H|H]; [discriminate|auto]]).
    rewrite IH. split; intros [H|H]; auto; left; congruence.
  Qed.
  Lemma answers_log k n (s : S) : answers (@log_events T S X k n s) = [].
  Proof. unfold log_events. induction (seq 0 n); simpl; auto. Qed.
  Lemma consulted_log k n (s : S) : consulted (@log_events T S X k n s) = [].
  Proof. unfold log_events. induction (seq 0 n); simpl; auto. Qed.
  Lemma evals_log k n (s : S) : evals (@log_events T S X k n s) = [].
  Proof. unfold log_events. induction (seq 0 n); simpl; auto. Qed.
  Lemma eval_events_read xs vs : length vs = length xs ->
    answers (@eval_events T S X xs vs) = combine xs vs /\
    evals (@eval_events T S X xs vs) = xs /\ consulted (@eval_events T S X xs vs) = [].
  Proof.
    unfold eval_events. revert vs. induction xs as [|x xs IH]; intros [|v vs] H; simpl in *;
      try discriminate; auto.
    destruct (IH vs) as [E1 [E2 E3]]; [lia|]. now rewrite E1, E2, E3.
  Qed.
End Reading.

Section Chains.
  Context {T : Type}.
  Notation ev := (pso_event T).
  Lemma chain_quiet mk n x (t : list ev) y : chain mk n x t y -> Forall quiet t.
  Proof. induction 1; constructor; simpl; auto. Qed.
  Lemma chains_quiet n xs (t : list ev) ys : chains n xs t ys -> Forall quiet t.
  Proof. induction 1; [constructor|]. apply Forall_app. split; eauto using chain_quiet. Qed.
  Lemma chains_length n xs (t : list ev) ys : chains n xs t ys -> length ys = length xs.
  Proof. induction 1; simpl; auto. Qed.
  Lemma quiet_read (t : list ev) : Forall quiet t ->
    answers t = [] /\ evals t = [] /\ consulted t = [].
  Proof. induction 1 as [|e t He Ht IH]; simpl; auto. destruct e; simpl in He; tauto. Qed.
End Chains.

(** ** Best and worst of the swarm *)
Section Best.
  Context {T : Type}.
  Implicit Types (s : swarm T).

  Lemma first_least_nil {A} (f : A -> f64) a : ~ first_least f [] a.
  Proof. intros [[|k] [H _]]; discriminate. Qed.
  Lemma last_greatest_nil {A} (f : A -> f64) a : ~ last_greatest f [] a.
  Proof. intros [[|k] [H _]]; discriminate. Qed.
  Lemma first_least_single {A} (f : A -> f64) a b : first_least f [a] b <-> a = b.
  Proof.
    split; [|intros <-; apply first_least_one]. intros [[|[|k]] [H _]]; simpl in H; congruence.
  Qed.
  Lemma last_greatest_unique {A} (f : A -> f64) l a b :
    last_greatest f l a -> last_greatest f l b -> a = b.
  Proof.
    intros [k [Hk [Lk Ek]]] [j [Hj [Lj Ej]]].
    destruct (lt_eq_lt_dec k j) as [[H|Ekj]|H]; [|subst; congruence|]; exfalso.
    - specialize (Ek j b H Hj). eapply not_lt_fin; [|exact Ek]. apply Lj. eapply nth_error_In; eauto.
    - specialize (Ej k a H Hk). eapply not_lt_fin; [|exact Ej]. apply Lk. eapply nth_error_In; eauto.
  Qed.

  Lemma update_best_spec s : exists s', update_best_particle s = Ret s' /\
    particles s' = particles s /\ worst_particle s' = worst_particle s /\
    sw_iteration s' = sw_iteration s /\
    forall b, best_particle s' = Some b <->
      first_least value (option_list (best_particle s) ++ particles s) b.
  Proof.
    unfold update_best_particle. pose proof (find_best_spec (particles s)) as Hf.
    destruct (particles s) as [|p l] eqn:Ep.
    - rewrite Hf. simpl. exists s. repeat split; auto; intros H.
      + rewrite app_nil_r. rewrite H. apply first_least_one.
      + rewrite app_nil_r in H. destruct (best_particle s) as [b0|]; simpl in H.
        * apply first_least_single in H. now subst.
        * now apply first_least_nil in H.
    - destruct Hf as [nb [E Hb]]. rewrite E. cbn [obind].
      set (s' := Swarm (p :: l) (Some nb) (worst_particle s) (sw_iteration s)).
      destruct (best_particle s) as [ob|] eqn:Eb.
      + destruct (first_least_app value [ob] (p :: l) ob nb (first_least_one value ob) Hb) as [A B].
        pose proof (compare_lt (value nb) (value ob)) as Hc.
        assert (Hn : compare_floats (value nb) (value ob) <> Lt ->
                  first_least value ([ob] ++ p :: l) ob).
        { intros K. apply B. intros L. apply Hc in L. contradiction. }
        assert (D : forall b, Some ob = Some b <-> ob = b) by (intros; split; congruence).
        destruct (compare_floats (value nb) (value ob)).
        * exists s. rewrite Eb. repeat split; auto; intros H.
          -- inversion H; subst. apply Hn. discriminate.
          -- f_equal. eapply first_least_unique; [apply Hn; discriminate|exact H].
        * exists s'. unfold s'. simpl. repeat split; auto; intros H.
          -- inversion H; subst. apply A. now apply Hc.
          -- f_equal. eapply first_least_unique; [apply A; now apply Hc|exact H].
        * exists s. rewrite Eb. repeat split; auto; intros H.
          -- inversion H; subst. apply Hn. discriminate.
          -- f_equal. eapply first_least_unique; [apply Hn; discriminate|exact H].
      + exists s'. unfold s'. simpl. repeat split; auto; intros H.
        * inversion H; subst. auto.
        * f_equal. eapply first_least_unique; eauto.
  Qed.

  Definition renewed_worst s s' : Prop := forall w, worst_particle s' = Some w <->
    (worst_particle s = Some w /\ (forall p, In p (particles s) -> le_fin (value p) (value w))) \/
    (last_greatest value (particles s) w /\
     forall w0, worst_particle s = Some w0 -> lt_fin (value w0) (value w)).

  Lemma update_worst_spec s : exists s', update_worst_particle s = Ret s' /\
    particles s' = particles s /\ best_particle s' = best_particle s /\
    sw_iteration s' = sw_iteration s /\ renewed_worst s s'.
  Proof.
    unfold update_worst_particle, renewed_worst. pose proof (find_worst_spec (particles s)) as Hf.
    destruct (particles s) as [|p l] eqn:Ep.
    - rewrite Hf. simpl. exists s. repeat split; auto; intros H.
      + left. split; auto. intros ? [].
      + destruct H as [[H _]|[H _]]; auto. now apply last_greatest_nil in H.
    - destruct Hf as [nw [E Hw]]. rewrite E. cbn [obind].
      set (s' := Swarm (p :: l) (best_particle s) (Some nw) (sw_iteration s)).
      destruct (worst_particle s) as [ow|] eqn:Eb.
      + pose proof (compare_gt (value nw) (value ow)) as Hc.
        assert (Hn : compare_floats (value nw) (value ow) <> Gt ->
                  forall q, In q (p :: l) -> le_fin (value q) (value ow)).
        { intros K q Hq. apply last_greatest_greatest in Hw. destruct Hw as [_ Hw].
          eapply le_fin_trans; [apply Hw; auto|]. apply not_lt_fin. intros L. apply Hc in L. contradiction. }
        assert (Hstay : compare_floats (value nw) (value ow) <> Gt -> forall w, Some ow = Some w <->
          (Some ow = Some w /\ (forall q, In q (p :: l) -> le_fin (value q) (value w))) \/
          (last_greatest value (p :: l) w /\
           forall w0, Some ow = Some w0 -> lt_fin (value w0) (value w))).
        { intros K w. split.
          - intros H. left. split; auto. inversion H; subst. now apply Hn.
          - intros [[H _]|[H1 H2]]; auto. exfalso. specialize (H2 ow eq_refl).
            eapply not_lt_fin; [|exact H2]. apply Hn; auto.
            apply last_greatest_greatest in H1. apply H1. }
        destruct (compare_floats (value nw) (value ow)).
        * exists s. rewrite Eb. split; [auto|]. split; [auto|]. split; [auto|]. split; [auto|].
          apply Hstay. discriminate.
        * exists s. rewrite Eb. split; [auto|]. split; [auto|]. split; [auto|]. split; [auto|].
          apply Hstay. discriminate.
        * exists s'. unfold s'. cbn [particles best_particle worst_particle sw_iteration].
          split; [auto|]. split; [auto|]. split; [auto|]. split; [auto|].
          assert (L : lt_fin (value ow) (value nw)) by now apply Hc.
          intros w. split.
          -- intros H. inversion H; subst. right. split; auto. intros w0 H0. now inversion H0; subst.
          -- intros [[H1 H2]|[H1 _]].
             ++ inversion H1; subst. exfalso. eapply not_lt_fin; [|exact L]. apply H2.
                apply last_greatest_greatest in Hw. apply Hw.
             ++ f_equal. eapply last_greatest_unique; eauto.
      + exists s'. unfold s'. cbn [particles best_particle worst_particle sw_iteration].
        split; [auto|]. split; [auto|]. split; [auto|]. split; [auto|].
        intros w. split.
        * intros H. inversion H; subst. right. split; auto. discriminate.
        * intros [[H _]|[H _]]; [discriminate|]. f_equal. eapply last_greatest_unique; eauto.
  Qed.

  Lemma replace_particles_spec s l : exists s', replace_particles s l = Ret s' /\
    particles s' = l /\ sw_iteration s' = sw_iteration s /\
    (forall b, best_particle s' = Some b <-> first_least value l b) /\
    (forall w, worst_particle s' = Some w <-> last_greatest value l w).
  Proof.
    unfold replace_particles. pose proof (find_best_spec l) as Hb. pose proof (find_worst_spec l) as Hw.
    destruct l as [|p l].
    - simpl. eexists; split; [reflexivity|]. simpl. repeat split; try discriminate; intros H.
      + now apply first_least_nil in H.
      + now apply last_greatest_nil in H.
    - destruct Hb as [b [Eb Hb]], Hw as [w [Ew Hw]]. rewrite Eb, Ew. cbn [obind].
      eexists; split; [reflexivity|]. simpl. repeat split; auto; intros H.
      + inversion H; subst. auto.
      + f_equal. eapply first_least_unique; eauto.
      + inversion H; subst. auto.
      + f_equal. eapply last_greatest_unique; eauto.
  Qed.
End Best.

(** ** Returning runs *)
Section Runs.
  Context {U T : Type} {FT : FloatTrait T}.
  Variable cfg : pso_config U T.
  Notation ev := (pso_event T).
  Notation nvel := (length (pso_post_velocity cfg)).
  Notation nmove := (length (pso_post_move cfg)).
  Notation nlog := (length (pso_loggers cfg)).

  Lemma chain_ret mk (fs : list (list T -> comp U (list T))) x u y u' (t : list ev) :
    mfold (fun v f => call_comp (mk v) (f v)) fs x u = (Ret y, u', t) ->
    chain mk (length fs) x t y.
  Proof.
    revert x u t. induction fs as [|f fs IH]; intros x u t H; simpl in H.
    - minv H. constructor.
    - minv H. callinv. simpl. constructor. eapply IH; eauto.
  Qed.

  Lemma post_moves_ret xs u ys u' t :
    mmapM (run_post_move cfg) xs u = (Ret ys, u', t) -> chains nmove xs t ys.
  Proof.
    revert u ys t. induction xs as [|x xs IH]; intros u ys t H; simpl in H.
    - minv H. constructor.
    - minv H. match goal with h : run_post_move _ _ _ = _ |- _ => apply chain_ret in h end.
      rewrite app_nil_r. constructor; eauto.
  Qed.

  Lemma new_particles_ret (cs : list (list T * list T)) u ps u' (t : list ev) :
    mmapM (fun cs => y <- call_goal (pso_goal cfg) (fst cs) ;;
                     mret (particle_new (fst cs) (snd cs) y)) cs u = (Ret ps, u', t) ->
    exists ys, length ys = length cs /\
      ps = map (fun xvy => let '(x, v, y) := xvy in Particle x v y x y x y) (combine cs ys) /\
      t = eval_events (map fst cs) ys.
  Proof.
    revert u ps t. induction cs as [|[x v] cs IH]; intros u ps t H; simpl in H.
    - minv H. exists []. auto.
    - minv H. callinv.
      match goal with h : mmapM _ _ _ = _ |- _ => apply IH in h; destruct h as [ys [Hl [-> ->]]] end.
      eexists (_ :: ys). simpl. repeat split; auto.
      unfold eval_events. simpl. now rewrite app_nil_r.
  Qed.

  Lemma renew_swarm_ret s u s' u' t :
    renew_swarm cfg s u = (Ret s', u', t) -> pso_start nmove t s'.
  Proof.
    unfold renew_swarm. intros H. minv H. callinv.
    repeat match goal with
    | h : oassert _ = Ret _ |- _ => apply oassert_ret in h; apply Nat.eqb_eq in h
    | h : mmapM (run_post_move _) _ _ = _ |- _ => apply post_moves_ret in h
    | h : mmapM _ _ _ = _ |- _ => apply new_particles_ret in h; destruct h as [ys [Hl [-> ->]]]
    end.
    match goal with h : chains _ ?c _ ?c' |- _ => rename h into Hc; rename c into coords; rename c' into coords' end.
    match goal with h : length coords = length ?v |- _ => rename h into Hv; rename v into vels end.
    pose proof (chains_length _ _ _ _ Hc) as Hcl.
    assert (Hcomb : length (combine coords' vels) = length coords) by (rewrite combine_length; lia).
    assert (Hfst : map fst (combine coords' vels) = coords').
    { clear - Hcl Hv. assert (length vels = length coords') by lia. clear Hcl Hv.
      revert vels H. induction coords' as [|c cs IH]; intros [|v vs] H; simpl in *; try discriminate; auto.
      f_equal. apply IH. lia. }
    destruct (replace_particles_spec (swarm_reset s)
      (map (fun xvy => let '(x, v, y) := xvy in Particle x v y x y x y) (combine (combine coords' vels) ys)))
      as [s2 [E2 [Hp [Hi [Hb Hw]]]]].
    match goal with h : replace_particles _ _ = Ret _ |- _ => rewrite h in E2; inversion E2; subst s2 end.
    rewrite Hfst. apply (PsoStart nmove _ s' coords vels t1 coords' ys); try rewrite Hp; auto; try lia.
    simpl. rewrite ?app_nil_r. reflexivity.
  Qed.

  Lemma pso_particle_ret s n u s' u' t :
    pso_particle cfg s n u = (Ret s', u', t) -> particle_step nvel nmove n s t s'.
  Proof.
    unfold pso_particle. intros H. minv H. callinv. cbn zeta in *. callinv.
    repeat match goal with
    | h : index _ _ = Ret _ |- _ => apply index_ret in h
    | h : mfold _ (pso_post_velocity _) _ _ = _ |- _ => apply (chain_ret PPostVelocity) in h
    | h : run_post_move _ _ _ = _ |- _ => apply (chain_ret PPostMove) in h
    | h : update _ _ _ = Ret _ |- _ => apply update_firstn_skipn in h
    end.
    econstructor; eauto using moved_spec.
  Qed.

  Lemma pso_steps_ret ns s u s' u' t :
    mfold (pso_particle cfg) ns s u = (Ret s', u', t) -> particle_steps nvel nmove ns s t s'.
  Proof.
    revert s u t. induction ns as [|n ns IH]; intros s u t H; simpl in H.
    - minv H. constructor.
    - minv H. match goal with h : pso_particle _ _ _ _ = _ |- _ => apply pso_particle_ret in h end.
      econstructor; eauto.
  Qed.

  Lemma steps_same ns s t s' : particle_steps nvel nmove ns s t s' ->
    best_particle s' = best_particle s /\ worst_particle s' = worst_particle s /\
    sw_iteration s' = sw_iteration s.
  Proof.
    induction 1 as [|n ns s g s1 t s2 H H1 IH]; auto. destruct H. destruct IH as [? [? ?]].
    repeat split; congruence.
  Qed.

  Lemma pso_iteration_ret s u s' u' t :
    pso_iteration cfg s u = (Ret s', u', t) -> pso_round nvel nmove nlog s t s'.
  Proof.
    unfold pso_iteration. intros H. minv H. cbn zeta in *. callinv.
    match goal with h : mfold _ _ _ _ = _ |- _ => apply pso_steps_ret in h; rename h into Hs end.
    match goal with h : update_best_particle ?x = _ |- _ =>
      destruct (update_best_spec x) as [s2 [E2 [Hp2 [Hw2 [Hi2 Hb2]]]]];
      rewrite h in E2; inversion E2; subst s2; clear E2 end.
    match goal with h : update_worst_particle ?x = _ |- _ =>
      destruct (update_worst_spec x) as [s3 [E3 [Hp3 [Hb3 [Hi3 Hw3]]]]];
      rewrite h in E3; inversion E3; subst s3; clear E3 end.
    destruct (steps_same _ _ _ _ Hs) as [Sb [Sw Si]].
    econstructor; [exact Hs|simpl..].
    - congruence.
    - intros b. rewrite Hb3, Hb2, Sb, Hp3, Hp2. tauto.
    - intros w. rewrite (Hw3 w), Hw2, Sw, Hp3, Hp2. tauto.
    - congruence.
    - now rewrite app_nil_r.
  Qed.

  Lemma pso_loop_ret fuel s u s' u' t :
    pso_loop cfg fuel s u = (Ret s', u', t) -> exists k, pso_rounds nvel nmove nlog s t s' k.
  Proof.
    revert s u t. induction fuel as [|fuel IH]; intros s u t H; simpl in H; [discriminate|].
    minv H. callinv. destruct a.
    - minv H. exists 0. constructor.
    - minv H. match goal with h : pso_iteration _ _ _ = _ |- _ => apply pso_iteration_ret in h end.
      apply IH in H. destruct H as [k H]. exists (S k). simpl. econstructor; eauto.
  Qed.

  Lemma pso_next_ret fuel s u r s' u' t :
    pso_next_iterations cfg fuel s u = (Ret (r, s'), u', t) ->
    r = option_map place (best_particle s') /\
    exists t1 k, pso_rounds nvel nmove nlog s t1 s' k /\
      t = log_events LResume nlog s ++ t1 ++ log_events LFinish nlog s'.
  Proof.
    unfold pso_next_iterations. intros H. minv H. callinv.
    match goal with h : pso_loop _ _ _ _ = _ |- _ => apply pso_loop_ret in h; destruct h as [k Hl] end.
    inversion H; subst. split; [now destruct (best_particle s')|].
    eexists _, k. split; [exact Hl|]. now rewrite app_nil_r.
  Qed.

  Lemma pso_find_ret fuel s u r s' u' t :
    pso_find_min cfg fuel s u = (Ret (r, s'), u', t) ->
    r = option_map place (best_particle s') /\
    exists s0 g t1 k, pso_start nmove g s0 /\ pso_rounds nvel nmove nlog s0 t1 s' k /\
      t = g ++ log_events LStart nlog s0 ++ log_events LResume nlog s0 ++ t1
          ++ log_events LFinish nlog s'.
  Proof.
    unfold pso_find_min. intros H. minv H. callinv.
    match goal with h : renew_swarm _ _ _ = _ |- _ => apply renew_swarm_ret in h; rename h into Hs end.
    apply pso_next_ret in H. destruct H as [-> [t1 [k [Hr ->]]]]. split; auto.
    eexists _, _, t1, k. split; [exact Hs|]. split; [exact Hr|]. reflexivity.
  Qed.
End Runs.

(** ** What the shape says about evaluations, protocol and memories *)
Section Shape.
  Context {T : Type} {FT : FloatTrait T}.
  Notation ev := (pso_event T).
  Variables (nvel nmove nlog : nat).
  Implicit Types (s : swarm T) (t g : list ev).

  Lemma step_read n s g s' : particle_step nvel nmove n s g s' ->
    exists p p' v, nth_error (particles s) n = Some p /\ nth_error (particles s') n = Some p' /\
      moved p p' v (coordinates p') (value p') /\
      length (particles s') = length (particles s) /\
      firstn n (particles s') = firstn n (particles s) /\
      skipn (S n) (particles s') = skipn (S n) (particles s) /\
      answers g = [place p'] /\ evals g = [coordinates p'] /\ consulted g = [] /\
      (forall f i, protocol f i g = []).
  Proof.
    intros H. destruct H.
    pose proof (quiet_read _ (chain_quiet _ _ _ _ _ step_velocity)) as [A1 [A2 A3]].
    pose proof (quiet_read _ (chain_quiet _ _ _ _ _ step_move)) as [B1 [B2 B3]].
    assert (Hn : n < length (particles s)) by (apply nth_error_Some; congruence).
    assert (Hx : coordinates p' = x /\ value p' = y) by (destruct step_moved; tauto).
    destruct Hx as [Hx Hy].
    exists p, p', v. split; auto.
    assert (Hf : length (firstn n (particles s)) = n) by (rewrite firstn_length; lia).
    split; [rewrite step_particles, nth_error_app2, Hf, Nat.sub_diag by lia; reflexivity|].
    split; [congruence|]. split.
    { rewrite step_particles, app_length, Hf. cbn [length]. rewrite skipn_length. lia. }
    split.
    { rewrite step_particles, firstn_app, Hf, Nat.sub_diag. simpl. rewrite app_nil_r.
      apply firstn_all2. lia. }
    split.
    { rewrite step_particles, skipn_app, Hf. rewrite skipn_all2 by lia.
      replace (S n - n) with 1 by lia. reflexivity. }
    rewrite step_events. split; [|split; [|split]].
    - simpl. rewrite !answers_app, A1, B1. simpl. unfold place. congruence.
    - simpl. rewrite !evals_app, A2, B2. simpl. congruence.
    - simpl. rewrite !consulted_app, A3, B3. reflexivity.
    - intros f i. simpl. rewrite !protocol_app.
      rewrite (proj1 (quiet_protocol f i _ (chain_quiet _ _ _ _ _ step_velocity))).
      rewrite (proj1 (quiet_protocol f i _ (chain_quiet _ _ _ _ _ step_move))). reflexivity.
  Qed.

  Lemma firstn_snoc {A} (l : list A) n x : nth_error l n = Some x ->
    firstn (S n) l = firstn n l ++ [x].
  Proof.
    revert n. induction l as [|y l IH]; intros [|n] H; simpl in *; try discriminate.
    - congruence.
    - f_equal. now apply IH.
  Qed.

  Definition moves_to (p p' : particle T) : Prop :=
    exists v, moved p p' v (coordinates p') (value p').

  Lemma skipn_cons {A} (l : list A) n q : nth_error l n = Some q -> skipn n l = q :: skipn (S n) l.
  Proof.
    revert n. induction l as [|x l IH]; intros [|n] H; simpl in *; try discriminate.
    - congruence.
    - now apply IH.
  Qed.

  Lemma steps_read k n s g s' : particle_steps nvel nmove (seq n k) s g s' ->
    n + k = length (particles s) ->
    length (particles s') = length (particles s) /\
    firstn n (particles s') = firstn n (particles s) /\
    Forall2 moves_to (skipn n (particles s)) (skipn n (particles s')) /\
    answers g = map place (skipn n (particles s')) /\
    evals g = map coordinates (skipn n (particles s')) /\ consulted g = [] /\
    (forall f i, protocol f i g = []).
  Proof.
    revert n s g. induction k as [|k IH]; intros n s g H Hl; inversion H; subst.
    - rewrite !skipn_all2 by lia. simpl. repeat split; auto.
    - match goal with h : particle_step _ _ _ _ _ _ |- _ => apply step_read in h;
        destruct h as [p [p' [v [E1 [E2 [Hm [El [Ef [Es [A1 [A2 [A3 A4]]]]]]]]]]]] end.
      match goal with h : particle_steps _ _ (seq _ _) _ _ _ |- _ => apply IH in h;
        [destruct h as [L1 [L2 [L3 [L4 [L5 [L6 L7]]]]]]|lia] end.
      assert (Ep' : nth_error (particles s') n = Some p').
      { rewrite <- (firstn_skipn (S n) (particles s')), L2, nth_error_app1.
        - rewrite (firstn_snoc _ _ _ E2), nth_error_app2; rewrite firstn_length, Nat.min_l by lia; auto.
          now rewrite Nat.sub_diag.
        - rewrite firstn_length. lia. }
      rewrite (skipn_cons _ _ _ E1), (skipn_cons _ _ _ Ep').
      split; [congruence|]. split.
      { rewrite <- Ef. apply (f_equal (firstn n)) in L2. rewrite !firstn_firstn in L2.
        rewrite !Nat.min_l in L2 by lia. exact L2. }
      split; [|split; [|split; [|split]]].
      + constructor; [exists v; auto|]. rewrite <- Es. exact L3.
      + rewrite answers_app, A1, L4. reflexivity.
      + rewrite evals_app, A2, L5. reflexivity.
      + rewrite consulted_app, A3, L6. reflexivity.
      + intros f i. now rewrite protocol_app, A4, L7.
  Qed.

  Lemma log_protocol k n i s : i < n ->
    protocol sw_iteration i (@log_events (list T) _ (pso_call T) k n s) = [PLog k (sw_iteration s)].
  Proof.
    intros Hi. rewrite (proj1 (@log_events_reading (list T) _ (pso_call T) sw_iteration i k n s)).
    destruct (Nat.ltb_spec i n); [reflexivity|lia].
  Qed.

  Lemma round_read s g s' : pso_round nvel nmove nlog s g s' ->
    Forall2 moves_to (particles s) (particles s') /\
    answers g = map place (particles s') /\ evals g = map coordinates (particles s') /\
    consulted g = [] /\ sw_iteration s' = sw_iteration s + 1 /\
    (forall i, i < nlog -> protocol sw_iteration i g = [PLog LNext (sw_iteration s + 1)]).
  Proof.
    intros H. destruct H. apply steps_read in round_steps; [|lia]. simpl in round_steps.
    destruct round_steps as [L1 [_ [L3 [L4 [L5 [L6 L7]]]]]].
    rewrite round_events, answers_app, evals_app, consulted_app, answers_log, evals_log, consulted_log.
    rewrite !app_nil_r, round_particles. repeat split; auto.
    intros i Hi. rewrite protocol_app, L7, log_protocol by auto. simpl. congruence.
  Qed.

  Lemma moves_to_length l l' : Forall2 moves_to l l' -> length l' = length l.
  Proof. induction 1; simpl; auto. Qed.

  Lemma rounds_read s t s' k : pso_rounds nvel nmove nlog s t s' k ->
    exists rest, consulted t = s :: rest /\ length rest = k /\ last (s :: rest) s = s' /\
      answers t = all_places rest /\ evals t = all_points rest /\
      (forall q, In q rest -> length (particles q) = length (particles s)) /\
      sw_iteration s' = sw_iteration s + k /\
      (forall i, i < nlog -> protocol sw_iteration i t = rounds (sw_iteration s) k).
  Proof.
    induction 1 as [s|s g s1 t s2 k Hr Hrs IH].
    - exists []. simpl. repeat split; auto. intros ? [].
    - destruct IH as [rest [C [L [La [A [E [N [I P]]]]]]]].
      apply round_read in Hr. destruct Hr as [Hm [A1 [E1 [C1 [I1 P1]]]]].
      exists (s1 :: rest). cbn [consulted answers evals protocol].
      rewrite consulted_app, answers_app, evals_app, C1, A1, E1, C, A, E.
      split; [reflexivity|]. split; [simpl; congruence|]. split.
      { rewrite <- La. destruct rest; simpl; auto.
        clear. generalize s0. induction rest; intros q; simpl; auto. }
      split; [reflexivity|]. split; [reflexivity|]. split.
      { intros q [<-|Hq]; [|rewrite N by auto]; now apply moves_to_length. }
      split; [rewrite I, I1; lia|].
      intros i Hi. rewrite protocol_app, P1, P by auto. rewrite I1. reflexivity.
  Qed.

  Lemma combine_places (coords : list (list T)) (vels : list (list T)) (ys : list f64) :
    length vels = length coords -> length ys = length coords ->
    let ps := map (fun xvy => let '(x, v, y) := xvy in Particle x v y x y x y)
                  (combine (combine coords vels) ys) in
    map place ps = combine coords ys /\ map coordinates ps = coords /\
    (forall p, In p ps -> remembers [place p] p).
  Proof.
    cbn zeta. revert vels ys. induction coords as [|c cs IH]; intros [|v vs] [|y ys] H1 H2;
      simpl in *; try discriminate.
    - repeat split; auto; contradiction.
    - destruct (IH vs ys) as [E1 [E2 E3]]; try lia. rewrite E1, E2. split; [reflexivity|].
      split; [reflexivity|]. intros p [<-|Hp]; auto. apply remembers_new.
  Qed.

  Lemma start_read g s : pso_start nmove g s ->
    answers g = map place (particles s) /\ evals g = map coordinates (particles s) /\
    consulted g = [] /\ (forall f i, protocol f i g = []) /\ sw_iteration s = 0 /\
    (forall p, In p (particles s) -> remembers [place p] p) /\
    exists xs t, g = ECall (PCoordinates xs) :: t /\ length (particles s) = length xs.
  Proof.
    intros H. destruct H.
    pose proof (chains_length _ _ _ _ start_moves) as Hl.
    assert (Hy : length ys = length coords') by lia. assert (Hv : length vels = length coords') by lia.
    destruct (@eval_events_read (list T) (swarm T) (pso_call T) coords' ys Hy) as [A [E C]].
    pose proof (quiet_read _ (chains_quiet _ _ _ _ start_moves)) as [A1 [E1 C1]].
    destruct (combine_places coords' vels ys Hv Hy) as [P1 [P2 P3]]. cbn zeta in *.
    rewrite <- start_particles in *.
    rewrite start_events. cbn [answers evals consulted app].
    rewrite answers_app, evals_app, consulted_app, A, E, C, A1, E1, C1, P1, P2.
    split; [reflexivity|]. split; [reflexivity|]. split; [reflexivity|].
    split; [|split; [auto|split; [auto|]]].
    - intros f i. cbn [protocol]. rewrite protocol_app.
      rewrite (proj1 (quiet_protocol f i _ (chains_quiet _ _ _ _ start_moves))).
      rewrite (proj1 (@eval_events_reading (list T) _ (pso_call T) f i coords' ys Hy)). reflexivity.
    - eexists _, _. split; [reflexivity|]. apply (f_equal (@length _)) in P2.
      rewrite map_length in P2. lia.
  Qed.

  (** Memories along the rounds. *)
  Lemma trail_app n (a b : list (swarm T)) : trail n (a ++ b) = trail n a ++ trail n b.
  Proof. apply flat_map_app. Qed.

  Lemma rounds_memory past s t s' k : pso_rounds nvel nmove nlog s t s' k ->
    (forall n p, nth_error (particles s) n = Some p -> remembers (trail n (past ++ [s])) p) ->
    forall t1 q b t2, t = t1 ++ EStop q b :: t2 ->
      forall n p, nth_error (particles q) n = Some p ->
        remembers (trail n (past ++ consulted t1 ++ [q])) p.
  Proof.
    intros H. revert past. induction H as [s|s g s1 t s2 k Hr Hrs IH]; intros past H0 t1 q b t2 E n p Hp.
    - destruct t1 as [|e t1]; simpl in E.
      + inversion E; subst. simpl. auto.
      + destruct t1; discriminate.
    - destruct t1 as [|e t1]; simpl in E; [inversion E; subst; simpl; auto|].
      inversion E; subst e. clear E.
      pose proof (round_read _ _ _ Hr) as [Hm [_ [_ [C1 _]]]].
      assert (Hns : forall q b, ~ In (EStop q b) g).
      { intros q0 b0 Hin. apply in_split in Hin. destruct Hin as [a1 [a2 ->]].
        rewrite consulted_app in C1. simpl in C1. destruct (consulted a1); discriminate. }
      assert (Hsplit : exists t1', t1 = g ++ t1' /\ t = t1' ++ EStop q b :: t2).
      { clear - H2 Hns. revert t1 H2. induction g as [|e g IH]; intros t1 H2; simpl in *.
        - exists t1. auto.
        - destruct t1 as [|e1 t1]; simpl in H2.
          + inversion H2; subst. exfalso. eapply Hns. left. reflexivity.
          + inversion H2; subst. destruct (IH (fun q b H => Hns q b (or_intror H)) t1) as [t1' [-> ->]]; auto.
            exists t1'. auto. }
      destruct Hsplit as [t1' [-> ->]].
      replace (past ++ consulted (EStop s false :: g ++ t1') ++ [q])
        with ((past ++ [s]) ++ consulted t1' ++ [q]).
      2:{ simpl. rewrite consulted_app, C1. simpl. now rewrite <- app_assoc. }
      eapply IH; [|reflexivity|exact Hp].
      intros m p1 Hp1. rewrite trail_app.
      assert (Hp0 : exists p0, nth_error (particles s) m = Some p0 /\ moves_to p0 p1).
      { clear - Hm Hp1. revert m Hp1. induction Hm as [|a a' l l' Ha Hl IH]; intros [|m] E; simpl in *;
          try discriminate; eauto. inversion E; subst. eauto. }
      destruct Hp0 as [p0 [E0 [v Hv]]].
      replace (trail m [s1]) with [place p1].
      + eapply remembers_moved; [apply H0; eauto|exact Hv].
      + unfold trail. simpl. rewrite Hp1. reflexivity.
  Qed.
End Shape.
