(** * Runs that end because the goal settles: proofs *)

From Coq Require Import List Arith ZArith Bool Lia Reals Lra Sorting.Sorted.
From Flocq Require Import Core IEEE754.BinarySingleNaN IEEE754.Binary.
From Verif Require Import Base Logic FloatModel GaModel PsoModel StopModel SpecGa SpecPso SpecRun SpecStop SpecSettle
  FloatFacts ArithFacts GaBest GaFacts GaSafety GaTheorems GaMore PsoFacts PsoRuns PsoProofs LoopFacts StopProofs StopRuns
  PostFacts IntFacts.
Import ListNotations.

(** ** What an interrupted or finished loop asked *)
Section Loop.
  Context {U G T S X : Type}.
  Notation ev := (event T S X).
  Variable view : S -> alg_state T.
  Variable step : S -> M U ev S.
  Variable ls : list (logger U T).
  Variable l : lens U G.
  Variable chk : alg_state T -> comp G bool.
  Variable stop : alg_state T -> comp U bool.
  Hypothesis Hno : no_later l chk stop.
  Hypothesis Hend : forall s, ends (stop s).
  Hypothesis Hstep : forall s, mkeeps (lget l) (step s).
  Hypothesis Hls : forall lg k s, In lg ls -> keeps (lget l) (lg_method k lg s).
  Hypothesis Hsend : forall s, mends (step s).
  Hypothesis Hlend : forall lg k s, In lg ls -> ends (lg_method k lg s).
  Notation num s := (as_iter (view s)).
  Hypothesis step_num : forall s u s' u' t, step s u = (Ret s', u', t) -> num s' = num s + 1.

  (** The questions answered with "go on" so far, and how it ended. *)
  Definition questions (fuel : nat) (s : S) (g : G) (o : outcome S) (sts : list (S * bool)) : Prop :=
    exists qs rest g', sts = map (fun q => (q, false)) qs ++ rest /\
      asked (map (fun q => chk (view q)) qs) g (repeat false (length qs)) g' /\
      map (fun q => num q) qs = seq (num s) (length qs) /\
      (o = NoFuel /\ rest = [] /\ length qs = fuel \/
       exists s', o = Ret s' /\ rest = [(s', true)] /\ num s' = num s + length qs).

  Lemma gloop_questions fuel s u o u' t :
    gloop view step stop fuel s u = (o, u', t) -> o <> Panic -> questions fuel s (lget l u) o (stops t).
  Proof.
    revert s u t. induction fuel as [|fuel IH]; intros s u t H Hp; simpl in H.
    - unfold nofuel in H. inversion H; subst. exists [], [], (lget l u'). split; [reflexivity|].
      split; [constructor|]. split; auto.
    - unfold call_stop, mbind, call, emit in H. specialize (Hend (view s) u).
      destruct (stop (view s) u) as [[b| |] u1] eqn:Es; simpl in Hend; try congruence.
      destruct b.
      + unfold mret in H. inversion H; subst. exists [], [(s, true)], (lget l u).
        split; [reflexivity|]. split; [constructor|]. split; auto. right. exists s. simpl. auto.
      + apply Hno in Es. cbn [mret app] in H. specialize (Hsend s u1).
        pose proof (Hstep s u1) as [Hk Hs].
        destruct (step s u1) as [[[s1| |] u2] t2] eqn:Et; simpl in Hsend; try congruence.
        simpl in Hk, Hs. pose proof (step_num _ _ _ _ _ Et) as Hn.
        destruct (gloop view step stop fuel s1 u2) as [[o3 u3] t3] eqn:Eg. simpl in H. inversion H; subst; clear H.
        destruct (IH _ _ _ Eg Hp) as [qs [rest [g' [E [A [N K]]]]]].
        exists (s :: qs), rest, g'. cbn [stops map app length repeat seq].
        rewrite stops_app, Hs, E. split; [reflexivity|]. split.
        { econstructor; [exact Es|]. rewrite <- Hk. exact A. }
        split; [rewrite N, Hn, Nat.add_1_r; reflexivity|].
        destruct K as [[K1 [K2 K3]]|[s' [K1 [K2 K3]]]].
        * left. repeat split; auto.
        * right. exists s'. repeat split; auto. rewrite K3, Hn. lia.
  Qed.

  Lemma loggers_kept k s u o u' t : call_loggers view k ls s u = (o, u', t) -> 
    o <> NoFuel /\ lget l u' = lget l u /\ @stops T S X t = [].
  Proof.
    intros H. pose proof (loggers_end (X := X) view k ls s Hlend u) as E.
    pose proof (mkeeps_loggers (X := X) (lget l) view k ls s Hls u) as [A B]. rewrite H in *. simpl in *. auto.
  Qed.

  Lemma gnext_questions fuel s u o u' t :
    gnext view step ls stop fuel s u = (o, u', t) -> o <> Panic ->
    exists o1, questions fuel s (lget l u) o1 (stops t) /\
      (o = NoFuel <-> o1 = NoFuel) /\ (forall r s', o = Ret (r, s') -> o1 = Ret s').
  Proof.
    unfold gnext. intros H Hp. unfold mbind at 1 in H.
    destruct (call_loggers view LResume ls s u) as [[[[]| |] u1] t1] eqn:E1;
      destruct (loggers_kept _ _ _ _ _ _ E1) as [N1 [K1 S1]]; try congruence.
    unfold mbind at 1 in H.
    destruct (gloop view step stop fuel s u1) as [[o2 u2] t2] eqn:E2.
    assert (P2 : o2 <> Panic) by (intros ->; inversion H; subst; congruence).
    pose proof (gloop_questions _ _ _ _ _ _ E2 P2) as Q. rewrite K1 in Q.
    destruct o2 as [s2| |]; try congruence.
    - unfold mbind at 1 in H.
      destruct (call_loggers view LFinish ls s2 u2) as [[[[]| |] u3] t3] eqn:E3;
        destruct (loggers_kept _ _ _ _ _ _ E3) as [N3 [K3 S3]]; try congruence.
      cbn in H. inversion H; subst. exists (Ret s2). rewrite !stops_app, S1, S3. simpl. rewrite app_nil_r.
      split; [exact Q|]. split; [split; discriminate|]. intros r s' E. now inversion E.
    - inversion H; subst. exists NoFuel. rewrite stops_app, S1. simpl.
      split; [exact Q|]. split; [tauto|]. discriminate.
  Qed.
  Lemma gfind_questions init fuel u o u' t : mkeeps (lget l) init -> mends init ->
    gfind view step ls init stop fuel u = (o, u', t) -> o <> Panic ->
    exists s0 u0 t0 t1 o1, init u = (Ret s0, u0, t0) /\ stops t0 = [] /\ t = t0 ++ t1 /\
      questions fuel s0 (lget l u) o1 (stops t) /\
      (o = NoFuel <-> o1 = NoFuel) /\ (forall r s', o = Ret (r, s') -> o1 = Ret s').
  Proof.
    intros Hk Hm H Hp. unfold gfind, mbind at 1 in H. specialize (Hk u). specialize (Hm u).
    destruct (init u) as [[[s0| |] u0] t0] eqn:E0; simpl in Hm, Hk; try congruence.
    destruct Hk as [K0 S0]. unfold mbind at 1 in H.
    destruct (call_loggers view LStart ls s0 u0) as [[[[]| |] u1] t1] eqn:E1;
      destruct (loggers_kept _ _ _ _ _ _ E1) as [N1 [K1 S1]]; try congruence.
    destruct (gnext view step ls stop fuel s0 u1) as [[o2 u2] t2] eqn:E2. inversion H; subst.
    destruct (gnext_questions _ _ _ _ _ _ E2 Hp) as [o1 [Q R]].
    exists s0, u0, t0, (t1 ++ t2), o1. repeat split; auto; try apply R.
    rewrite !stops_app, S0, S1. simpl. rewrite <- K0, <- K1. exact Q.
  Qed.
End Loop.

(** The events at which the checker was asked. *)
Lemma stops_split {T S X} (t : list (event T S X)) a q b c : stops t = a ++ (q, b) :: c ->
  exists t1 t2, t = t1 ++ EStop q b :: t2 /\ stops t1 = a /\ stops t2 = c.
Proof.
  revert a. induction t as [|e t IH]; intros a H; [destruct a; discriminate|].
  assert (K : forall a', stops t = a' ++ (q, b) :: c -> stops [e] ++ a' = a ->
    exists t1 t2, e :: t = t1 ++ EStop q b :: t2 /\ stops t1 = a /\ stops t2 = c).
  { intros a' E <-. destruct (IH a' E) as [t1 [t2 [-> [<- <-]]]]. exists (e :: t1), t2.
    split; [reflexivity|]. split; auto. destruct e; reflexivity. }
  destruct e; simpl in H; try (apply (K a H); reflexivity).
  destruct a as [|x a].
  - inversion H; subst. exists [], t. auto.
  - inversion H; subst. apply (K a); auto.
Qed.

(** ** GoalNotChange does not go on for long *)
Section Quiet.
  Context {T : Type}.
  Variable np64 : nan_policy 53 1024.
  Variables (dbg : bool) (m n : nat) (lo hi delta : f64).
  Hypothesis Hsteps : steps_between lo hi delta n.
  Notation far := (differ np64 delta).
  Notation B2R := (Binary.B2R 53 1024).

  Lemma far_apart v r : is_finite v = true -> is_finite r = true -> far v r = true ->
    (B2R delta < Rabs (B2R v - B2R r))%R.
  Proof.
    intros Hv Hr F. destruct Hsteps as [_ [_ [Hd _]]]. unfold differ in F.
    apply Rnot_le_lt. intros C.
    assert (R1 : (Rabs (Generic_fmt.round radix2 (SpecFloat.fexp 53 1024) (round_mode mode_NE) (B2R v - B2R r)) <= B2R delta)%R).
    { apply abs_round_le_generic; auto.
      - apply FLT_exp_valid. reflexivity.
      - apply valid_rnd_round_mode.
      - apply format_B2R. }
    destruct (sub_correct np64 v r Hv Hr) as [Fs Es].
    { eapply Rle_lt_trans; [exact R1|]. eapply Rle_lt_trans; [apply Rle_abs|apply B2R_bound]. }
    apply ltb_key in F. destruct F as [_ [_ F]].
    rewrite key_abs, !key_finite in F by auto. rewrite Es in F. lra.
  Qed.

  Notation val s := (match as_best s with Some (_, v) => v | None => lo end).
  Definition valued (s : alg_state T) : Prop :=
    exists x v, as_best s = Some (x, v) /\ leb lo v = true /\ leb v hi = true.
  Lemma leb_R x y : is_finite x = true -> is_finite y = true -> leb x y = true -> (B2R x <= B2R y)%R.
  Proof. intros Hx Hy H. apply leb_key in H. rewrite !key_finite in H by auto. tauto. Qed.
  Lemma inside_finite v : leb lo v = true -> leb v hi = true ->
    is_finite v = true /\ (B2R lo <= B2R v <= B2R hi)%R.
  Proof.
    intros H1 H2. destruct Hsteps as [Hl [Hh _]].
    assert (F : is_finite v = true) by (apply (IntFacts.between_finite lo hi); assumption).
    split; auto. split; apply leb_R; auto.
  Qed.

  (** [k]: how many more times the reference can be replaced. *)
  Definition room (k : nat) (g : gnc) (ss : list (alg_state T)) : Prop :=
    n + 1 <= k \/
    is_finite (old_goal g) = true /\ (B2R (old_goal g) - B2R lo <= INR k * B2R delta)%R /\
    Forall (fun s => leb (val s) (old_goal g) = true) ss.

  Lemma quiet_bound ss : forall k i g g',
    map as_iter ss = seq i (length ss) -> change_iter g <= i -> Forall valued ss ->
    StronglySorted (fun s1 s2 => leb (val s2) (val s1) = true) ss ->
    room k g ss ->
    asked (map (goal_not_change np64 dbg m delta) ss) g (repeat false (length ss)) g' ->
    length ss <= k * (m + 1) + (m + 1 - (i - change_iter g)).
  Proof.
    induction ss as [|s ss IH]; intros k i g g' Hn Hc Hv Hs Hr Ha; [simpl; lia|].
    cbn [length] in *. cbn [map repeat seq] in Hn, Ha.
    injection Hn as Hi Hn. inversion Hv as [|? ? Hv1 Hv2]; subst x l. inversion Hs as [|? ? Hs1 Hs2]; subst a l.
    inversion Ha as [|q qs u b u1 bs u2 Hq Ha2]; subst q qs u b bs u2.
    destruct Hv1 as [x [v [Eb [L1 L2]]]]. destruct (inside_finite v L1 L2) as [Fv [B1 B2]].
    unfold goal_not_change in Hq. rewrite Eb in Hq.
    fold (far v (old_goal g)) in Hq. pose proof (far_apart v (old_goal g) Fv) as Hfar.
    assert (Dpos : (0 < B2R delta)%R).
    { destruct Hsteps as [_ [_ [Hd [Hd2 _]]]]. apply ltb_key in Hd2. destruct Hd2 as [_ [_ Hd2]].
      rewrite (key_finite delta Hd) in Hd2. destruct (of_Z_exact (prec := 53) (emax := 1024) 0) as [Z1 Z2]; [cbv; discriminate|].
      rewrite (key_finite _ Z1), Z2 in Hd2. exact Hd2. }
    destruct Hsteps as [Hlo [Hhi [Hd [_ Hw]]]].
    destruct (far v (old_goal g)) eqn:Ef.
    - (* the reference is replaced *)
      cbn [change_iter] in Hq. inversion Hq as [[Hk Hg]]; subst u1.
      assert (K : exists k', k = Datatypes.S k' /\ (B2R v - B2R lo <= INR k' * B2R delta)%R).
      { destruct Hr as [Hr|[Hr1 [Hr2 Hr3]]].
        - exists (k - 1). split; [lia|]. eapply Rle_trans with (INR n * B2R delta)%R; [lra|].
          apply Rmult_le_compat_r; [lra|]. apply le_INR. lia.
        - specialize (Hfar Hr1 eq_refl). inversion Hr3 as [|? ? Hle _]; subst. rewrite Eb in Hle.
          apply leb_R in Hle; auto. rewrite Rabs_left1 in Hfar by lra.
          destruct k as [|k']; [simpl in Hr2; lra|]. exists k'. split; auto. rewrite S_INR in Hr2. lra. }
      destruct K as [k' [-> K]]. rewrite Hi in Ha2.
      apply (IH k' (Datatypes.S i) (Gnc v i)) in Ha2; auto; cbn [change_iter old_goal] in *.
      + replace (Datatypes.S i - i) with 1 in Ha2 by lia. nia.
      + right. cbn [old_goal]. split; auto. split; auto.
        eapply Forall_impl; [|exact Hs2]. intros s2 E2. cbn beta in E2. now rewrite Eb in E2.
    - inversion Hq as [[Hk Hg]]; subst u1.
      assert (Hm : i - change_iter g <= m).
      { rewrite Hi in Hk. unfold usize_sub in Hk. replace (Z.of_nat (change_iter g) <=? Z.of_nat i)%Z with true in Hk
          by (symmetry; apply Z.leb_le; lia). cbn in Hk. inversion Hk as [Hk']. apply Z.ltb_ge in Hk'. lia. }
      apply (IH k (Datatypes.S i) g) in Ha2; auto.
      + lia.
      + destruct Hr as [Hr|[Hr1 [Hr2 Hr3]]]; [left; auto|right]. split; auto. split; auto. now inversion Hr3.
  Qed.
End Quiet.

(** ** The particle swarm *)
Lemma app_prefix {A} (P : A -> Prop) (a b c d : list A) (x : A) :
  a ++ b = c ++ x :: d -> (forall y, In y a -> P y) -> ~ P x -> exists c', c = a ++ c'.
Proof.
  revert c. induction a as [|y a IH]; intros c E Ha Hx; [exists c; reflexivity|].
  destruct c as [|z c]; simpl in E; injection E as -> E.
  - exfalso. apply Hx, Ha. now left.
  - destruct (IH c E) as [c' ->]; auto. { intros w Hw. apply Ha. now right. } now exists c'.
Qed.
Lemma strongly_sorted_split {A} (R : A -> A -> Prop) (l : list A) :
  (forall a x b y c, l = a ++ x :: b ++ y :: c -> R x y) -> StronglySorted R l.
Proof.
  induction l as [|x l IH]; intros H; constructor.
  - apply IH. intros a y b z c ->. apply (H (x :: a) y b z c). reflexivity.
  - apply Forall_forall. intros y Hy. apply in_split in Hy. destruct Hy as [b [c ->]].
    apply (H [] x b y c). reflexivity.
Qed.

Section PsoSettles.
  Variable np64 : nan_policy 53 1024.
  Variables (dbg : bool) (m n : nat) (lo hi delta : f64).
  Hypothesis Hsteps : steps_between lo hi delta n.
  Context {U T : Type} {FT : FloatTrait T}.
  Variable l : lens U gnc.
  Implicit Types (cfg : pso_config U T) (s : swarm T).
  Notation ev := (pso_event T).
  Notation gnc_stop := (goal_not_change np64 dbg m delta).

  (** The swarms seen by a checker that was asked in vain: how many can there be? *)
  Lemma pso_seen_bound (h t : list ev) qs rest g g' i :
    reports_extremes (h ++ t) -> never_worse (h ++ t) -> values_between lo hi (h ++ t) ->
    (forall t1 q b t2, t = t1 ++ EStop q b :: t2 -> answers (h ++ t1) <> []) ->
    stops t = map (fun q => (q, false)) qs ++ rest ->
    map (fun q => as_iter (swarm_view q)) qs = seq i (length qs) -> change_iter g <= i ->
    asked (map (fun q => gnc_stop (swarm_view q)) qs) g (repeat false (length qs)) g' ->
    length qs <= (n + 2) * (m + 1).
  Proof.
    intros Hx Hw Hv Ha Es Hn Hc Hq.
    assert (K : forall a q b, qs = a ++ q :: b ->
      exists t1 t2, t = t1 ++ EStop q false :: t2 /\ stops t1 = map (fun q => (q, false)) a /\
        exists p, best_particle q = Some p /\ leb lo (value p) = true /\ leb (value p) hi = true).
    { intros a q b ->. rewrite map_app in Es. cbn [map] in Es. rewrite <- app_assoc in Es.
      apply stops_split in Es. destruct Es as [t1 [t2 [-> [E1 _]]]]. exists t1, t2.
      split; auto. split; auto.
      specialize (Ha t1 q false t2 eq_refl). specialize (Hx (h ++ t1) (EStop q false) t2 q).
      rewrite <- app_assoc in Hx. specialize (Hx eq_refl (or_introl (ex_intro _ false (or_introl eq_refl)))).
      unfold extremes_of in Hx. destruct (answers (h ++ t1)) as [|z zs] eqn:Ez; [congruence|].
      destruct Hx as [[p [Ep [k [Hk _]]]] _]. exists p. split; auto.
      apply nth_error_In in Hk. rewrite <- Ez in Hk. apply (Hv (coordinates p)).
      apply answers_evaluated. rewrite app_assoc, answers_app. apply in_or_app. left. exact Hk. }
    rewrite <- (map_map swarm_view gnc_stop) in Hq. rewrite <- (map_map swarm_view as_iter) in Hn.
    rewrite <- (map_length swarm_view) in *.
    eapply Nat.le_trans; [apply (quiet_bound np64 dbg m n lo hi delta Hsteps _ (n + 1) i g g'); auto|].
    - apply Forall_forall. intros a Hin. apply in_map_iff in Hin. destruct Hin as [q [<- Hin]].
      apply in_split in Hin. destruct Hin as [b [c ->]]. destruct (K b q c eq_refl) as [t1 [t2 [_ [_ [p [Ep Hp]]]]]].
      exists (coordinates p), (value p). split; auto. unfold swarm_view. cbn [as_best]. now rewrite Ep.
    - apply strongly_sorted_split. intros a x b y c E.
      apply map_eq_app in E. destruct E as [qa [q1 [E1 [Ea E]]]].
      destruct q1 as [|x' q1]; [discriminate|]. injection E as Ex E. symmetry in E.
      apply map_eq_app in E || (symmetry in E; apply map_eq_app in E). destruct E as [qb [q2 [E2 [Eb E]]]].
      destruct q2 as [|y' q2]; [discriminate|]. injection E as Ey Ec. subst x y.
      assert (Eq : qs = qa ++ x' :: qb ++ y' :: q2) by (now rewrite E1, E2).
      destruct (K qa x' (qb ++ y' :: q2) Eq) as [_ [_ [_ [_ [p1 [P1 [H1 H1']]]]]]].
      destruct (K (qa ++ x' :: qb) y' q2) as [_ [_ [_ [_ [p2 [P2 [H2 H2']]]]]]].
      { now rewrite Eq, <- app_assoc. }
      assert (Hnw : no_worse x' y').
      { rewrite Eq in Es. rewrite map_app in Es. cbn [map] in Es. rewrite <- app_assoc in Es.
        cbn [app] in Es. rewrite map_app in Es. cbn [map] in Es.
        apply stops_split in Es. destruct Es as [t1 [t2 [-> [_ Es]]]].
        rewrite <- app_assoc in Es. apply stops_split in Es. destruct Es as [t3 [t4 [-> _]]].
        apply (Hw (h ++ t1) (EStop x' false) t3 (EStop y' false) t4); auto. now rewrite <- app_assoc. }
      destruct Hnw as [Hnw _]. destruct (Hnw p1 P1) as [p2' [P2' Hle]].
      rewrite P2 in P2'. injection P2' as <-. unfold swarm_view. cbn [as_best]. rewrite P1, P2. cbn [option_map].
      destruct (inside_finite n lo hi delta Hsteps (value p1) H1 H1') as [F1 _].
      destruct Hle as [Hle|[_ Hle]]; [congruence|exact Hle].
    - left. lia.
    - nia.
  Qed.

  Section Runs.
    Variable cfg : pso_config U T.
    Hypothesis Hk : pso_keeps (lget l) cfg.
    Hypothesis He : pso_ends cfg.
    Hypothesis Hse : forall a, ends (pso_stop cfg a).
    Hypothesis Hno : no_later l gnc_stop (pso_stop cfg).

    Lemma pso_loggers_keep lg k a : In lg (pso_loggers cfg) -> keeps (lget l) (lg_method k lg a).
    Proof. intros Hin. destruct Hk as [_ [_ [_ [_ [_ [_ H]]]]]]. apply (H lg k a Hin). Qed.
    Lemma pso_loggers_end lg k a : In lg (pso_loggers cfg) -> ends (lg_method k lg a).
    Proof. intros Hin. destruct He as [_ [_ [_ [_ [_ [_ H]]]]]]. apply (H lg k a Hin). Qed.

    Lemma pso_settles_next (ok : pso_config U T -> Prop) fuel s h u o u' t : pso_reach ok s h ->
      (exists x v, evaluated h x v) -> change_iter (lget l u) <= sw_iteration s ->
      pso_next_iterations cfg fuel s u = (o, u', t) -> values_between lo hi (h ++ t) ->
      ((n + 2) * (m + 1) < fuel -> o <> NoFuel) /\
      (forall r s', o = Ret (r, s') -> sw_iteration s' <= sw_iteration s + (n + 2) * (m + 1)).
    Proof.
      intros Hr [x [v Hx]] Hc H Hv.
      destruct (pso_run_next ok cfg fuel s h u o u' t Hr H) as [[_ [H1 H2]] _].
      rewrite pso_next_gnext in H.
      assert (D : o = Panic \/ o <> Panic) by (destruct o; [right|left|right]; congruence).
      destruct D as [->|Hp]; [split; [congruence|intros; congruence]|].
      apply (gnext_questions swarm_view (pso_iteration cfg) (pso_loggers cfg) l gnc_stop (pso_stop cfg) Hno Hse
        (fun s => pso_keep_step _ cfg s Hk) pso_loggers_keep (fun s => pso_end_step cfg s He) pso_loggers_end
        (pso_step_num cfg)) in H; auto.
      destruct H as [o1 [[qs [rest [g' [Es [A [N K]]]]]] [R1 R2]]].
      assert (L : length qs <= (n + 2) * (m + 1)).
      { apply (pso_seen_bound h t qs rest (lget l u) g' (sw_iteration s)); auto.
        intros t1 q b t2 _ E. rewrite answers_app in E. apply answers_evaluated in Hx.
        destruct (answers h); [destruct Hx|discriminate]. }
      split.
      - intros Hf E. apply R1 in E. destruct K as [[_ [_ K]]|[s' [K _]]]; [lia|congruence].
      - intros r s' E. specialize (R2 r s' E). destruct K as [[K _]|[s2 [K [_ K2]]]]; [congruence|].
        rewrite K in R2. injection R2 as ->. cbn [swarm_view as_iter] in K2. lia.
    Qed.

    Lemma pso_settles_find fuel s u o u' t : change_iter (lget l u) = 0 ->
      (forall w coords w', pso_coordinates cfg w = (Ret coords, w') -> coords <> []) ->
      pso_find_min cfg fuel s u = (o, u', t) -> values_between lo hi t ->
      ((n + 2) * (m + 1) < fuel -> o <> NoFuel) /\
      (forall r s', o = Ret (r, s') -> sw_iteration s' <= (n + 2) * (m + 1)).
    Proof.
      intros Hc Hne H Hv.
      destruct (pso_run_find cfg fuel s u o u' t H) as [[_ [H1 H2]] _].
      pose proof (pso_find_genuine cfg fuel s u o u' t H) as Hg.
      rewrite pso_find_gfind in H.
      assert (D : o = Panic \/ o <> Panic) by (destruct o; [right|left|right]; congruence).
      destruct D as [->|Hp]; [split; [congruence|intros; congruence]|].
      apply (gfind_questions swarm_view (pso_iteration cfg) (pso_loggers cfg) l gnc_stop (pso_stop cfg) Hno Hse
        (fun s => pso_keep_step _ cfg s Hk) pso_loggers_keep (fun s => pso_end_step cfg s He) pso_loggers_end
        (pso_step_num cfg)) in H; auto; [|now apply pso_keep_init|now apply pso_end_init].
      destruct H as [s0 [u0 [t0 [t1 [o1 [E0 [S0 [Et [[qs [rest [g' [Es [A [N K]]]]]] [R1 R2]]]]]]]]]].
      pose proof (pso_init_zero _ _ _ _ _ _ E0) as Z0.
      assert (Ans : answers t0 <> []).
      { pose proof (renew_swarm_ret cfg s u s0 u0 t0 E0) as St. destruct St.
        assert (Hin : In (ECall (PCoordinates coords)) t) by (rewrite Et, start_events; now left).
        rewrite Forall_forall in Hg. destruct (Hg _ Hin) as [w [w' Hw]]. apply Hne in Hw.
        rewrite start_events, !answers_app.
        destruct (eval_events_read (S := swarm T) (X := pso_call T) coords' ys) as [Ea _].
        { rewrite (chains_length _ _ _ _ start_moves). exact start_values. }
        rewrite Ea. intros F. apply app_eq_nil in F. destruct F as [_ F]. apply app_eq_nil in F. destruct F as [_ F].
        apply (f_equal (@length _)) in F. rewrite combine_length, (chains_length _ _ _ _ start_moves), start_values in F.
        destruct coords; [congruence|]. simpl in F. lia. }
      assert (L : length qs <= (n + 2) * (m + 1)).
      { apply (pso_seen_bound [] t qs rest (lget l u) g' (as_iter (swarm_view s0))); auto.
        - intros t2 q b t3 E. rewrite Et in E.
          destruct (app_prefix (fun e => forall q b, e <> EStop q b) t0 t1 t2 t3 (EStop q b)) as [c' ->]; auto.
          + intros y Hy q' b' ->. apply in_split in Hy. destruct Hy as [a [c ->]].
            rewrite stops_app in S0. simpl in S0. destruct (stops a); discriminate.
          + intros F. now apply (F q b).
          + simpl. rewrite answers_app. destruct (answers t0); [congruence|discriminate].
        - rewrite Hc. lia. }
      split.
      - intros Hf E. apply R1 in E. destruct K as [[_ [_ K]]|[s' [K _]]]; [lia|congruence].
      - intros r s' E. specialize (R2 r s' E). destruct K as [[K _]|[s2 [K [_ K2]]]]; [congruence|].
        rewrite K in R2. injection R2 as ->. cbn [swarm_view as_iter] in K2. lia.
    Qed.
  End Runs.
End PsoSettles.

(** ** The genetic algorithm *)
Section GaSettles.
  Variable np64 : nan_policy 53 1024.
  Variables (dbg : bool) (m n : nat) (lo hi delta : f64).
  Hypothesis Hsteps : steps_between lo hi delta n.
  Context {U T : Type}.
  Variable l : lens U gnc.
  Variable cfg : ga_config U T.
  Notation ev := (ga_event T).
  Notation gnc_stop := (goal_not_change np64 dbg m delta).
  Hypothesis legal : Forall selection_copies (ga_selections cfg).
  Hypothesis best : Forall keeps_best (ga_selections cfg).
  Hypothesis Hk : ga_keeps (lget l) cfg.
  Hypothesis He : ga_ends cfg.
  Hypothesis Hse : forall a, ends (ga_stop cfg a).
  Hypothesis Hno : no_later l gnc_stop (ga_stop cfg).

  Lemma ga_loggers_keep lg k a : In lg (ga_loggers cfg) -> keeps (lget l) (lg_method k lg a).
  Proof. intros Hin. destruct Hk as [_ [_ [_ [_ [_ [_ [_ H]]]]]]]. apply (H lg k a Hin). Qed.
  Lemma ga_loggers_end lg k a : In lg (ga_loggers cfg) -> ends (lg_method k lg a).
  Proof. intros Hin. destruct He as [_ [_ [_ [_ [_ [_ [_ H]]]]]]]. apply (H lg k a Hin). Qed.

  Lemma ga_seen_bound (t : list ev) qs rest g g' :
    best_so_far t -> observations_valued t -> values_between lo hi t ->
    (forall t1 q b t2, t = t1 ++ EStop q b :: t2 -> exists x v, evaluated t1 x v) ->
    stops t = map (fun q => (q, false)) qs ++ rest ->
    map (fun q => as_iter (pop_view q)) qs = seq 0 (length qs) -> change_iter g = 0 ->
    asked (map (fun q => gnc_stop (pop_view q)) qs) g (repeat false (length qs)) g' ->
    length qs <= 1 + (n + 2) * (m + 1).
  Proof.
    intros HB HO Hv Ha Es Hn Hc Hq.
    assert (K : forall a q b, qs = a ++ q :: b -> iteration q > 0 ->
      exists t1 t2, t = t1 ++ EStop q false :: t2 /\ stops t1 = map (fun q => (q, false)) a /\
        exists p, best_individual q = Some p /\ leb lo (fitness p) = true /\ leb (fitness p) hi = true).
    { intros a q b -> Hi. rewrite map_app in Es. cbn [map] in Es. rewrite <- app_assoc in Es.
      apply stops_split in Es. destruct Es as [t1 [t2 [-> [E1 _]]]]. exists t1, t2.
      split; auto. split; auto. destruct (Ha t1 q false t2 eq_refl) as [x [v Hx]].
      destruct (Hv x v) as [V1 V2]; [apply in_or_app; now left|].
      destruct (inside_finite n lo hi delta Hsteps v V1 V2) as [Fv _].
      destruct (HB t1 (EStop q false) t2 q eq_refl (or_introl (ex_intro _ false (or_introl eq_refl))) Hi x v Hx Fv) as [b0 [Eb _]].
      exists b0. split; auto. destruct (HO t1 (EStop q false) t2 q eq_refl eq_refl) as [_ [Hb _]].
      specialize (Hb _ Eb). apply (Hv (chromosomes b0)). apply in_or_app. left. exact Hb. }
    destruct qs as [|q0 qs]; [simpl; lia|].
    cbn [length map seq repeat] in *. injection Hn as H0 Hn.
    change (map (fun q => as_iter (pop_view q)) qs = seq 1 (length qs)) in Hn.
    inversion Hq as [|x1 x2 x3 x4 g1 x5 x6 Hq0 Hq1]; subst x1 x2 x3 x4 x5 x6.
    assert (C1 : change_iter g1 <= 1).
    { unfold goal_not_change in Hq0. destruct (as_best (pop_view q0)) as [[x v]|].
      - cbv zeta in Hq0. apply (f_equal snd) in Hq0. simpl in Hq0. rewrite <- Hq0.
        destruct (ltb _ _); simpl; lia.
      - apply (f_equal snd) in Hq0. simpl in Hq0. rewrite <- Hq0. lia. }
    assert (I : forall a q b, qs = a ++ q :: b -> iteration q > 0).
    { intros a q b E. assert (Hin : In (as_iter (pop_view q)) (seq 1 (length qs))).
      { rewrite <- Hn. apply in_map_iff. exists q. split; auto. rewrite E. apply in_elt. }
      apply in_seq in Hin. cbn [pop_view as_iter] in Hin. lia. }
    apply le_n_S.
    rewrite <- (map_map pop_view gnc_stop) in Hq1. rewrite <- (map_map pop_view as_iter) in Hn.
    rewrite <- (map_length pop_view) in *.
    eapply Nat.le_trans; [apply (quiet_bound np64 dbg m n lo hi delta Hsteps _ (n + 1) 1 g1 g'); auto|].
    - apply Forall_forall. intros a Hin. apply in_map_iff in Hin. destruct Hin as [q [<- Hin]].
      apply in_split in Hin. destruct Hin as [b [c E]].
      destruct (K (q0 :: b) q c) as [t1 [t2 [_ [_ [p [Ep Hp]]]]]]; [now rewrite E|eapply I; eauto|].
      exists (chromosomes p), (fitness p). split; auto. unfold pop_view. cbn [as_best]. now rewrite Ep.
    - apply strongly_sorted_split. intros a x b y c E.
      apply map_eq_app in E. destruct E as [qa [q1 [E1 [Ea E]]]].
      destruct q1 as [|x' q1]; [discriminate|]. injection E as Ex E. 
      apply map_eq_app in E. destruct E as [qb [q2 [E2 [Eb E]]]].
      destruct q2 as [|y' q2]; [discriminate|]. injection E as Ey Ec. subst x y.
      assert (Eq : qs = qa ++ x' :: qb ++ y' :: q2) by (now rewrite E1, E2).
      assert (Ix : iteration x' > 0) by (eapply I; eauto).
      assert (Iy : iteration y' > 0) by (apply (I (qa ++ x' :: qb) y' q2); now rewrite Eq, <- app_assoc).
      destruct (K (q0 :: qa) x' (qb ++ y' :: q2)) as [_ [_ [_ [_ [p1 [P1 [H1 H1']]]]]]]; auto.
      { now rewrite Eq. }
      destruct (K ((q0 :: qa) ++ x' :: qb) y' q2) as [_ [_ [_ [_ [p2 [P2 [H2 H2']]]]]]]; auto.
      { now rewrite Eq, <- app_assoc. }
      assert (Hnw : leb (fitness p2) (fitness p1) = true).
      { assert (Es2 : stops t = ((q0, false) :: map (fun q => (q, false)) qa) ++ (x', false) ::
          map (fun q => (q, false)) qb ++ (y', false) :: map (fun q => (q, false)) q2 ++ rest).
        { rewrite Es, Eq. cbn [map app]. rewrite !map_app. cbn [map app]. rewrite map_app. cbn [map app].
          rewrite <- !app_assoc. cbn [app]. rewrite <- !app_assoc. reflexivity. }
        apply stops_split in Es2. destruct Es2 as [t1 [t2 [-> [_ Es2]]]].
        apply stops_split in Es2. destruct Es2 as [t3 [t4 [-> _]]].
        destruct (HO t1 (EStop x' false) (t3 ++ EStop y' false :: t4) x' eq_refl eq_refl) as [_ [Hb _]].
        specialize (Hb _ P1). destruct (inside_finite n lo hi delta Hsteps _ H1 H1') as [F1 _].
        destruct (HB (t1 ++ EStop x' false :: t3) (EStop y' false) t4 y') with (x := chromosomes p1) (v := fitness p1)
          as [b2 [E2' L2]]; auto.
        - now rewrite <- app_assoc.
        - left. exists false. now left.
        - apply in_or_app. left. exact Hb.
        - rewrite P2 in E2'. injection E2' as <-. exact L2. }
      unfold pop_view. cbn [as_best]. rewrite P1, P2. exact Hnw.
    - left. lia.
    - nia.
  Qed.

  Lemma ga_settles_find fuel p u o u' t : change_iter (lget l u) = 0 ->
    (forall w xs w', ga_creator cfg w = (Ret xs, w') -> xs <> []) ->
    ga_find_min cfg fuel p u = (o, u', t) -> values_between lo hi t ->
    (1 + (n + 2) * (m + 1) < fuel -> o <> NoFuel) /\
    (forall r p', o = Ret (r, p') -> iteration p' <= 1 + (n + 2) * (m + 1)).
  Proof.
    intros Hc Hne H Hv.
    pose proof (bsf_find cfg fuel p best [] u eq_refl) as G. rewrite H in G.
    pose proof (ok_find cfg legal fuel p [] u eq_refl) as G'. rewrite H in G'.
    assert (HB : best_so_far t) by (destruct o; [destruct G as [[G _] _]| |]; exact G).
    assert (HO : observations_valued t) by (destruct o; [destruct G' as [[G' _] _]| |]; apply G').
    clear G G'. rewrite ga_find_gfind in H.
    assert (D : o = Panic \/ o <> Panic) by (destruct o; [right|left|right]; congruence).
    destruct D as [->|Hp]; [split; [congruence|intros; congruence]|].
    apply (gfind_questions pop_view (ga_iteration cfg) (ga_loggers cfg) l gnc_stop (ga_stop cfg) Hno Hse
      (fun s => ga_keep_step _ cfg s Hk) ga_loggers_keep (fun s => ga_end_step cfg s He) ga_loggers_end
      (ga_step_num cfg)) in H; auto.
    2: now apply ga_keep_init.
    2: { unfold ga_init. destruct He as [_ [Hcr _]]. apply mends_bind; [now apply comp_end|].
         intros xs. now apply ga_end_append. }
    destruct H as [s0 [u0 [t0 [t1 [o1 [E0 [S0 [Et [[qs [rest [g' [Es [A [N K]]]]]] [R1 R2]]]]]]]]]].
    pose proof (ga_init_zero _ _ _ _ _ _ E0) as Z0.
    assert (Ans : exists x v, evaluated t0 x v).
    { unfold ga_init in E0. minv E0. callinv.
      match goal with h : pop_append _ _ _ _ = _ |- _ => apply pop_append_ret in h; destruct h as [vs [Hl [_ ->]]] end.
      match goal with h : ga_creator _ _ = (Ret ?xs, _) |- _ => apply Hne in h; destruct xs as [|x xs]; [congruence|] end.
      destruct vs as [|v vs]; [discriminate|]. exists x, v. unfold evaluated. simpl. auto. }
    assert (L : length qs <= 1 + (n + 2) * (m + 1)).
    { apply (ga_seen_bound t qs rest (lget l u) g'); auto.
      - intros t2 q b t3 E. rewrite Et in E.
        destruct (app_prefix (fun e => forall q b, e <> EStop q b) t0 t1 t2 t3 (EStop q b)) as [c' ->]; auto.
        + intros y Hy q' b' ->. apply in_split in Hy. destruct Hy as [a [c ->]].
          rewrite stops_app in S0. simpl in S0. destruct (stops a); discriminate.
        + intros F. now apply (F q b).
        + destruct Ans as [x [v Hx]]. exists x, v. apply in_or_app. now left.
      - rewrite N. cbn [pop_view as_iter]. now rewrite Z0. }
    split.
    - intros Hf E. apply R1 in E. destruct K as [[_ [_ K]]|[s' [K _]]]; [lia|congruence].
    - intros r s' E. specialize (R2 r s' E). destruct K as [[K _]|[s2 [K [_ K2]]]]; [congruence|].
      rewrite K in R2. injection R2 as ->. cbn [pop_view as_iter] in K2. lia.
  Qed.
End GaSettles.

(** ** Checkers that ask GoalNotChange *)
Section NoLater.
  Context {U G T : Type}.
  Variable l : lens U G.
  Hypothesis Hl : lens_ok l.
  Variable chk : alg_state T -> comp G bool.

  Lemma zoom_no_later : no_later l chk (fun s => zoom l (chk s)).
  Proof.
    intros s u u' H. unfold zoom in H. destruct (chk s (lget l u)) as [o g] eqn:E. inversion H; subst.
    destruct Hl as [H1 _]. now rewrite H1.
  Qed.
  Lemma any_no_later pre c post : no_later l chk c ->
    (forall d, In d (pre ++ post) -> forall s, keeps (lget l) (d s)) ->
    no_later l chk (composite_any (pre ++ c :: post)).
  Proof.
    intros Hc Hd. induction pre as [|d pre IH]; intros s u u' H.
    - cbn [app composite_any] in H. unfold cbind in H. destruct (c s u) as [[[|]| |] u1] eqn:E; try discriminate.
      rewrite (Hc s u u1 E). f_equal. clear E Hc.
      assert (K : forall d, In d post -> forall s, keeps (lget l) (d s)) by (intros d Hd'; apply Hd; exact Hd').
      clear Hd. revert u1 H. induction post as [|d post IH]; intros u1 H.
      + cbn in H. now inversion H.
      + cbn [composite_any] in H. unfold cbind in H. pose proof (K d (or_introl eq_refl) s u1) as Kd.
        destruct (d s u1) as [[[|]| |] u2]; try discriminate. simpl in Kd. rewrite <- Kd. apply IH; auto.
        intros d' Hd'. apply K. now right.
    - cbn [app composite_any] in H. unfold cbind in H. pose proof (Hd d (or_introl eq_refl) s u) as Kd.
      destruct (d s u) as [[[|]| |] u1] eqn:E; try discriminate. simpl in Kd. rewrite <- Kd.
      apply IH; auto. intros d' Hd'. apply Hd. now right.
  Qed.
End NoLater.

(** ** Any finite values *)
Lemma max_value : Binary.B2R 53 1024 f64_MAX = (bpow radix2 1024 - bpow radix2 (1024 - 53))%R.
Proof.
  change (Binary.B2R 53 1024 f64_MAX) with (F2R (Float radix2 9007199254740991 971)).
  unfold F2R. cbn [Fnum Fexp]. change (1024 - 53)%Z with 971%Z. change 1024%Z with (53 + 971)%Z. rewrite bpow_plus.
  change (bpow radix2 53) with 9007199254740992%R. change (IZR (Zpos 9007199254740991)) with (IZR 9007199254740991). lra.
Qed.
Lemma finite_between v : is_finite v = true ->
  leb (b_opp f64_MAX) v = true /\ leb v f64_MAX = true.
Proof.
  intros H. pose proof (abs_B2R_le_emax_minus_prec 53 1024 Hprec64 v) as B. rewrite <- max_value in B.
  assert (B' : (- Binary.B2R 53 1024 f64_MAX <= Binary.B2R 53 1024 v <= Binary.B2R 53 1024 f64_MAX)%R).
  { split; [|eapply Rle_trans; [apply Rle_abs|exact B]].
    apply Ropp_le_cancel. rewrite Ropp_involutive. eapply Rle_trans; [|exact B].
    rewrite <- Rabs_Ropp. apply Rle_abs. }
  assert (O : Binary.B2R 53 1024 (b_opp f64_MAX) = (- Binary.B2R 53 1024 f64_MAX)%R).
  { change (F2R (Float radix2 (-9007199254740991) 971) = - F2R (Float radix2 9007199254740991 971))%R.
    rewrite <- F2R_Zopp. reflexivity. }
  split; apply leb_key; rewrite !key_finite by (auto; reflexivity); rewrite ?O;
    (split; [reflexivity || (apply finite_not_nan; exact H)|split; [reflexivity || (apply finite_not_nan; exact H)|lra]]).
Qed.
Lemma finite_steps (delta : f64) : is_finite delta = true -> ltb (b_of_Z 0) delta = true ->
  exists n, steps_between (b_opp f64_MAX) f64_MAX delta n.
Proof.
  intros Hd Hp. pose proof Hp as Hp'. apply ltb_key in Hp'. destruct Hp' as [_ [_ Hp']].
  destruct (of_Z_exact (prec := 53) (emax := 1024) 0) as [Z1 Z2]; [cbv; discriminate|].
  rewrite (key_finite delta Hd), (key_finite _ Z1), Z2 in Hp'. change (IZR 0) with 0%R in Hp'.
  set (w := (Binary.B2R 53 1024 f64_MAX - Binary.B2R 53 1024 (b_opp f64_MAX))%R).
  set (q := (w / Binary.B2R 53 1024 delta)%R). destruct (archimed q) as [Hq _].
  assert (Hn : (q < INR (Z.to_nat (up q)))%R).
  { rewrite INR_IZR_INZ. eapply Rlt_le_trans; [exact Hq|]. apply IZR_le. lia. }
  exists (Z.to_nat (up q)). split; [reflexivity|]. split; [reflexivity|]. split; auto. split; auto. fold w.
  apply Rlt_le in Hn. apply (Rmult_le_compat_r (Binary.B2R 53 1024 delta)) in Hn; [|lra].
  assert (Eq : (q * Binary.B2R 53 1024 delta = w)%R) by (unfold q; field; lra). rewrite Eq in Hn. exact Hn.
Qed.
Lemma finite_values {T S X} (t : list (event T S X)) :
  (forall x v, evaluated t x v -> is_finite v = true) -> values_between (b_opp f64_MAX) f64_MAX t.
Proof. intros H x v Hx. apply finite_between. eapply H. exact Hx. Qed.

Lemma pso_settles_finite (m : nat) (delta : f64) : is_finite delta = true -> ltb (b_of_Z 0) delta = true ->
  exists B, forall (np64 : nan_policy 53 1024) (dbg : bool) (U T : Type) (FT : FloatTrait T) (l : lens U gnc)
      (cfg : pso_config U T) fuel s u o u' t,
    pso_keeps (lget l) cfg -> pso_ends cfg -> (forall a, ends (pso_stop cfg a)) ->
    no_later l (goal_not_change np64 dbg m delta) (pso_stop cfg) -> change_iter (lget l u) = 0 ->
    (forall w coords w', pso_coordinates cfg w = (Ret coords, w') -> coords <> []) ->
    pso_find_min cfg fuel s u = (o, u', t) -> (forall x v, evaluated t x v -> is_finite v = true) ->
    (B < fuel -> o <> NoFuel) /\ (forall r s', o = Ret (r, s') -> sw_iteration s' <= B).
Proof.
  intros Hd Hp. destruct (finite_steps delta Hd Hp) as [n Hn]. exists ((n + 2) * (m + 1)). intros.
  eapply pso_settles_find; eauto. now apply finite_values.
Qed.
Lemma ga_settles_finite (m : nat) (delta : f64) : is_finite delta = true -> ltb (b_of_Z 0) delta = true ->
  exists B, forall (np64 : nan_policy 53 1024) (dbg : bool) (U T : Type) (l : lens U gnc)
      (cfg : ga_config U T) fuel p u o u' t,
    Forall selection_copies (ga_selections cfg) -> Forall keeps_best (ga_selections cfg) ->
    ga_keeps (lget l) cfg -> ga_ends cfg -> (forall a, ends (ga_stop cfg a)) ->
    no_later l (goal_not_change np64 dbg m delta) (ga_stop cfg) -> change_iter (lget l u) = 0 ->
    (forall w xs w', ga_creator cfg w = (Ret xs, w') -> xs <> []) ->
    ga_find_min cfg fuel p u = (o, u', t) -> (forall x v, evaluated t x v -> is_finite v = true) ->
    (B < fuel -> o <> NoFuel) /\ (forall r p', o = Ret (r, p') -> iteration p' <= B).
Proof.
  intros Hd Hp. destruct (finite_steps delta Hd Hp) as [n Hn]. exists (1 + (n + 2) * (m + 1)). intros.
  eapply ga_settles_find; eauto. now apply finite_values.
Qed.

(** ** No particles, no end *)
Lemma empty_swarm_endless np64 dbg m delta {U T} {FT : FloatTrait T} (l : lens U gnc) (cfg : pso_config U T)
    fuel s u r s' u' t :
  pso_stop cfg = (fun a => zoom l (goal_not_change np64 dbg m delta a)) ->
  (forall w coords w', pso_coordinates cfg w = (Ret coords, w') -> coords = []) ->
  pso_find_min cfg fuel s u <> (Ret (r, s'), u', t).
Proof.
  intros Hs Hc H. pose proof (pso_find_genuine cfg fuel s u _ u' t H) as G. rewrite Forall_forall in G.
  destruct (pso_finish cfg fuel s u r s' u' t (or_introl H)) as [[t0 E] Er].
  destruct (pso_none cfg fuel s u r s' u' t H) as [xs [t1 [Ex Hn]]].
  assert (Hx : xs = []).
  { assert (Hin : In (ECall (PCoordinates xs)) t) by (rewrite Ex; now left).
    destruct (G _ Hin) as [w [w' Hw]]. eauto. }
  apply Hn in Hx. rewrite Er in Hx. destruct (best_particle s') eqn:Eb; [discriminate|].
  assert (Hin : In (EStop s' true) t) by (rewrite E; apply in_elt).
  destruct (G _ Hin) as [w [w' Hw]]. rewrite Hs in Hw. unfold zoom, goal_not_change, pso_view in Hw.
  cbn [as_best] in Hw. rewrite Eb in Hw. cbn in Hw. discriminate.
Qed.
